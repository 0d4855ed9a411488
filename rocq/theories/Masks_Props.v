(** The code emitted for NonZero, Trilu, EyeLike and ConstantOfShape computes the
    ONNX result (C63). *)
From Coq Require Import Lia ZifyBool ZifyNat ZifyN SpecFloat.
From Verif Require Import Tensor_Proofs Elements_Spec Elements_Props Payload_Spec Masks_Proofs.
From Verif Require Import Payload_Model TensorRun_Model Index_Model.
Import Masks_Spec BinOps_Spec Tensor_Spec.
Local Open Scope N_scope.

Theorem C63_nonzero : forall (n : rnode) (e : menv) (ax o : arg) (d : dtype) (x : tensor elt),
  ninputs n = [ax] -> noutputs n = [o] -> mholds e ax d x ->
  exists c z ty, gen_nonzero n = Some c /\ mrun e c = Some (MInts z) /\ nonzero_result x z /\ infer_nonzero n = IOk ty /\ mtyped ty (MInts z).
Proof.
  intros n e ax o d x Hin Ho (W & Hd & He & t & Ht & Ed & Er). destruct (nonzero_ok d x W Hd) as (bs & z & Hbs & Hz & R).
  exists (KNonZero (nz_of d) (aname ax)), z, (TensorT (mkTT I64 2 (Some [Some (tt_rank t); None]))).
  split; [unfold gen_nonzero; rewrite Hin, Ht, Ed; reflexivity|].
  split; [cbn [mrun]; rewrite He, Hbs; cbn [obind]; rewrite Hz; reflexivity|]. split; [exact R|].
  split; [unfold infer_nonzero, first_input; rewrite Hin; cbn [ibind]; rewrite Ht; reflexivity|].
  destruct R as (_ & places & _ & Sz & _). cbn [mtyped tt_dtype tt_rank tt_shape]. rewrite Sz. split; [reflexivity|]. split; [reflexivity|].
  intros s Hs. injection Hs as <-. constructor; [right; rewrite Er; reflexivity|]. constructor; [left; reflexivity|constructor].
Qed.
Print Assumptions C63_nonzero.

(** The second input of Trilu: absent, or a constant. *)
Definition diagonal (value : arg -> option cval) (rest : list arg) (k : Z) : Prop :=
  match rest with
  | [] => k = 0%Z
  | [a] => exists s, value a = Some (mkC s I64 (Some [k]))
  | _ => False
  end.
(** Trilu.  Missing: a diagonal that is computed at run time, and tensors of
    booleans (below). *)
Theorem C63_trilu_partial : forall (value : arg -> option cval) (n : rnode) (e : menv) (ax o : arg) (rest : list arg) (d : dtype) (x : tensor elt) (u k : Z),
  ninputs n = ax :: rest -> noutputs n = [o] -> mholds e ax d x -> (2 <= length (tshape x))%nat -> d <> BoolT ->
  int_attr n "upper" 1 u -> diagonal value rest k ->
  exists c z ty, gen_trilu value n = Some c /\ mrun e c = Some (MTens d z) /\ triangle (zero_of d) (negb (u =? 0)%Z) k x z /\ infer_trilu n = IOk ty /\ mtyped ty (MTens d z).
Proof.
  intros value n e ax o rest d x u k Hin Ho (W & Hd & He & t & Ht & Ed & Er) Hr Hb Hu Hk. destruct (tri_ok (negb (u =? 0)%Z) k d x W Hb Hr) as (z & Hz & R).
  exists (KTri (negb (u =? 0)%Z) (aname ax) k), z, (aty ax).
  assert (Ec : trilu_config value n = IOk (negb (u =? 0)%Z, k)).
  { unfold trilu_config, attr_i64_or. unfold int_attr in Hu.
    assert (E : match get_attr n "upper" with Some a => attr_i64 a | None => IOk 1%Z end = IOk u).
    { destruct (get_attr n "upper") as [[]|]; try contradiction; subst; reflexivity. }
    rewrite E. cbn [ibind]. rewrite Hin. destruct rest as [|a [|b rest]]; cbn in Hk; [subst k; reflexivity| |contradiction]. destruct Hk as (s & ->). reflexivity. }
  split; [unfold gen_trilu; rewrite Ec, Hin; reflexivity|]. split; [cbn [mrun]; rewrite He, Hz; reflexivity|]. split; [exact R|].
  split; [unfold infer_trilu, first_input; rewrite Hin; cbn [ibind]; rewrite Ht; replace (tt_rank t <? 2) with false by lia; reflexivity|].
  rewrite Ht. cbn [mtyped]. destruct R as (_ & -> & _). split; [exact Ed|exact Er].
Qed.
Print Assumptions C63_trilu_partial.

Theorem C63_eye_like : forall (n : rnode) (e : menv) (ax o : arg) (d d' : dtype) (x : tensor elt) (k : Z),
  ninputs n = [ax] -> noutputs n = [o] -> mholds e ax d x -> length (tshape x) = 2%nat ->
  attrs_among n ["dtype"%string; "k"%string] -> int_attr n "k" 0 k -> eye_dtype n d d' ->
  exists c z ty, infer_eye_like n = IOk ty /\ gen_eye_like n ty = Some c /\ mrun e c = Some (MTens d' z) /\
    eye (zero_of d') (one_of d') k (tshape x) z /\ mtyped ty (MTens d' z).
Proof.
  intros n e ax o d d' x k Hin Ho (W & Hd & He & t & Ht & Ed & Er) Hr Hat Hk Hd'. destruct (eye_ok k d' (tshape x) Hr) as (m & l & Hm & Hl & R).
  exists (KEye (aname ax) k (conv_to d')), (mkT (tshape x) (map snd l)), (TensorT (mkTT d' (tt_rank t) (tt_shape t))).
  assert (Ec : exists o, eye_like_config n = IOk (o, k) /\ match o with Some d => d | None => tt_dtype t end = d').
  { unfold eye_like_config, attr_i64_or. rewrite (only_among _ _ Hat). unfold int_attr in Hk. unfold eye_dtype in Hd'.
    assert (E : match get_attr n "k" with Some a => attr_i64 a | None => IOk 0%Z end = IOk k).
    { destruct (get_attr n "k") as [[]|]; try contradiction; subst; reflexivity. }
    destruct (get_attr n "dtype") as [[]|]; try contradiction.
    - subst z. cbn [attr_i64 ibind]. replace (element_type_from_proto (Fold_Model.as_i32 (type_code d'))) with (Some d') by (destruct d'; reflexivity). cbn [ibind]. rewrite E. eexists. split; reflexivity.
    - subst d'. cbn [ibind]. rewrite E. eexists. split; [reflexivity|exact Ed]. }
  destruct Ec as (od & Ec & Eo).
  split; [unfold infer_eye_like, first_input; rewrite Hin; cbn [ibind]; rewrite Ht; replace (negb (tt_rank t =? 2)) with false by lia; rewrite Ec; cbn [iexpect ibind fst]; rewrite Eo; reflexivity|].
  split; [unfold gen_eye_like; rewrite Ec, Hin; cbn [tt_dtype]; destruct d'; reflexivity|].
  split; [cbn [mrun]; rewrite He, Hm; cbn [obind]; rewrite Hl; cbn [obind]; destruct d'; reflexivity|].
  split; [exact R|]. cbn [mtyped tt_dtype tt_rank tshape]. split; [reflexivity|exact Er].
Qed.
Print Assumptions C63_eye_like.

(** The input of ConstantOfShape: a constant, or a shape computed at run time. *)
Definition asks (value : arg -> option cval) (e : menv) (a : arg) (dims : list Z) : Prop :=
  (exists s d, value a = Some (mkC s d (Some dims)) /\ (aty a = ShapeT (N.of_nat (length dims)) \/ exists sh, aty a = TensorT (mkTT I64 1 sh))) \/
  (value a = None /\ aty a = ShapeT (N.of_nat (length dims)) /\ e (aname a) = Some (MShape dims)).
Definition literal_type (d : dtype) : Prop := d = F32 \/ d = F64 \/ d = I32 \/ d = I64 \/ d = BoolT.
(** ConstantOfShape.  Missing: values other than zero of the remaining data types,
    and a shape in a tensor computed at run time (below). *)
Theorem C63_constant_of_shape_partial : forall (value : arg -> option cval) (load : N -> dtype * option elt) (n : rnode) (e : menv) (ai o : arg) (dims : list Z) (d : dtype) (v : elt),
  ninputs n = [ai] -> noutputs n = [o] -> asks value e ai dims -> (forall z, In z dims -> (0 <= z < 2 ^ 63)%Z) -> fill_of load n d v ->
  literal_type d \/ (v = zero_of d /\ dims <> []) ->
  exists ty c m z, infer_constant value load n = IOk ty /\ gen_constant value load n ty = Some c /\ mrun e c = Some m /\ stands d z m /\ filled v dims z /\ mtyped ty m.
Proof.
  intros value load n e ai o dims d v Hin Ho Ha Hdims Hf Hd.
  assert (Hdims' : forall z, In z dims -> (0 <= z < 18446744073709551616)%Z) by (intros z Hz; specialize (Hdims z Hz); lia).
  assert (Hpos : forall z, In z dims -> (0 <= z)%Z) by (intros z Hz; specialize (Hdims z Hz); lia).
  (* the configuration and the rank *)
  assert (Ev : exists ov, fill_attr load n = IOk ov /\ match ov with Some (d', _) => d' | None => F32 end = d /\
    ((ov = None /\ d = F32 /\ v = zero_of F32) \/ (ov = Some (d, Some v) /\ in_dtype d v))).
  { unfold fill_of in Hf. unfold fill_attr. destruct (get_attr n "value") as [[]|]; try contradiction.
    - destruct Hf as (Hl & Hi). exists (Some (load payload)). rewrite Hl. split; [reflexivity|]. split; [reflexivity|]. right. split; [reflexivity|exact Hi].
    - destruct Hf as (-> & ->). exists None. split; [reflexivity|]. split; [reflexivity|]. left. auto. }
  destruct Ev as (ov & Ev & Eov & Hov).
  assert (Es : exists s, constant_config value load n = IOk (s, ov) /\ constant_rank value ai = IOk (N.of_nat (length dims)) /\ fill_dims e s = Some dims /\
    (forall c, value ai = Some c -> cv_ints c = Some dims)).
  { unfold constant_config, first_input. rewrite Hin. cbn [ibind]. unfold constant_rank. destruct Ha as [(s & d0 & Hv & Ht)|(Hv & Ht & Hee)]; rewrite Hv; cbn [cv_ints ibind]; rewrite Ev; eexists; (split; [reflexivity|]).
    - split; [destruct Ht as [-> |(sh & ->)]; reflexivity|]. split; [cbn [fill_dims]; rewrite usize_id by exact Hdims'; reflexivity|]. intros c Hc. injection Hc as <-. reflexivity.
    - rewrite Ht. split; [reflexivity|]. split; [cbn [fill_dims]; rewrite Hee; reflexivity|]. intros c Hc. discriminate Hc. }
  destruct Es as (s & Ec & Erk & Efd & Hcv).
  assert (Elit : exists l, literal ov = Some l /\ fill_value l d = Some v /\
     (literal_type d -> l = LVal d v \/ (l = LZero /\ d = F32 /\ v = zero_of F32)) /\ (d = I64 -> l = LVal d v) /\ (d = BoolT -> l = LVal d v)).
  { destruct Hov as [(-> & -> & ->)|(-> & Hi)].
    - exists LZero. split; [reflexivity|]. split; [reflexivity|]. split; [intros _; right; auto|]. split; discriminate.
    - destruct Hd as [Hd|(Hv & Hne)].
      + exists (LVal d v). split; [destruct Hd as [-> |[-> |[-> |[-> | ->]]]]; reflexivity|]. split; [cbn; destruct d; reflexivity|]. split; [intros _; left; reflexivity|]. auto.
      + assert (C : literal_type d \/ literal (Some (d, Some v)) = Some LZero) by (unfold literal_type; destruct d; auto 6).
        destruct C as [C|C].
        * exists (LVal d v). split; [destruct C as [-> |[-> |[-> |[-> | ->]]]]; reflexivity|]. split; [cbn; destruct d; reflexivity|]. split; [intros _; left; reflexivity|]. auto.
        * exists LZero. split; [exact C|]. split; [cbn; congruence|]. split; [intros [-> |[-> |[-> |[-> | ->]]]]; discriminate C|]. split; intros ->; discriminate C. }
  destruct Elit as (l & El & Efv & Hlit & HI & HB).
  assert (Gen : forall ty, gen_constant value load n ty = match ty with
    | ScalarNative _ | ScalarTensor _ => Some (KLit l)
    | TensorT t => match ov with Some (BoolT, Some (EB b)) => Some (KBool b s) | Some (BoolT, _) => None | _ => Some (KFill l (tt_dtype t) (tt_rank t) s) end
    | ShapeT k => Some (KArray l k) end).
  { intros ty. unfold gen_constant. rewrite Ec, El. reflexivity. }
  (* a tensor *)
  assert (Tens : dims <> [] -> exists c m z, gen_constant value load n (TensorT (mkTT d (N.of_nat (length dims)) None)) = Some c /\ mrun e c = Some m /\ stands d z m /\ filled v dims z /\ mtyped (TensorT (mkTT d (N.of_nat (length dims)) None)) m).
  { intros Hne. rewrite Gen. cbn [tt_dtype tt_rank].
    assert (Len : forall z : tensor elt, filled v dims z -> tshape z <> [] /\ N.of_nat (length dims) = N.of_nat (length (tshape z))).
    { intros z (_ & F2 & _). pose proof (Forall2_length F2) as Hl. split; [|lia]. intros E. rewrite E in Hl. destruct dims; [contradiction|discriminate Hl]. }
    destruct (dtype_eq_dec d BoolT) as [Eb|Eb].
    - clear Eov. subst d. destruct Hov as [(_ & E & _)|(-> & Hi)]; [discriminate E|]. destruct v as [z0|b|f]; cbn in Hi; [destruct Hi as (? & ? & ? & _); discriminate| |destruct Hi as (? & ?); discriminate].
      destruct (tab_const (map to_usize dims) (EB b)) as (z & Hz & Wz & Sz & Gz). exists (KBool b s), (MTens BoolT z), z. split; [reflexivity|].
      split; [cbn [mrun]; rewrite Efd; cbn [obind]; rewrite Hz; reflexivity|].
      assert (F : filled (EB b) dims z) by (split; [exact Wz|]; rewrite Sz; split; [apply usize_dims; exact Hdims'|exact Gz]).
      destruct (Len z F) as (L1 & L2). split; [cbn; auto|]. split; [exact F|]. cbn. auto.
    - destruct (fill_ok v dims Hpos) as (t1 & z & H1 & H2 & F). destruct (Len z F) as (L1 & L2).
      exists (KFill l d (N.of_nat (length dims)) s), (MTens d z), z.
      split. { destruct Hov as [(-> & _ & _)|(-> & _)]; [reflexivity|]. destruct d; try reflexivity. contradiction. }
      split; [cbn [mrun]; rewrite Efv; cbn [obind]; rewrite Nat2N.id, H1; cbn [obind]; rewrite Efd; cbn [obind]; rewrite Nat.eqb_refl, H2; reflexivity|].
      split; [cbn; auto|]. split; [exact F|]. cbn. auto. }
  (* a scalar *)
  assert (Scal : dims = [] -> exists c m z, gen_constant value load n (ScalarNative d) = Some c /\ mrun e c = Some m /\ stands d z m /\ filled v dims z /\ mtyped (ScalarNative d) m).
  { intros ->. rewrite Gen. destruct Hd as [Hd|(_ & Hd)]; [|contradiction]. exists (KLit l), (MScalar d v), (mkT [] [v]). split; [reflexivity|].
    split. { destruct (Hlit Hd) as [-> |(-> & -> & ->)]; reflexivity. }
    split; [cbn; auto|]. split; [|reflexivity]. split; [reflexivity|]. split; [constructor|]. intros p Hp. inversion Hp. reflexivity. }
  assert (Inf : infer_constant value load n = if (N.of_nat (length dims) =? 1) && dtype_beq d I64 then
      match value ai with Some c => match cv_ints c with Some (z :: _) => IOk (ShapeT (to_usize z)) | Some [] => IOk (ScalarNative d) | None => IOk (TensorT (mkTT d (N.of_nat (length dims)) None)) end
      | None => IOk (TensorT (mkTT d (N.of_nat (length dims)) None)) end
      else if N.of_nat (length dims) =? 0 then IOk (ScalarNative d) else IOk (TensorT (mkTT d (N.of_nat (length dims)) None))).
  { unfold infer_constant, first_input. rewrite Hin. cbn [ibind]. rewrite Ec. cbn [iexpect ibind snd]. rewrite Erk. cbn [ibind]. rewrite Eov. reflexivity. }
  destruct dims as [|z0 dims0] eqn:Edims.
  - exists (ScalarNative d). destruct (Scal eq_refl) as (c & m & z & R). exists c, m, z. split; [rewrite Inf; reflexivity|exact R].
  - destruct ((N.of_nat (length (z0 :: dims0)) =? 1) && dtype_beq d I64)%bool eqn:E1.
    + apply andb_prop in E1. destruct E1 as (E1 & E2). assert (Ed : d = I64) by (destruct d; (reflexivity || discriminate E2)). clear Eov. subst d.
      assert (dims0 = []) by (destruct dims0; [reflexivity|cbn [length] in E1; lia]). subst dims0.
      destruct (value ai) as [cc|] eqn:Eva.
      * rewrite (Hcv cc eq_refl) in Inf. exists (ShapeT (to_usize z0)). rewrite Gen. specialize (HI eq_refl). subst l.
        destruct Hov as [(_ & E & _)|(_ & Hi)]; [discriminate E|]. destruct v as [w|b|f]; [|discriminate Hi|destruct Hi as (? & ?); discriminate].
        exists (KArray (LVal I64 (EI w)) (to_usize z0)), (MShape (repeat w (N.to_nat (to_usize z0)))), (mkT [to_usize z0] (repeat (EI w) (N.to_nat (to_usize z0)))).
        split; [exact Inf|]. split; [reflexivity|]. split; [reflexivity|].
        split. { cbn [stands]. rewrite repeat_length, N2Nat.id. split; [reflexivity|]. f_equal. clear. induction (N.to_nat (to_usize z0)); cbn; [reflexivity|]. f_equal. assumption. }
        split; [|cbn; rewrite repeat_length; lia].
        split; [unfold twf; cbn [tdata tshape prodN]; rewrite repeat_length; lia|]. split; [cbn [tshape]; exact (usize_dims _ Hdims')|].
        intros p Hp. cbn [tshape] in Hp. inversion Hp as [|i ? ? ? Hi0 Hp1]; subst. inversion Hp1; subst. unfold get. cbn [tshape tdata offset prodN].
        rewrite (nth_error_nth' _ (EI w)) by (rewrite repeat_length; lia). f_equal. apply nth_repeat.
      * eexists. destruct (Tens ltac:(discriminate)) as (c & m & z & R). exists c, m, z. split; [exact Inf|exact R].
    + eexists. destruct (Tens ltac:(discriminate)) as (c & m & z & R). exists c, m, z. split; [rewrite Inf; cbn [length]; replace (N.of_nat (S (length dims0)) =? 0) with false by lia; reflexivity|exact R].
Qed.
Print Assumptions C63_constant_of_shape_partial.

(** ** Cases that meet the hypotheses *)
Definition marg (x : string) (d : dtype) (r : N) : arg := mkArg x (TensorT (mkTT d r None)) VDynamic.
Definition mnode (ty : string) (ins : list arg) (attrs : list (string * attr)) : rnode := mkNode ty "n" ins [marg "o" F32 2] attrs.
Definition menv1 (x : string) (m : mval) : menv := fun k => if String.eqb k x then Some m else None.
Definition ints (s : list N) (l : list Z) : tensor elt := mkT s (map EI l).
Definition m23 : tensor elt := ints [2; 3] [5; 0; 7; 0; -1; 2]%Z.
Lemma m23_held : mholds (menv1 "x" (MTens I64 m23)) (marg "x" I64 2) I64 m23.
Proof.
  split; [reflexivity|]. split; [|split; [reflexivity|eexists; split; [reflexivity|split; reflexivity]]].
  intros v H. cbn in H. repeat destruct H as [<-|H]; try contradiction; eexists _, _; (split; [reflexivity|lia]).
Qed.
Example C63_nonzero_case : exists c, gen_nonzero (mnode "NonZero" [marg "x" I64 2] []) = Some c /\
  mrun (menv1 "x" (MTens I64 m23)) c = Some (MInts (mkT [2; 4] [0; 0; 1; 1; 0; 2; 1; 2]%Z)).
Proof. eexists. split; [reflexivity|]. vm_compute. reflexivity. Qed.
Definition kval (k : Z) (a : arg) : option cval := if String.eqb (aname a) "k" then Some (mkC [] I64 (Some [k])) else None.
Example C63_trilu_case :
  (exists c, gen_trilu (kval 1) (mnode "Trilu" [marg "x" I64 2; marg "k" I64 0] []) = Some c /\
     mrun (menv1 "x" (MTens I64 m23)) c = Some (MTens I64 (ints [2; 3] [0; 0; 7; 0; 0; 2]%Z))) /\
  (exists c, gen_trilu (kval (-1)) (mnode "Trilu" [marg "x" I64 2; marg "k" I64 0] [("upper"%string, AInt 0)]) = Some c /\
     mrun (menv1 "x" (MTens I64 m23)) c = Some (MTens I64 (ints [2; 3] [0; 0; 0; 0; 0; 0]%Z))) /\
  diagonal (kval 1) [marg "k" I64 0] 1%Z /\ int_attr (mnode "Trilu" [] []) "upper" 1 1.
Proof. split; [|split; [|split; [exists []; reflexivity|reflexivity]]]; eexists; (split; [reflexivity|]); vm_compute; reflexivity. Qed.
Definition eye_attrs : list (string * attr) := [("k"%string, AInt (-1)); ("dtype"%string, AInt 9)].
Example C63_eye_like_case :
  attrs_among (mnode "EyeLike" [marg "x" I64 2] eye_attrs) ["dtype"%string; "k"%string] /\ eye_dtype (mnode "EyeLike" [marg "x" I64 2] eye_attrs) I64 BoolT /\
  exists ty c, infer_eye_like (mnode "EyeLike" [marg "x" I64 2] eye_attrs) = IOk ty /\ gen_eye_like (mnode "EyeLike" [marg "x" I64 2] eye_attrs) ty = Some c /\
    mrun (menv1 "x" (MTens I64 m23)) c = Some (MTens BoolT (mkT [2; 3] [EB false; EB false; EB false; EB true; EB false; EB false])).
Proof.
  split; [intros k a [H|[H|[]]]; injection H as <- _; [right; left|left]; reflexivity|]. split; [reflexivity|].
  eexists _, _. split; [reflexivity|]. split; [reflexivity|]. vm_compute. reflexivity.
Qed.
(** A run-time shape filled with an integer; a constant length filled with one. *)
Definition sarg : arg := mkArg "s" (ShapeT 2) VDynamic.
Definition five (p : N) : dtype * option elt := (I64, Some (EI 5)).
Definition fill_attrs : list (string * attr) := [("value"%string, ATensor 0)].
Definition sval (a : arg) : option cval := if String.eqb (aname a) "k" then Some (mkC [1] I64 (Some [3%Z])) else None.
Example C63_constant_case :
  asks sval (menv1 "s" (MShape [2; 1]%Z)) sarg [2; 1]%Z /\ fill_of five (mnode "ConstantOfShape" [sarg] fill_attrs) I64 (EI 5) /\ literal_type I64 /\
  (exists ty c, infer_constant sval five (mnode "ConstantOfShape" [sarg] fill_attrs) = IOk ty /\ gen_constant sval five (mnode "ConstantOfShape" [sarg] fill_attrs) ty = Some c /\
     mrun (menv1 "s" (MShape [2; 1]%Z)) c = Some (MTens I64 (ints [2; 1] [5; 5]%Z))) /\
  asks sval (menv1 "s" (MShape [2; 1]%Z)) (marg "k" I64 1) [3]%Z /\
  (exists ty c, infer_constant sval five (mnode "ConstantOfShape" [marg "k" I64 1] fill_attrs) = IOk ty /\ gen_constant sval five (mnode "ConstantOfShape" [marg "k" I64 1] fill_attrs) ty = Some c /\
     mrun (menv1 "s" (MShape [2; 1]%Z)) c = Some (MShape [5; 5; 5]%Z)).
Proof.
  split; [right; auto|]. split; [split; [reflexivity|eexists _, _; split; [reflexivity|lia]]|]. split; [right; right; right; left; reflexivity|].
  split; [eexists _, _; split; [reflexivity|]; split; [reflexivity|]; vm_compute; reflexivity|].
  split; [left; eexists _, _; split; [reflexivity|right; eexists; reflexivity]|].
  eexists _, _. split; [reflexivity|]. split; [reflexivity|]. vm_compute. reflexivity.
Qed.

(** ** What does not hold *)
(** A diagonal computed at run time is taken to be the main one: whatever it is,
    the element on the main diagonal stays. *)
Theorem C63_runtime_diagonal_refuted :
  exists c z, gen_trilu (fun _ => None) (mnode "Trilu" [marg "x" I64 2; marg "k" I64 0] []) = Some c /\
    mrun (menv1 "x" (MTens I64 m23)) c = Some (MTens I64 z) /\ ~ triangle (zero_of I64) true 1 m23 z.
Proof.
  eexists _, _. split; [reflexivity|]. split; [vm_compute; reflexivity|]. intros (_ & _ & H).
  specialize (H [] 0 0 ltac:(repeat constructor)). vm_compute in H. discriminate H.
Qed.
Print Assumptions C63_runtime_diagonal_refuted.
(** Trilu of booleans, which ONNX allows: the code has no result. *)
Theorem C63_trilu_bool_refuted : forall (value : arg -> option cval) (n : rnode) (e : menv) (ax : arg) (rest : list arg) (x : tensor elt) (c : mcode),
  ninputs n = ax :: rest -> mholds e ax BoolT x -> gen_trilu value n = Some c -> mrun e c = None.
Proof.
  intros value n e ax rest x c Hin (_ & _ & He & _) Hc. unfold gen_trilu in Hc. destruct (trilu_config value n) as [[u k]| |]; try discriminate. rewrite Hin in Hc. injection Hc as <-.
  cbn [mrun]. rewrite He. reflexivity.
Qed.
Print Assumptions C63_trilu_bool_refuted.
(** Ones of half precision become zeros. *)
Theorem C63_fill_half_refuted : let n := mnode "ConstantOfShape" [sarg] fill_attrs in
  let load := fun _ : N => (F16, Some (one_of F16)) in
  fill_of load n F16 (one_of F16) /\
  exists ty c, infer_constant sval load n = IOk ty /\ gen_constant sval load n ty = Some c /\
    mrun (menv1 "s" (MShape [1; 2]%Z)) c = Some (MTens F16 (mkT [1; 2] [zero_of F16; zero_of F16])).
Proof.
  cbv zeta. split; [split; [reflexivity|eexists; reflexivity]|]. eexists _, _. split; [reflexivity|]. split; [reflexivity|]. vm_compute. reflexivity.
Qed.
Print Assumptions C63_fill_half_refuted.
(** A shape in a tensor computed at run time, of known length: the importer
    accepts it, but the code uses the tensor as an array. *)
Theorem C63_tensor_shape_refuted : forall (load : N -> dtype * option elt) (n : rnode) (e : menv) (ai : arg) (k : N) (x : tensor elt),
  ninputs n = [ai] -> aty ai = TensorT (mkTT I64 1 (Some [Some k])) -> 0 < k -> e (aname ai) = Some (MTens I64 x) -> fill_attr load n = IOk None ->
  infer_constant (fun _ => None) load n = IOk (TensorT (mkTT F32 k None)) /\
  exists c, gen_constant (fun _ => None) load n (TensorT (mkTT F32 k None)) = Some c /\ mrun e c = None.
Proof.
  intros load n e ai k x Hin Ht Hk He Hf.
  assert (Ec : constant_config (fun _ => None) load n = IOk (FRuntime (aname ai), None)).
  { unfold constant_config, first_input. rewrite Hin. cbn [ibind]. rewrite Hf. reflexivity. }
  split.
  - unfold infer_constant, first_input. rewrite Hin. cbn [ibind]. rewrite Ec. cbn [iexpect ibind snd]. unfold constant_rank. rewrite Ht. cbn [tt_rank tt_dtype tt_shape N.eqb negb Pos.eqb ibind]. cbn [dtype_beq negb].
    change (dtype_beq I64 I64) with true. cbn [negb ibind]. change (dtype_beq F32 I64) with false. rewrite Bool.andb_false_r. replace (k =? 0) with false by lia. reflexivity.
  - unfold gen_constant. rewrite Ec. cbn [literal obind tt_dtype tt_rank]. eexists. split; [reflexivity|]. cbn [mrun fill_value obind fill_dims]. rewrite He.
    unfold b_reshape, reshape_flat. cbn [tdata length]. rewrite prod_ones. reflexivity.
Qed.
Print Assumptions C63_tensor_shape_refuted.
