(** GatherElements and ScatterElements compute what ONNX prescribes (C62). *)
From Coq Require Import Lia ZifyBool ZifyNat ZifyN SpecFloat.
From Verif Require Import Tensor_Proofs ShapeOps_Spec ShapeOps_Proofs Lines_Proofs Lines_Nodes Elements_Proofs.
Import Elements_Spec Index_Spec Lines_Spec Tensor_Spec.
Local Open Scope N_scope.

Lemma only_among n ks : attrs_among n ks -> only_attrs n ks = true.
Proof.
  intros H. unfold only_attrs. apply forallb_forall. intros [k a] Hk. apply existsb_exists. exists k. split; [exact (H k a Hk)|apply String.eqb_refl].
Qed.
Lemma axis_found {A} n (x : tensor A) rank : int_axis n -> axis_ok (axis_or n 0) x -> rank = N.of_nat (length (tshape x)) -> rank < 2 ^ 63 ->
  elements_axis n rank = IOk (N.of_nat (element_axis n x)).
Proof.
  intros Hi Ha Hr H63. unfold elements_axis, attr_i64_or, element_axis. unfold axis_ok in Ha.
  assert (E : match get_attr n "axis" with Some a => attr_i64 a | None => IOk 0%Z end = IOk (axis_or n 0)).
  { unfold axis_or. destruct (get_attr n "axis") as [a|] eqn:E; [|reflexivity]. destruct (Hi a E) as (z & ->). reflexivity. }
  rewrite E. cbn [ibind]. set (a := axis_or n 0) in *. rewrite Hr, nat_N_Z.
  assert (N1 : norm_axis (N.of_nat (length (tshape x))) a = N.of_nat (position (length (tshape x)) a)).
  { rewrite norm_axis_position; [rewrite Nat2N.id; reflexivity| |lia]. change 9223372036854775808 with (2 ^ 63). lia. }
  rewrite <- N1. unfold norm_axis. rewrite nat_N_Z. destruct (a <? 0)%Z eqn:Ez.
  - replace ((a + Z.of_nat (length (tshape x)) <? 0)%Z || (Z.of_nat (length (tshape x)) <=? a + Z.of_nat (length (tshape x)))%Z)%bool with false by lia. reflexivity.
  - replace ((a <? 0)%Z || (Z.of_nat (length (tshape x)) <=? a)%Z)%bool with false by lia. reflexivity.
Qed.

(** The element type is that of the data. *)
Definition same_elements (ty ty' : argty) : Prop := exists t t', ty = TensorT t /\ ty' = TensorT t' /\ tt_dtype t = tt_dtype t'.

(** GatherElements.  Missing: negative indices and indices smaller than the data
    away from the axis (below). *)
Theorem C62_gather_partial : forall (T : Type) (add sub mul : T -> T -> T) (le : T -> T -> bool) (n : rnode) (e : lenv T) (ax ai o : arg) (ti : tensor_type) (x : tensor T) (ix : tensor Z),
  ninputs n = [ax; ai] -> noutputs n = [o] -> attrs_among n ["axis"%string] -> int_axis n ->
  lholds e ax x -> iholds e ai ix -> aty ai = TensorT ti -> tt_rank ti = N.of_nat (length (tshape ix)) ->
  axis_ok (axis_or n 0) x -> indices_fit (tshape x) (element_axis n x) ix -> plain_indices (tshape x) (element_axis n x) ix ->
  exists c z ty, gen_gather_elements n = Some c /\ erun add sub mul le e c = Some z /\ gathered (element_axis n x) x ix z /\
    infer_gather_elements n = IOk ty /\ ranked ty z /\ same_elements ty (aty ax).
Proof.
  intros T add sub mul le n e ax ai o ti x ix Hin Ho Hat Hint (W & t & Ht & He & Hr & H63) (Wi & Hei) Hti Hri Ha F P.
  destruct (gather_at_ok _ x ix W F P) as (z & Hz & Gz). eexists _, z, _. unfold gen_gather_elements, gather_elements_config, first_input. rewrite Hin. cbn [ibind]. rewrite Ht, (only_among _ _ Hat), (axis_found n x _ Hint Ha Hr H63).
  split; [reflexivity|]. cbn [erun]. unfold ltens, eints. rewrite He, Hei. cbn [obind]. split; [exact Hz|]. split; [exact Gz|].
  unfold infer_gather_elements. rewrite Hin, Ho, Ht, Hti. split; [reflexivity|]. split; [eexists; split; [reflexivity|]; cbn [tt_rank]; destruct Gz as (_ & -> & _); exact Hri|]. eexists _, _. split; [reflexivity|]. split; reflexivity.
Qed.
Print Assumptions C62_gather_partial.

(** ScatterElements, for every reduction.  Missing, for numbers without reduction
    or with addition: negative indices and indices smaller than the data away from
    the axis; without reduction also numbers for which adding a difference does not
    give back the number (below); reductions of booleans, which are refused. *)
Theorem C62_scatter_partial : forall (T : Type) (add sub mul : T -> T -> T) (le : T -> T -> bool),
  (forall a b, le a b = true \/ le b a = true) -> (forall a b, le a b = true -> le b a = true -> a = b) ->
  forall (n : rnode) (e : lenv T) (ax ai au o : arg) (t : tensor_type) (x : tensor T) (ix : tensor Z) (u : tensor T) (red : reduction),
  ninputs n = [ax; ai; au] -> noutputs n = [o] -> attrs_among n ["axis"%string; "reduction"%string] -> int_axis n -> reduction_attr n = Some red ->
  lholds e ax x -> aty ax = TensorT t -> iholds e ai ix -> e (aname au) = Some (LT u) -> twf u -> tshape u = tshape ix ->
  axis_ok (axis_or n 0) x -> indices_fit (tshape x) (element_axis n x) ix ->
  (red = RedNone -> distinct (tshape x) (element_axis n x) ix) ->
  (tt_dtype t = BoolT -> red = RedNone) ->
  (tt_dtype t <> BoolT -> red = RedNone \/ red = RedAdd -> plain_indices (tshape x) (element_axis n x) ix) ->
  (tt_dtype t <> BoolT -> red = RedNone -> forall d v, add d (sub v d) = v) ->
  exists c z ty, gen_scatter_elements n = Some c /\ erun add sub mul le e c = Some z /\
    scattered (reduce_by add mul le red) (element_axis n x) x ix u z /\ infer_scatter_elements n = IOk ty /\ ranked ty z /\ same_elements ty (aty ax).
Proof.
  intros T add sub mul le Tot Anti n e ax ai au o t x ix u red Hin Ho Hat Hint Hred (W & t0 & Ht0 & He & Hr & H63) Ht (Wi & Hei) Heu Wu Eu Ha F D HB HP HC.
  rewrite Ht in Ht0. injection Ht0 as <-. set (a := element_axis n x) in *.
  assert (Ec : scatter_elements_config n = IOk (N.of_nat a, red)).
  { unfold scatter_elements_config, first_input. rewrite Hin. cbn [ibind]. rewrite Ht, (only_among _ _ Hat). unfold reduction_attr, reduction_name in Hred. rewrite (axis_found n x _ Hint Ha Hr H63). fold a.
    destruct (get_attr n "reduction") as [[]|]; try discriminate Hred; [|injection Hred as <-; reflexivity].
    repeat (destruct (String.eqb _ _); [injection Hred as <-; reflexivity|]). discriminate Hred. }
  assert (Ty : forall z : tensor T, tshape z = tshape x -> exists ty, infer_scatter_elements n = IOk ty /\ ranked ty z /\ same_elements ty (aty ax)).
  { intros z Ez. exists (TensorT t). unfold infer_scatter_elements. rewrite Hin, Ho, Ht. split; [reflexivity|]. split; [exists t; split; [reflexivity|]; rewrite Ez; exact Hr|]. eexists _, _. split; [reflexivity|]. split; reflexivity. }
  assert (Body : forall old new, loop_body add mul le red old new = reduce_by add mul le red old new).
  { intros old new. destruct red; cbn; try reflexivity.
    - destruct (le old new) eqn:E1, (le new old) eqn:E2; try reflexivity; [apply Anti; assumption|]. destruct (Tot old new); congruence.
    - destruct (le old new) eqn:E1, (le new old) eqn:E2; try reflexivity; [apply Anti; assumption|]. destruct (Tot old new); congruence. }
  assert (Conv : forall f g z, (forall p q, f p q = g p q) -> scattered f a x ix u z -> scattered g a x ix u z).
  { intros f g z H (Wz & Sz & Gz). split; [exact Wz|]. split; [exact Sz|]. intros p Hp. destruct (Gz p Hp) as (w & Gw & E). exists w. split; [exact Gw|]. rewrite E. f_equal.
    clear - H. revert w. induction (updates_of (tshape x) a ix u p) as [|v l IH]; intros w; [reflexivity|]. cbn. rewrite H. apply IH. }
  assert (Loop : exists z, scatter_loop add mul le red (N.of_nat a) x ix u = Some z /\ scattered (reduce_by add mul le red) a x ix u z).
  { destruct (loop_ok add mul le red a x ix u W Wu Eu F) as (z & Hz & Gz). exists z. split; [exact Hz|]. exact (Conv _ _ z Body Gz). }
  assert (Fin : forall c, gen_scatter_elements n = Some c -> (exists z, erun add sub mul le e c = Some z /\ scattered (reduce_by add mul le red) a x ix u z) ->
    exists c z ty, gen_scatter_elements n = Some c /\ erun add sub mul le e c = Some z /\ scattered (reduce_by add mul le red) a x ix u z /\ infer_scatter_elements n = IOk ty /\ ranked ty z /\ same_elements ty (aty ax)).
  { intros c Hc (z & Hz & Gz). destruct (Ty z) as (ty & Hty & Rz); [apply Gz|]. exists c, z, ty. auto. }
  assert (Gen : gen_scatter_elements n = match tt_dtype t, red with
    | BoolT, RedNone => Some (ELoop RedNone (aname ax) (aname ai) (aname au) (N.of_nat a)) | BoolT, _ => None
    | _, RedAdd => Some (EAdd (aname ax) (aname ai) (aname au) (N.of_nat a)) | _, RedNone => Some (EDiff (aname ax) (aname ai) (aname au) (N.of_nat a))
    | _, _ => Some (ELoop red (aname ax) (aname ai) (aname au) (N.of_nat a)) end).
  { unfold gen_scatter_elements. rewrite Ec, Hin, Ht. reflexivity. }
  assert (Lx : ltens e (aname ax) = Some x) by (unfold ltens; rewrite He; reflexivity).
  assert (Lu : ltens e (aname au) = Some u) by (unfold ltens; rewrite Heu; reflexivity).
  assert (Li : eints e (aname ai) = Some ix) by (unfold eints; rewrite Hei; reflexivity).
  assert (Run : forall c r, gen_scatter_elements n = Some c ->
     erun add sub mul le e c = r -> (exists z, r = Some z /\ scattered (reduce_by add mul le red) a x ix u z) -> exists c z ty, gen_scatter_elements n = Some c /\ erun add sub mul le e c = Some z /\ scattered (reduce_by add mul le red) a x ix u z /\ infer_scatter_elements n = IOk ty /\ ranked ty z /\ same_elements ty (aty ax)).
  { intros c r Hc Er (z & Hz & Gz). apply (Fin c Hc). exists z. split; [congruence|exact Gz]. }
  assert (RL : forall rd, erun add sub mul le e (ELoop rd (aname ax) (aname ai) (aname au) (N.of_nat a)) = scatter_loop add mul le rd (N.of_nat a) x ix u).
  { intros rd. cbn [erun]. rewrite Lx, Li, Lu. reflexivity. }
  destruct (dtype_eq_dec (tt_dtype t) BoolT) as [Eb|Eb].
  - specialize (HB Eb). subst red. rewrite Eb in Gen. exact (Run _ _ Gen (RL _) Loop).
  - destruct red.
    + assert (G' : gen_scatter_elements n = Some (EDiff (aname ax) (aname ai) (aname au) (N.of_nat a))) by (rewrite Gen; destruct (tt_dtype t); try reflexivity; contradiction).
      destruct (diff_ok add sub a x ix u (HC Eb eq_refl) W Wu Eu F (HP Eb (or_introl eq_refl)) (D eq_refl)) as (g & w & z & Hg & Hw & Hz & Gz).
      apply (Run _ (Some z) G'); [cbn [erun]; rewrite Lx, Li, Lu; cbn [obind]; rewrite Hg; cbn [obind]; rewrite Hw; exact Hz|]. exists z. split; [reflexivity|exact Gz].
    + assert (G' : gen_scatter_elements n = Some (EAdd (aname ax) (aname ai) (aname au) (N.of_nat a))) by (rewrite Gen; destruct (tt_dtype t); try reflexivity; contradiction).
      destruct (scatter_ok add a x ix u W Wu Eu F (HP Eb (or_intror eq_refl))) as (z & Hz & Gz).
      apply (Run _ (Some z) G'); [cbn [erun]; rewrite Lx, Li, Lu; exact Hz|]. exists z. split; [reflexivity|exact Gz].
    + eapply (Run (ELoop RedMul (aname ax) (aname ai) (aname au) (N.of_nat a))); [rewrite Gen; destruct (tt_dtype t); try reflexivity; contradiction|apply RL|exact Loop].
    + eapply (Run (ELoop RedMax (aname ax) (aname ai) (aname au) (N.of_nat a))); [rewrite Gen; destruct (tt_dtype t); try reflexivity; contradiction|apply RL|exact Loop].
    + eapply (Run (ELoop RedMin (aname ax) (aname ai) (aname au) (N.of_nat a))); [rewrite Gen; destruct (tt_dtype t); try reflexivity; contradiction|apply RL|exact Loop].
Qed.
Print Assumptions C62_scatter_partial.

(** A reduction of booleans is refused. *)
Theorem C62_bool_reduction : forall (n : rnode) (ax : arg) (rest : list arg) (t : tensor_type) (red : reduction),
  ninputs n = ax :: rest -> aty ax = TensorT t -> tt_dtype t = BoolT -> reduction_attr n = Some red -> red <> RedNone -> gen_scatter_elements n = None.
Proof.
  intros n ax rest t red Hin Ht Hd Hred Hne. unfold gen_scatter_elements, scatter_elements_config, first_input. rewrite Hin. cbn [ibind]. rewrite Ht.
  destruct (only_attrs n _); [|reflexivity]. unfold reduction_attr, reduction_name in Hred.
  destruct (get_attr n "reduction") as [[]|]; try discriminate Hred; [|injection Hred as <-; contradiction].
  repeat (destruct (String.eqb _ _); [injection Hred as <-; first [contradiction|cbn [ibind]; destruct (elements_axis n (tt_rank t)); cbn [ibind]; try reflexivity; destruct rest as [|? [|? ?]]; try reflexivity; rewrite Hd; reflexivity]|]). discriminate Hred.
Qed.
Print Assumptions C62_bool_reduction.

(** ** Cases that meet the hypotheses *)
Definition earg (x : string) (d : dtype) : arg := mkArg x (TensorT (mkTT d 2 None)) VDynamic.
Definition enode (ty : string) (ins : list string) (d : dtype) (attrs : list (string * attr)) : rnode :=
  mkNode ty "n" (map (fun x => earg x (if String.eqb x "i" then I64 else d)) ins) [earg "o" d] attrs.
Definition eenv {T} (x u : tensor T) (ix : tensor Z) : lenv T :=
  fun k => if String.eqb k "x" then Some (LT x) else if String.eqb k "u" then Some (LT u) else if String.eqb k "i" then Some (LI ix) else None.
Definition zle (a b : Z) : bool := (a <=? b)%Z.
Definition zerun := erun Z.add Z.sub Z.mul zle.
Definition data : tensor Z := mkT [2; 3] [1; 2; 3; 4; 5; 6]%Z.
Definition ups : tensor Z := mkT [2; 2] [10; 20; 30; 40]%Z.
Definition ix_ok : tensor Z := mkT [2; 2] [2; 0; 1; 2]%Z.
Definition ix_dup : tensor Z := mkT [2; 2] [-1; 2; 1; -2]%Z.
Definition axis1 : list (string * attr) := [("axis"%string, AInt (-1))].
Definition with_red (s : string) : list (string * attr) := [("axis"%string, AInt 1); ("reduction"%string, AString s)].

Lemma small2 (d e : N) j : valid_idx [d; e] j -> exists a b, j = [a; b] /\ a < d /\ b < e.
Proof. intros H. inversion H as [|a ? ? ? Ha H1]; subst. inversion H1 as [|b ? ? ? Hb H2]; subst. inversion H2; subst. eauto. Qed.
Lemma below2 a : a < 2 -> a = 0 \/ a = 1. Proof. lia. Qed.
Example C62_gather_case :
  attrs_among (enode "GatherElements" ["x"%string; "i"%string] F32 axis1) ["axis"%string] /\
  axis_ok (axis_or (enode "GatherElements" ["x"%string; "i"%string] F32 axis1) 0) data /\
  indices_fit [2; 3] 1 ix_ok /\ plain_indices [2; 3] 1 ix_ok /\ distinct [2; 3] 1 ix_ok /\
  exists c, gen_gather_elements (enode "GatherElements" ["x"%string; "i"%string] F32 axis1) = Some c /\ zerun (eenv data ups ix_ok) c = Some (mkT [2; 2] [3; 1; 5; 6]%Z).
Proof.
  split; [intros k a [H|[]]; injection H as <- _; left; reflexivity|]. split; [unfold axis_ok; cbn; lia|].
  assert (A : forall j, valid_idx [2; 2] j -> j = [0; 0] \/ j = [0; 1] \/ j = [1; 0] \/ j = [1; 1]).
  { intros j H. apply small2 in H. destruct H as (a & b & -> & Ha & Hb). apply below2 in Ha, Hb. destruct Ha as [-> | ->], Hb as [-> | ->]; auto. }
  split; [|split; [|split]].
  - split; [reflexivity|]. split; [reflexivity|]. split; [cbn; lia|]. split.
    + intros [|[|k]] m d Hk H1 H2; [|contradiction|destruct k; discriminate]. cbn in H1, H2. injection H1 as <-. injection H2 as <-. lia.
    + intros j Hj. destruct (A j Hj) as [-> |[-> |[-> | ->]]]; eexists; vm_compute; reflexivity.
  - split; [intros i [<-|[<-|[<-|[<-|[]]]]]; lia|]. intros [|[|k]] Hk; [reflexivity|contradiction|destruct k; reflexivity].
  - intros j j' t Hj Hj' H H'. destruct (A j Hj) as [-> |[-> |[-> | ->]]], (A j' Hj') as [-> |[-> |[-> | ->]]]; try reflexivity; vm_compute in H, H'; congruence.
  - eexists. split; [reflexivity|]. vm_compute. reflexivity.
Qed.
(** Without reduction; and the greatest, with indices from the end that meet. *)
Example C62_scatter_case :
  (exists c, gen_scatter_elements (enode "ScatterElements" ["x"%string; "i"%string; "u"%string] I64 axis1) = Some c /\
     zerun (eenv data ups ix_ok) c = Some (mkT [2; 3] [20; 2; 10; 4; 30; 40]%Z)) /\
  (exists c, gen_scatter_elements (enode "ScatterElements" ["x"%string; "i"%string; "u"%string] I64 (with_red "max")) = Some c /\
     zerun (eenv data ups ix_dup) c = Some (mkT [2; 3] [1; 2; 20; 4; 40; 6]%Z)) /\
  updates_of [2; 3] 1 ix_dup ups [0; 2] = [10; 20]%Z.
Proof.
  split; [|split; [|vm_compute; reflexivity]]; eexists; (split; [reflexivity|]); vm_compute; reflexivity.
Qed.

(** ** What does not hold *)
(** Indices from the end: ONNX takes the last column, the code has no result. *)
Definition ix_neg : tensor Z := mkT [2; 1] [-1; -1]%Z.
Theorem C62_negative_index_refuted :
  gathered 1 data ix_neg (mkT [2; 1] [3; 6]%Z) /\
  exists c, gen_gather_elements (enode "GatherElements" ["x"%string; "i"%string] I64 axis1) = Some c /\ zerun (eenv data ups ix_neg) c = None.
Proof.
  split.
  - split; [reflexivity|]. split; [reflexivity|]. intros j H. apply small2 in H. destruct H as (a & b & -> & Ha & Hb). assert (b = 0) by lia. subst b.
    apply below2 in Ha. destruct Ha as [-> | ->]; eexists; (split; [vm_compute; reflexivity|]); reflexivity.
  - eexists. split; [reflexivity|]. vm_compute. reflexivity.
Qed.
Print Assumptions C62_negative_index_refuted.
(** Indices for the first row only. *)
Definition ix_row : tensor Z := mkT [1; 2] [2; 0]%Z.
Theorem C62_smaller_indices_refuted :
  gathered 1 data ix_row (mkT [1; 2] [3; 1]%Z) /\
  exists c, gen_gather_elements (enode "GatherElements" ["x"%string; "i"%string] I64 axis1) = Some c /\ zerun (eenv data ups ix_row) c = None.
Proof.
  split.
  - split; [reflexivity|]. split; [reflexivity|]. intros j H. apply small2 in H. destruct H as (a & b & -> & Ha & Hb). assert (a = 0) by lia. subst a.
    apply below2 in Hb. destruct Hb as [-> | ->]; eexists; (split; [vm_compute; reflexivity|]); reflexivity.
  - eexists. split; [reflexivity|]. vm_compute. reflexivity.
Qed.
Print Assumptions C62_smaller_indices_refuted.
(** Numbers of single precision: to replace 2^30 by 1, the code adds the rounded
    difference, and gets 0. *)
Definition big : spec_float := S754_finite false 8388608 7.
Definition one : spec_float := S754_finite false 8388608 (-23).
Definition fdata : tensor spec_float := mkT [1; 2] [one; big].
Definition fups : tensor spec_float := mkT [1; 1] [one].
Definition fix_ : tensor Z := mkT [1; 1] [1]%Z.
Theorem C62_float_assignment_refuted : forall (mul : spec_float -> spec_float -> spec_float) (le : spec_float -> spec_float -> bool),
  scattered (fun _ v => v) 1 fdata fix_ fups (mkT [1; 2] [one; one]) /\
  exists c, gen_scatter_elements (enode "ScatterElements" ["x"%string; "i"%string; "u"%string] F32 axis1) = Some c /\
    erun (SFadd 24 128) (SFsub 24 128) mul le (eenv fdata fups fix_) c = Some (mkT [1; 2] [one; S754_zero false]).
Proof.
  intros mul le. split.
  - split; [reflexivity|]. split; [reflexivity|]. intros j H. apply small2 in H. destruct H as (a & b & -> & Ha & Hb). assert (a = 0) by lia. subst a.
    apply below2 in Hb. destruct Hb as [-> | ->]; eexists; (split; [vm_compute; reflexivity|]); vm_compute; reflexivity.
  - eexists. split; [reflexivity|]. vm_compute. reflexivity.
Qed.
Print Assumptions C62_float_assignment_refuted.
