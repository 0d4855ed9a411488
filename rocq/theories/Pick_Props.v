(** TopK, OneHot and Range compute what ONNX prescribes (C68). *)
From Coq Require Import Lia Lra ZifyBool ZifyNat ZifyN.
From Verif Require Import ReduceR_Spec ShapeOps_Spec ShapeOps_Proofs Lines_Proofs Lines_Nodes Tensor_Proofs Pick_Proofs.
Import Pick_Spec Lines_Spec Tensor_Spec.
Local Open Scope N_scope.

(** ** TopK *)
(** [k] is a constant of the model, or the attribute of the first versions. *)
Definition k_is (value : arg -> option cval) (n : rnode) (rest : list arg) (k : N) : Prop :=
  match rest with
  | a :: _ => value a = Some (CI64 [Z.of_N k])
  | [] => get_attr n "k" = Some (AInt (Z.of_N k))
  end.
Definition at_most {A} (k : N) (axis : Z) (x : tensor A) : Prop :=
  forall d, nth_error (tshape x) (position (length (tshape x)) axis) = Some d -> k <= d.
Definition ranked_as (ty : argty) (d : dtype) (r : nat) : Prop := exists t, ty = TensorT t /\ tt_dtype t = d /\ tt_rank t = N.of_nat r.
Definition same_dtype (ty : argty) (a : arg) (r : nat) : Prop := exists t, aty a = TensorT t /\ ranked_as ty (tt_dtype t) r.

Lemma topk_run {T} (le : T -> T -> bool) (sort : list T -> list nat) : sorts le sort ->
  forall (value : arg -> option cval) (n : rnode) (i o0 o1 : arg) (rest : list arg) (k : N) (x : tensor T) (e : lenv T) (t0 t1 : argty),
  ninputs n = i :: rest -> infer_topk n = IOk (t0, t1) ->
  k_is value n rest k -> k < 2 ^ 63 -> int_axis n -> lholds e i x -> axis_ok (axis_or n (-1)) x -> at_most k (axis_or n (-1)) x ->
  same_dtype t0 i (length (tshape x)) /\ ranked_as t1 I64 (length (tshape x)) /\
  exists c v ix, gen_topk value n = IOk c /\ run_topk sort e (aname o0) (aname o1) c = Some (lset (lset e (aname o0) (LT v)) (aname o1) (LI ix)) /\
    by_lines2 (fun l vs js => top_values le (N.to_nat k) l vs /\ places l vs js /\ ((stable le sort \/ no_ties le l) -> first_places le (N.to_nat k) l js)) (axis_or n (-1)) x v ix.
Proof.
  intros Hs value n i o0 o1 rest k x e t0 t1 Hi Hty Hk Hk63 Hint (W & t & Ht & He & Hr & H63) Ha Hkd.
  unfold infer_topk in Hty. destruct (attr_i64_or n "largest" 1) as [lg| |]; cbn [ibind] in Hty; try discriminate. destruct (negb (lg =? 1)%Z); try discriminate.
  destruct (attr_i64_or n "sorted" 1) as [so| |]; cbn [ibind] in Hty; try discriminate. destruct (negb (so =? 1)%Z); try discriminate.
  rewrite Hi, Ht in Hty. injection Hty as <- <-.
  split; [exists t; split; [exact Ht|]; eexists; split; [reflexivity|]; auto|]. split; [eexists; split; [reflexivity|]; auto|].
  destruct (split_axis (axis_or n (-1)) x (tt_rank t) Ha Hr H63) as (P & d & Q & Ex & LP & La & LN).
  assert (Ea : attr_i64_or n "axis" (-1) = IOk (axis_or n (-1))).
  { unfold attr_i64_or, axis_or. destruct (get_attr n "axis") as [a|] eqn:E; [|reflexivity]. destruct (Hint a E) as [z ->]. reflexivity. }
  assert (Ec : topk_config value n = IOk (norm_axis (tt_rank t) (axis_or n (-1)), Static k)).
  { assert (U : to_usize (Z.of_N k) = k) by (unfold to_usize; rewrite Z.mod_small by lia; lia).
    unfold topk_config. rewrite Hi, Ht. unfold k_is in Hk. destruct rest as [|a rest]; rewrite Hk; cbn [first_i64 attr_i64 ibind]; rewrite U; cbn [ibind]; rewrite Ea; reflexivity. }
  assert (Hd : k <= d). { apply (Hkd d). rewrite <- LP, Ex, nth_error_app2, Nat.sub_diag by lia. reflexivity. }
  destruct (b_topk_ok le sort Hs k (norm_axis (tt_rank t) (axis_or n (-1))) x P d Q W Ex La Hd) as (v & ix & Hb & Wv & Wi & Sv & Si & Ll).
  exists (aname i, k, norm_axis (tt_rank t) (axis_or n (-1))), v, ix. unfold gen_topk. rewrite Ec, Hi. split; [reflexivity|].
  split. { unfold run_topk, ltens. rewrite He. cbn [obind]. rewrite Hb. reflexivity. }
  split; [exact Wv|]. split; [exact Wi|]. split; [exact Ha|]. exists P, d, Q, k. auto 10.
Qed.

(** TopK: the values are the [k] greatest of each line, the greatest first, and
    the indices point at them, whatever order the sort leaves equal elements in.
    Missing: the order of the indices of equal elements (below), the smallest
    elements, unsorted results, [k] known only at run time (all refused), NaN. *)
Theorem C68_topk_partial : forall (T : Type) (le : T -> T -> bool) (sort : list T -> list nat), sorts le sort ->
  forall (value : arg -> option cval) (n : rnode) (i o0 o1 : arg) (rest : list arg) (k : N) (x : tensor T) (e : lenv T) (t0 t1 : argty),
  ninputs n = i :: rest -> noutputs n = [o0; o1] -> infer_topk n = IOk (t0, t1) ->
  k_is value n rest k -> k < 2 ^ 63 -> int_axis n -> lholds e i x -> axis_ok (axis_or n (-1)) x -> at_most k (axis_or n (-1)) x ->
  same_dtype t0 i (length (tshape x)) /\ ranked_as t1 I64 (length (tshape x)) /\
  exists c v ix, gen_topk value n = IOk c /\ run_topk sort e (aname o0) (aname o1) c = Some (lset (lset e (aname o0) (LT v)) (aname o1) (LI ix)) /\
    by_lines2 (fun l vs js => top_values le (N.to_nat k) l vs /\ places l vs js) (axis_or n (-1)) x v ix.
Proof.
  intros T le sort Hs value n i o0 o1 rest k x e t0 t1 Hi _ Hty Hk H63 Hint Hx Ha Hd.
  destruct (topk_run le sort Hs value n i o0 o1 rest k x e t0 t1 Hi Hty Hk H63 Hint Hx Ha Hd) as (A & B & c & v & ix & C1 & C2 & D1 & D2 & D3 & P & d & Q & d' & D4 & D5 & D6 & D7 & D8).
  split; [exact A|]. split; [exact B|]. exists c, v, ix. split; [exact C1|]. split; [exact C2|]. split; [exact D1|]. split; [exact D2|]. split; [exact D3|].
  exists P, d, Q, d'. split; [exact D4|]. split; [exact D5|]. split; [exact D6|]. split; [exact D7|]. intros p q Hp Hq. destruct (D8 p q Hp Hq) as (l & m & w & E1 & E2 & E3 & E4 & E5 & _). exists l, m, w. auto 10.
Qed.
Print Assumptions C68_topk_partial.

(** With a sort that keeps equal elements in order, or without equal elements, the
    indices are ONNX's too. *)
Theorem C68_topk_indices_partial : forall (T : Type) (le : T -> T -> bool) (sort : list T -> list nat), sorts le sort ->
  forall (value : arg -> option cval) (n : rnode) (i o0 o1 : arg) (rest : list arg) (k : N) (x : tensor T) (e : lenv T) (t0 t1 : argty),
  ninputs n = i :: rest -> noutputs n = [o0; o1] -> infer_topk n = IOk (t0, t1) ->
  k_is value n rest k -> k < 2 ^ 63 -> int_axis n -> lholds e i x -> axis_ok (axis_or n (-1)) x -> at_most k (axis_or n (-1)) x ->
  stable le sort \/ lines_have (no_ties le) (axis_or n (-1)) x ->
  exists c v ix, gen_topk value n = IOk c /\ run_topk sort e (aname o0) (aname o1) c = Some (lset (lset e (aname o0) (LT v)) (aname o1) (LI ix)) /\
    by_lines2 (fun l vs js => top_values le (N.to_nat k) l vs /\ places l vs js /\ first_places le (N.to_nat k) l js) (axis_or n (-1)) x v ix.
Proof.
  intros T le sort Hs value n i o0 o1 rest k x e t0 t1 Hi _ Hty Hk H63 Hint Hx Ha Hd Hst.
  destruct (topk_run le sort Hs value n i o0 o1 rest k x e t0 t1 Hi Hty Hk H63 Hint Hx Ha Hd) as (A & B & c & v & ix & C1 & C2 & D1 & D2 & D3 & P & d & Q & d' & D4 & D5 & D6 & D7 & D8).
  exists c, v, ix. split; [exact C1|]. split; [exact C2|]. split; [exact D1|]. split; [exact D2|]. split; [exact D3|].
  exists P, d, Q, d'. split; [exact D4|]. split; [exact D5|]. split; [exact D6|]. split; [exact D7|]. intros p q Hp Hq. destruct (D8 p q Hp Hq) as (l & m & w & E1 & E2 & E3 & E4 & E5 & E6). exists l, m, w.
  repeat split; try assumption; try apply E4; try apply E5. apply E6. destruct Hst as [H|H]; [left; exact H|right]. exact (H P d Q p q l D4 D5 Hp Hq E1).
Qed.
Print Assumptions C68_topk_indices_partial.

(** The smallest elements, and results that need no order, are refused. *)
Theorem C68_topk_refused : forall (n : rnode) (z : Z) (t : argty * argty),
  (get_attr n "largest" = Some (AInt z) \/ get_attr n "sorted" = Some (AInt z)) -> z <> 1%Z -> infer_topk n <> IOk t.
Proof.
  intros n z t H Hz E. unfold infer_topk, attr_i64_or in E. destruct H as [H|H]; rewrite H in E.
  - cbn [attr_i64 ibind] in E. replace (z =? 1)%Z with false in E by lia. discriminate.
  - destruct (get_attr n "largest") as [[]|]; cbn [attr_i64 ibind] in E; try discriminate;
      try (destruct (negb _) in E; [discriminate|]); cbn [attr_i64 ibind] in E; replace (z =? 1)%Z with false in E by lia; discriminate.
Qed.
Print Assumptions C68_topk_refused.

Definition parg (x : string) (d : dtype) (r : N) : arg := mkArg x (TensorT (mkTT d r None)) VDynamic.
Definition cnst (x : string) (d : dtype) (r : N) : arg := mkArg x (TensorT (mkTT d r None)) (VStatic 0).
Definition penv {T} (x : tensor T) : lenv T := fun k => if String.eqb k "x" then Some (LT x) else None.
Definition zle (a b : Z) : bool := (a <=? b)%Z.
Lemma zle_total a b : zle a b = true \/ zle b a = true. Proof. unfold zle. lia. Qed.
Lemma zle_trans a b c : zle a b = true -> zle b c = true -> zle a c = true. Proof. unfold zle. lia. Qed.
Definition consts (l : list (string * cval)) (a : arg) : option cval := sget l (aname a).
Definition tk_node : rnode := mkNode "TopK" "n" [parg "x" F32 2; cnst "k" I64 1] [parg "v" F32 2; parg "i" I64 2] [("axis"%string, AInt (-1))].
Definition tk_value := consts [("k"%string, CI64 [2%Z])].
Definition tk_x : tensor Z := mkT [2; 3] [1; 5; 3; 7; 7; 2]%Z.

Example C68_topk_case :
  sorts zle (insertion zle true) /\ stable zle (insertion zle true) /\
  infer_topk tk_node = IOk (TensorT (mkTT F32 2 None), TensorT (mkTT I64 2 None)) /\ k_is tk_value tk_node [cnst "k" I64 1] 2 /\ int_axis tk_node /\
  lholds (penv tk_x) (parg "x" F32 2) tk_x /\ axis_ok (axis_or tk_node (-1)) tk_x /\ at_most 2 (axis_or tk_node (-1)) tk_x /\
  exists c, gen_topk tk_value tk_node = IOk c /\
    option_map (fun e' : lenv Z => (e' "v"%string, e' "i"%string)) (run_topk (insertion zle true) (penv tk_x) "v" "i" c) =
    Some (Some (LT (mkT [2; 2] [5; 3; 7; 7]%Z)), Some (LI (mkT [2; 2] [1; 2; 0; 1]%Z))).
Proof.
  split; [apply insertion_sorts; [exact zle_total|exact zle_trans]|]. split; [apply insertion_stable; exact zle_total || exact zle_trans|].
  split; [reflexivity|]. split; [reflexivity|]. split; [intros a H; cbn in H; injection H as <-; eauto|].
  split; [split; [reflexivity|]; eexists; repeat split; reflexivity|]. split; [unfold axis_ok; cbn; lia|].
  split; [intros d H; vm_compute in H; injection H as <-; discriminate|]. eexists. split; [reflexivity|]. vm_compute. reflexivity.
Qed.

(** A sort that does not keep equal elements in order gives other indices than
    ONNX, which asks for the lower one. *)
Theorem C68_topk_ties_refuted : exists (sort : list Z -> list nat) (n : rnode) (value : arg -> option cval) (x : tensor Z) c e' ix,
  sorts zle sort /\ gen_topk value n = IOk c /\ lholds (penv x) (parg "x" F32 1) x /\ run_topk sort (penv x) "v" "i" c = Some e' /\ e' "i"%string = Some (LI ix) /\
  ~ first_places zle 1 (tdata x) (tdata ix).
Proof.
  exists (insertion zle false), (mkNode "TopK" "n" [parg "x" F32 1; cnst "k" I64 1] [parg "v" F32 1; parg "i" I64 1] []), (consts [("k"%string, CI64 [1%Z])]), (mkT [2] [7; 7]%Z).
  eexists _, _, _. split; [apply insertion_sorts; [exact zle_total|exact zle_trans]|]. split; [reflexivity|].
  split; [split; [reflexivity|]; eexists; repeat split; reflexivity|]. split; [vm_compute; reflexivity|]. split; [reflexivity|]. cbn [tdata].
  intros (ord & Hp & Hs & E). assert (L : length ord = 2%nat) by (rewrite (Permutation_length Hp); reflexivity).
  destruct ord as [|a [|b [|? ?]]]; cbn in L; try lia. cbn in E. assert (a = 1%nat) by (injection E as E; lia). subst a.
  inversion Hs as [|? ? _ Hf]; subst. inversion Hf as [|? ? (v & w & E1 & E2 & H) _]; subst. cbn in E1. injection E1 as <-.
  assert (b = 0%nat). { destruct b as [|[|b]]; [reflexivity|exfalso|destruct b; discriminate E2].
    assert (ND : NoDup [1%nat; 1%nat]) by (eapply Permutation_NoDup; [apply Permutation_sym; exact Hp|apply seq_NoDup]). inversion ND; subst. apply H2. left. reflexivity. }
  subst b. cbn in E2. injection E2 as <-. vm_compute in H. destruct H as [H|[_ H]]; [discriminate|lia].
Qed.
Print Assumptions C68_topk_ties_refuted.

(** ** OneHot *)
Definition whole (v : real) : Prop := exists z, v = IZR z.
Definition as_reals (x : tensor Z) : tensor real := mkT (tshape x) (map IZR (tdata x)).
(** The constant: both values, [off] first. *)
Definition values_are (c : cval) (off on : real) : Prop :=
  c = CF [off; on] \/ exists a b, (c = CI64 [a; b] \/ c = CInt [a; b]) /\ off = IZR a /\ on = IZR b.

(** OneHot, for every axis and rank.  Missing: values that are not whole numbers
    when the indices or the result are integers, indices out of bounds (both
    below), boolean values, depth or values known only at run time (refused). *)
Theorem C68_one_hot_partial : forall (value : arg -> option cval) (n : rnode) (i d v o : arg) (ti to : tensor_type) (x : tensor Z) (e : lenv real)
    (depth : N) (c : cval) (off on : real),
  ninputs n = [i; d; v] -> noutputs n = [o] -> aty i = TensorT ti -> tt_dtype ti <> BoolT -> aty o = TensorT to -> tt_dtype to <> BoolT ->
  twf x -> e (aname i) = Some (LT (as_reals x)) -> tt_rank ti = N.of_nat (length (tshape x)) ->
  value d = Some (CI64 [Z.of_N depth]) -> depth < 2 ^ 63 -> value v = Some c -> values_are c off on ->
  int_axis n -> (- Z.of_nat (S (length (tshape x))) <= axis_or n (-1) <= Z.of_nat (length (tshape x)))%Z ->
  (forall k, In k (tdata x) -> (- Z.of_N depth <= k < Z.of_N depth)%Z) ->
  (is_float (tt_dtype ti) = false \/ is_float (tt_dtype to) = false -> whole off /\ whole on) ->
  (exists ty, infer_one_hot n = IOk ty /\ ranked_as ty (tt_dtype to) (S (length (tshape x)))) /\
  exists h z, gen_one_hot value n = IOk h /\ run_one_hot e (aname o) h = Some (lset e (aname o) (LT z)) /\
    one_hot_result depth off on (axis_or n (-1)) x z.
Proof.
  intros value n i d v o ti to x e depth c off on Hi Ho Hti Hbi Hto Hbo W He Hr Hd H63 Hv Hc Hint Ha Hix Hwh.
  split. { unfold infer_one_hot. rewrite Hi, Ho, Hti, Hto. eexists. split; [reflexivity|]. eexists. split; [reflexivity|]. split; [reflexivity|]. cbn [tt_rank]. lia. }
  assert (Ea : attr_i64_or n "axis" (-1) = IOk (axis_or n (-1))).
  { unfold attr_i64_or, axis_or. destruct (get_attr n "axis") as [a|] eqn:E; [|reflexivity]. destruct (Hint a E) as [z ->]. reflexivity. }
  assert (Ev : ibind (to_f32_vec c) (fun l => match l with [off; on] => IOk (Static (off, on)) | _ => IErr end) = IOk (Static (off, on))).
  { destruct Hc as [->|(a & b & [->| ->] & -> & ->)]; reflexivity. }
  assert (Ec : one_hot_config value n = IOk (Static depth, Static (off, on), axis_or n (-1))).
  { unfold one_hot_config. rewrite Hi, Hd, Hv. cbn [first_i64 ibind]. rewrite Ev. cbn [ibind]. rewrite Ea. cbn [ibind]. unfold to_usize. rewrite Z.mod_small by lia. rewrite N2Z.id. reflexivity. }
  assert (K : exists int cast, gen_one_hot value n = IOk (mkHot (aname i) int depth on off (axis_or n (-1)) cast) /\
      hot_convert cast (fill_value int on) = on /\ hot_convert cast (fill_value int off) = off).
  { unfold gen_one_hot. rewrite Ec, Hi, Ho, Hti, Hto. cbn [ibind]. unfold kind_of_dtype.
    assert (Bi : dtype_beq (tt_dtype ti) BoolT = false) by (destruct (tt_dtype ti); cbn; congruence).
    assert (Bo : dtype_beq (tt_dtype to) BoolT = false) by (destruct (tt_dtype to); cbn; congruence).
    rewrite Bi, Bo.
    assert (WI : whole off /\ whole on -> fill_value true on = on /\ fill_value true off = off).
    { intros [[a ->] [b ->]]. unfold fill_value. rewrite !Rtrunc_IZR. auto. }
    destruct (is_float (tt_dtype ti)) eqn:Fi; destruct (is_float (tt_dtype to)) eqn:Fo.
    - eexists false, _. split; [reflexivity|]. destruct (dtype_beq (tt_dtype ti) (tt_dtype to)); split; reflexivity.
    - eexists false, _. split; [reflexivity|]. cbn [hot_convert]. apply (WI (Hwh (or_intror eq_refl))).
    - eexists true, _. split; [reflexivity|]. cbn [hot_convert]. apply (WI (Hwh (or_introl eq_refl))).
    - eexists true, _. split; [reflexivity|]. destruct (dtype_beq (tt_dtype ti) (tt_dtype to)); cbn [hot_convert]; apply (WI (Hwh (or_introl eq_refl))). }
  destruct K as (int & cast & Hg & Kon & Koff).
  destruct (one_hot_fill_ok int depth on off (axis_or n (-1)) x _ W Ha eq_refl Hix) as (z & Hz & Wz & LA & Sz & Gz).
  eexists. exists (mkT (tshape z) (map (hot_convert cast) (tdata z))). split; [exact Hg|]. split.
  { unfold run_one_hot. cbn [h_in h_int h_depth h_on h_off h_axis h_cast]. unfold ltens. rewrite He. cbn [obind]. unfold as_reals. rewrite Hz. reflexivity. }
  split. { unfold twf. cbn [tshape tdata]. rewrite map_length. exact Wz. }
  set (A := position (S (length (tshape x))) (axis_or n (-1))) in *. exists (firstn A (tshape x)), (skipn A (tshape x)). cbn [tshape].
  split; [symmetry; apply firstn_skipn|]. split; [rewrite firstn_length; lia|]. split; [exact Sz|].
  intros p q k Hp Hq Hk. destruct (Gz p q k Hp Hq Hk) as (j & G1 & G2). exists j. split; [exact G1|].
  unfold get in *. cbn [tshape tdata]. rewrite nth_error_map, G2. cbn [option_map]. destruct (Z.eqb _ _); [rewrite Kon|rewrite Koff]; reflexivity.
Qed.
Print Assumptions C68_one_hot_partial.

Definition oh_node (d : dtype) (axis : Z) : rnode := mkNode "OneHot" "n" [parg "x" I64 1; cnst "d" I64 1; cnst "v" F32 1] [parg "o" d 2] [("axis"%string, AInt axis)].
Definition oh_value (depth : Z) (off on : real) := consts [("d"%string, CI64 [depth]); ("v"%string, CF [off; on])].
Definition oh_x (l : list Z) : tensor Z := mkT [N.of_nat (length l)] l.

(** Indices from the start and the end, a new first dimension. *)
Example C68_one_hot_case :
  (forall k, In k (tdata (oh_x [0; -1]%Z)) -> (- Z.of_N 3 <= k < Z.of_N 3)%Z) /\ values_are (CF [2%R; 5%R]) 2 5 /\ whole 2 /\ whole 5 /\ int_axis (oh_node F32 0) /\
  one_hot_result 3 2%R 5%R 0 (oh_x [0; -1]%Z) (mkT [3; 2] [5; 2; 2; 2; 2; 5]%R).
Proof.
  split; [intros k [<-|[<-|[]]]; lia|]. split; [left; reflexivity|]. split; [exists 2%Z; reflexivity|]. split; [exists 5%Z; reflexivity|].
  split; [intros a H; cbn in H; injection H as <-; eauto|]. split; [reflexivity|]. exists [], [2]. split; [reflexivity|]. split; [reflexivity|]. split; [reflexivity|].
  intros p q k Hp Hq Hk. inversion Hp; subst. inversion Hq as [|j ? q' ? Hj Hq']; subst. inversion Hq'; subst. 
  assert (j = 0 \/ j = 1) as [-> | ->] by lia; (assert (k = 0 \/ k = 1 \/ k = 2) as [-> |[-> | ->]] by lia); eexists; (split; [reflexivity|]); reflexivity.
Qed.

(** With integer indices the values are truncated, although the result is a
    tensor of floating-point numbers. *)
Theorem C68_one_hot_fraction_refuted : exists h z, gen_one_hot (oh_value 2 0 (1/2)%R) (oh_node F32 (-1)) = IOk h /\
  run_one_hot (penv (as_reals (oh_x [0%Z]))) "o" h = Some (lset (penv (as_reals (oh_x [0%Z]))) "o" (LT z)) /\ ~ one_hot_result 2 0%R (1/2)%R (-1) (oh_x [0%Z]) z.
Proof.
  assert (T2 : Rtrunc (1 / 2) = 0%Z).
  { unfold Rtrunc. destruct (Rle_dec 0 (1/2)); [|lra]. destruct (base_Int_part (1/2)) as [H1 H2]. 
    assert (IZR (Int_part (1/2)) < 1)%R by lra. apply lt_IZR in H. assert (-1 < IZR (Int_part (1/2)))%R by lra. apply lt_IZR in H0. lia. }
  set (n' := oh_node F32 (-1)).
  destruct (one_hot_fill_ok true 2 (1/2)%R 0%R (-1) (oh_x [0%Z]) _ eq_refl ltac:(cbn; lia) eq_refl) as (z & Hz & Wz & LA & Sz & Gz); [intros k [<-|[]]; lia|].
  eexists. exists (mkT (tshape z) (map (hot_convert (HFloat F32)) (tdata z))). split; [reflexivity|]. split.
  { unfold run_one_hot. cbn [h_in h_int h_depth h_on h_off h_axis h_cast]. unfold ltens. change (penv (as_reals (oh_x [0%Z])) (aname (parg "x" I64 1))) with (Some (LT (as_reals (oh_x [0%Z])))). cbv iota. cbn [obind].
    unfold as_reals. change (Z.to_N (2 mod 18446744073709551616)) with 2. change (to_usize 2) with 2. rewrite Hz. reflexivity. }
  intros (_ & P & Q & E & LP & E2 & G). cbn in LP. change (Z.to_nat (-1 mod 2)) with 1%nat in LP. cbn in E.
  destruct P as [|p0 [|? ?]]; cbn in LP; try lia. destruct Q; [|destruct Q; discriminate E]. injection E as <-.
  destruct (G [0] [] 0) as (j & G1 & G2); [repeat constructor; lia|constructor|lia|].
  destruct (Gz [0] [] 0) as (j' & G1' & G2'); [repeat constructor; lia|constructor|lia|]. rewrite G1 in G1'. injection G1' as <-.
  cbn in G1. injection G1 as <-. unfold get in G2, G2'. cbn [tshape tdata] in G2. rewrite nth_error_map, G2' in G2. cbn [option_map] in G2. injection G2 as G2.
  change (class_of 2 0 =? Z.of_N 0)%Z with true in G2. cbv iota in G2. cbn [hot_convert] in G2. unfold fill_value in G2. rewrite T2 in G2. lra.
Qed.
Print Assumptions C68_one_hot_fraction_refuted.

(** An index out of bounds stops the program; ONNX gives [off] for every class. *)
Theorem C68_one_hot_outside_refuted : exists h, gen_one_hot (oh_value 2 0 1) (oh_node F32 (-1)) = IOk h /\
  run_one_hot (penv (as_reals (oh_x [2%Z]))) "o" h = None /\ one_hot_result 2 0%R 1%R (-1) (oh_x [2%Z]) (mkT [1; 2] [0; 0]%R).
Proof.
  eexists. split; [reflexivity|]. split.
  - unfold run_one_hot. cbn [h_in h_int h_depth h_on h_off h_axis h_cast]. unfold ltens. change (penv (as_reals (oh_x [2%Z])) (aname (parg "x" I64 1))) with (Some (LT (as_reals (oh_x [2%Z])))). cbv iota. cbn [obind].
    change (to_usize 2) with 2. unfold b_one_hot_fill, as_reals. cbn [tshape tdata oh_x length map]. rewrite hot_index_IZR.
    change (class_of 2 2) with 2%Z. cbn. reflexivity.
  - split; [reflexivity|]. exists [1], []. split; [reflexivity|]. split; [reflexivity|]. split; [reflexivity|].
    intros p q k Hp Hq Hk. inversion Hq; subst. inversion Hp as [|j ? p' ? Hj Hp']; subst. inversion Hp'; subst. assert (j = 0) by lia. subst j.
    exists 2%Z. split; [reflexivity|]. assert (k = 0 \/ k = 1) as [-> | ->] by lia; reflexivity.
Qed.
Print Assumptions C68_one_hot_outside_refuted.

(** Boolean values are refused. *)
Theorem C68_one_hot_bool_refused : forall (value : arg -> option cval) (n : rnode) (i d v : arg) (l : list bool) (k : Z) (h : hot_code),
  ninputs n = [i; d; v] -> value d = Some (CI64 [k]) -> value v = Some (CBool l) -> gen_one_hot value n <> IOk h.
Proof. intros value n i d v l k h Hi Hd Hv E. unfold gen_one_hot, one_hot_config in E. rewrite Hi, Hd, Hv in E. cbn in E. discriminate. Qed.
Print Assumptions C68_one_hot_bool_refused.

(** The element type of a tensor after the conversion: [cast] stays among the
    floats or among the integers, [float], [int] and [bool] change the kind. *)
Definition converted_type (d : dtype) (c : hot_cast) : option dtype :=
  match c with
  | HNone => Some d
  | HCast d' => match kind_of_dtype d, kind_of_dtype d' with KFloat, KFloat | KInt, KInt => Some d' | _, _ => None end
  | HFloat d' => match kind_of_dtype d' with KFloat => Some d' | _ => None end
  | HInt d' => match kind_of_dtype d' with KInt => Some d' | _ => None end
  | HBool => Some BoolT
  end.
(** Whatever the types of the indices and of the result, the code that is
    emitted makes a tensor of the type of the result. *)
Theorem C68_one_hot_element_type : forall (value : arg -> option cval) (n : rnode) (i o : arg) (rest rest' : list arg) (ti to : tensor_type) (h : hot_code),
  ninputs n = i :: rest -> noutputs n = o :: rest' -> aty i = TensorT ti -> aty o = TensorT to -> gen_one_hot value n = IOk h ->
  tt_dtype ti <> BoolT /\ converted_type (tt_dtype ti) (h_cast h) = Some (tt_dtype to) /\ h_int h = negb (is_float (tt_dtype ti)).
Proof.
  intros value n i o rest rest' ti to h Hi Ho Hti Hto E. unfold gen_one_hot in E.
  destruct (one_hot_config value n) as [[[[depth|] [[off on]|]] axis]| |]; cbn [ibind] in E; try discriminate; rewrite Hi, Ho, ?Hti, ?Hto in E; try discriminate.
  destruct (tt_dtype ti), (tt_dtype to); cbn in E; try discriminate; injection E as <-; cbn; repeat split; discriminate.
Qed.
Print Assumptions C68_one_hot_element_type.
Example C68_one_hot_element_case : exists h, gen_one_hot (oh_value 3 2 5) (oh_node F32 0) = IOk h /\ h_cast h = HFloat F32.
Proof. eexists. split; reflexivity. Qed.

(** A number of values, a depth or a pair of values known only at run time is refused. *)
Theorem C68_runtime_refused : forall (value : arg -> option cval) (n : rnode) (i a : arg) (rest : list arg),
  (ninputs n = i :: a :: rest -> value a = None -> forall c, gen_topk value n <> IOk c) /\
  (forall k, (k = 1 \/ k = 2)%nat -> nth_error (ninputs n) k = Some a -> value a = None -> forall h, gen_one_hot value n <> IOk h).
Proof.
  intros value n i a rest. split.
  - intros Hi Ha c E. unfold gen_topk, topk_config in E. rewrite Hi, Ha in E. destruct (aty i); try discriminate. cbn [ibind] in E.
    destruct (attr_i64_or n "axis" (-1)); discriminate.
  - intros k Hk Hn Ha h E. unfold gen_one_hot, one_hot_config in E. destruct (ninputs n) as [|i0 [|i1 [|i2 r]]] eqn:En; try discriminate.
    destruct Hk as [-> | ->]; injection Hn as ->; rewrite Ha in E; cbn [ibind] in E.
    + match type of E with context [match value ?x with _ => _ end] => destruct (match value x with None => _ | Some c => _ end) as [v| |] end; try discriminate.
      cbn [ibind] in E. destruct (attr_i64_or n "axis" (-1)); discriminate.
    + match type of E with context [match value ?x with _ => _ end] => destruct (match value x with None => _ | Some c => _ end) as [[v|]| |] end; try discriminate;
      cbn [ibind] in E; destruct (attr_i64_or n "axis" (-1)); discriminate.
Qed.
Print Assumptions C68_runtime_refused.

(** The element type is not the one of the values: with values of type [I64] the
    result keeps the type it was given before. *)
Theorem C68_one_hot_type_refuted : exists n v t, nth_error (ninputs n) 2 = Some v /\ elem_of (aty v) = I64 /\ infer_one_hot n = IOk (TensorT t) /\ tt_dtype t <> I64.
Proof.
  exists (mkNode "OneHot" "n" [parg "x" I64 1; cnst "d" I64 1; cnst "v" I64 1] [parg "o" F32 0] []), (cnst "v" I64 1), (mkTT F32 2 None). repeat split. discriminate.
Qed.
Print Assumptions C68_one_hot_type_refuted.

(** ** Range *)
(** An integer of 64 bits: a constant, a native variable or a tensor of one element. *)
Definition param_is {T} (value : arg -> option cval) (e : lenv T) (a : arg) (z : Z) : Prop :=
  value a = Some (CI64 [z]) \/
  (value a = None /\ ((aty a = ScalarNative I64 /\ e (aname a) = Some (LNative z)) \/ (aty a = ScalarTensor I64 /\ e (aname a) = Some (LI (mkT [1] [z]))))).
Lemma param_read {T} (value : arg -> option cval) (e : lenv T) n k a z : nth_error (ninputs n) k = Some a -> param_is value e a z ->
  exists c p, range_input value n k = IOk c /\ range_param n c = IOk p /\ read_param e p = Some z.
Proof.
  intros Hk [H|(H & [(Ht & He)|(Ht & He)])]; unfold range_input; rewrite Hk, H.
  - exists (Static z), (RLit z). auto.
  - exists (Runtime k), (RNative (aname a)). split; [reflexivity|]. unfold range_param. rewrite Hk, Ht. split; [reflexivity|]. cbn [read_param]. rewrite He. reflexivity.
  - exists (Runtime k), (RTensor (aname a) I64). split; [reflexivity|]. unfold range_param. rewrite Hk, Ht. split; [reflexivity|]. cbn [read_param]. rewrite He. reflexivity.
Qed.
Lemma range_run {T} (value : arg -> option cval) (n : rnode) (s l d o : arg) (e : lenv T) (zs zl zd : Z) :
  ninputs n = [s; l; d] -> param_is value e s zs -> param_is value e l zl -> param_is value e d zd ->
  exists c, gen_range value n = IOk c /\ run_range e (aname o) c = obind (b_arange zs zl (to_usize zd)) (fun r => Some (lset e (aname o) (LI r))).
Proof.
  intros Hi Hs Hl Hd.
  destruct (param_read value e n 0 s zs ltac:(rewrite Hi; reflexivity) Hs) as (c0 & p0 & A1 & A2 & A3).
  destruct (param_read value e n 1 l zl ltac:(rewrite Hi; reflexivity) Hl) as (c1 & p1 & B1 & B2 & B3).
  destruct (param_read value e n 2 d zd ltac:(rewrite Hi; reflexivity) Hd) as (c2 & p2 & C1 & C2 & C3).
  exists (p0, p1, p2). unfold gen_range, range_config. rewrite A1, B1, C1. cbn [ibind]. rewrite A2, B2, C2. split; [reflexivity|].
  unfold run_range. rewrite A3, B3, C3. reflexivity.
Qed.

(** Range of integers with a step greater than zero, constants or not.  Missing:
    steps less than zero and fractions (both below). *)
Theorem C68_range_partial : forall (T : Type) (value : arg -> option cval) (n : rnode) (s l d o : arg) (e : lenv T) (start limit delta : Z),
  ninputs n = [s; l; d] -> noutputs n = [o] -> elem_of (aty s) = I64 ->
  param_is value e s start -> param_is value e l limit -> param_is value e d delta -> (0 < delta < 2 ^ 63)%Z ->
  (exists ty, infer_range n = IOk ty /\ ranked_as ty I64 1) /\
  exists c, gen_range value n = IOk c /\ run_range e (aname o) c = Some (lset e (aname o) (LI (range_result start limit delta))).
Proof.
  intros T value n s l d o e start limit delta Hi _ Hty Hs Hl Hd H0. split.
  { unfold infer_range. rewrite Hi, Hty. eexists. split; [reflexivity|]. eexists. split; [reflexivity|]. split; reflexivity. }
  destruct (range_run value n s l d o e start limit delta Hi Hs Hl Hd) as (c & Hc & Hrun). exists c. split; [exact Hc|]. rewrite Hrun.
  unfold to_usize. rewrite Z.mod_small by lia. rewrite b_arange_ok by lia. reflexivity.
Qed.
Print Assumptions C68_range_partial.

Definition rg_node : rnode := mkNode "Range" "n" [cnst "s" I64 0; mkArg "l" (ScalarNative I64) VDynamic; mkArg "d" (ScalarTensor I64) VDynamic] [parg "o" I64 1] [].
Definition rg_value := consts [("s"%string, CI64 [-3]%Z)].
Definition rg_env (l d : Z) : lenv Z := fun k => if String.eqb k "l" then Some (LNative l) else if String.eqb k "d" then Some (LI (mkT [1] [d])) else None.
Example C68_range_case : param_is rg_value (rg_env 5 3) (cnst "s" I64 0) (-3) /\ param_is rg_value (rg_env 5 3) (mkArg "l" (ScalarNative I64) VDynamic) 5 /\
  param_is rg_value (rg_env 5 3) (mkArg "d" (ScalarTensor I64) VDynamic) 3 /\ range_result (-3) 5 3 = mkT [3] [-3; 0; 3]%Z.
Proof. split; [left; reflexivity|]. split; [right; split; [reflexivity|left; split; reflexivity]|]. split; [right; split; [reflexivity|right; split; reflexivity]|]. reflexivity. Qed.

(** Every range that goes down comes out empty. *)
Theorem C68_range_down_refuted : forall (T : Type) (value : arg -> option cval) (n : rnode) (s l d o : arg) (e : lenv T) (start limit delta : Z),
  ninputs n = [s; l; d] -> param_is value e s start -> param_is value e l limit -> param_is value e d delta -> (- 2 ^ 63 <= delta < 0)%Z -> (limit < start)%Z ->
  exists c, gen_range value n = IOk c /\ run_range e (aname o) c = Some (lset e (aname o) (LI (mkT [0] []))) /\ range_result start limit delta <> mkT [0] [].
Proof.
  intros T value n s l d o e start limit delta Hi Hs Hl Hd H0 Hlt.
  destruct (range_run value n s l d o e start limit delta Hi Hs Hl Hd) as (c & Hc & Hrun). exists c. split; [exact Hc|]. split.
  - rewrite Hrun. unfold b_arange, to_usize. rewrite <- (Z.mod_unique delta 18446744073709551616 (-1) (delta + 18446744073709551616)) by lia.
    replace (Z.to_N (delta + 18446744073709551616) =? 0) with false by lia. replace (Z.to_nat (limit - start)) with 0%nat by lia. reflexivity.
  - unfold range_result. cbv zeta. intros E. injection E as E _. unfold range_size in E.
    assert ((start - limit) / delta < 0)%Z. { rewrite <- Z.div_opp_opp by lia. apply Z.div_lt_upper_bound; lia. } lia.
Qed.
Print Assumptions C68_range_down_refuted.
Example C68_range_down_case : param_is rg_value (rg_env (-9) (-2)) (mkArg "d" (ScalarTensor I64) VDynamic) (-2) /\ range_result (-3) (-9) (-2) = mkT [3] [-3; -5; -7]%Z.
Proof. split; [right; split; [reflexivity|right; split; reflexivity]|]. reflexivity. Qed.

(** Constants that are fractions are truncated: a step of one half stops the program. *)
Theorem C68_range_fraction_refuted : exists (value : arg -> option cval) (n : rnode) (c : rparam * rparam * rparam),
  value (cnst "d" F32 0) = Some (CF [(1/2)%R]) /\ ninputs n = [cnst "s" F32 0; cnst "l" F32 0; cnst "d" F32 0] /\ gen_range value n = IOk c /\
  forall e : lenv real, run_range e "o" c = None.
Proof.
  assert (T2 : Rtrunc (1 / 2) = 0%Z).
  { unfold Rtrunc. destruct (Rle_dec 0 (1/2)); [|lra]. destruct (base_Int_part (1/2)) as [H1 H2]. 
    assert (IZR (Int_part (1/2)) < 1)%R by lra. apply lt_IZR in H. assert (-1 < IZR (Int_part (1/2)))%R by lra. apply lt_IZR in H0. lia. }
  exists (consts [("s"%string, CF [0%R]); ("l"%string, CF [1%R]); ("d"%string, CF [(1/2)%R])]), (mkNode "Range" "n" [cnst "s" F32 0; cnst "l" F32 0; cnst "d" F32 0] [parg "o" F32 1] []).
  eexists. split; [reflexivity|]. split; [reflexivity|]. split; [reflexivity|]. intros e. unfold run_range. cbn [read_param obind]. rewrite T2. reflexivity.
Qed.
Print Assumptions C68_range_fraction_refuted.
