(** C83: Unsqueeze of a native scalar. *)
From Coq Require Import Lia ZArith Bool.
From Verif Require Import IR_Model ShapeOps_Model Tensor_Spec BinOps_Spec Lift_Spec Lift_Model.
Local Open Scope N_scope.
Local Open Scope string_scope.
Local Open Scope list_scope.

(** A node Unsqueeze of a native scalar of type [d], with these axes. *)
Definition of_native (value : arg -> option cval) (opset : N) (n : rnode) (d : dtype) (axes : list Z) : Prop :=
  (exists x rest, ninputs n = x :: rest /\ aty x = ScalarNative d) /\ noutputs n <> [] /\
  unsqueeze_axes value opset n = IOk (Some axes).

Lemma infer_one value opset n d a : of_native value opset n d [a] ->
  infer_unsqueeze value opset n =
    IOk (if is_int_dtype d then ShapeT 1 else TensorT (mkTT d 1 (Some [Some 1]))).
Proof.
  intros ((x & rest & Hi & Hx) & Ho & Ha). unfold infer_unsqueeze. rewrite Ha. cbn [iexpect ibind].
  unfold first_input, first_output. rewrite Hi. cbn [ibind].
  destruct (noutputs n); [contradiction|]. cbn [ibind]. rewrite Hx. cbn [ibind]. reflexivity.
Qed.
Lemma infer_more value opset n d axes ty : of_native value opset n d axes -> length axes <> 1%nat ->
  infer_unsqueeze value opset n = IOk ty -> exists t, ty = TensorT t /\ tt_rank t = N.of_nat (length axes).
Proof.
  intros ((x & rest & Hi & Hx) & Ho & Ha) Hl. unfold infer_unsqueeze. rewrite Ha. cbn [iexpect ibind].
  unfold first_input, first_output. rewrite Hi. cbn [ibind].
  destruct (noutputs n); [contradiction|]. cbn [ibind]. rewrite Hx. cbn [ibind].
  destruct (N.eqb_spec (0 + N.of_nat (length axes)) 1) as [E|_]; [lia|].
  destruct (insert_ones _ _ _ _); [|discriminate]. intros H. injection H as <-. eexists. split; reflexivity.
Qed.

Lemma cast_i64_id z : (- 2 ^ 63 <= z < 2 ^ 63)%Z -> cast_i64 (EI z) = Some z.
Proof.
  intros H. unfold cast_i64. f_equal. rewrite Z.mod_small; lia.
Qed.
Lemma convert_id d z lo hi : int_range d = Some (lo, hi) -> (lo <= z <= hi)%Z -> convert_int d z = Some (EI z).
Proof.
  intros E H. unfold convert_int. rewrite E.
  destruct (Z.leb_spec lo z), (Z.leb_spec z hi); cbn; try reflexivity; lia.
Qed.

(** The property: whatever the type, the value and the axes (each at most once
    and in range, so that inference succeeds), the program has the tensor of
    ones with the scalar in it.  Proved for one axis, numbers that are not
    half precision, and integers below 2^63.  Missing: the rest, refuted below. *)
Theorem C83_one_axis_partial : forall value opset n d a v,
  of_native value opset n d [a] -> in_dtype d v ->
  d <> BoolT -> d <> F16 -> d <> BF16 -> (forall z, v = EI z -> (z < 2 ^ 63)%Z) ->
  exists ty r, infer_unsqueeze value opset n = IOk ty /\
    unsqueeze_native d v ty = Gives r /\ held r = Some (unsqueezed 1 v).
Proof.
  intros value opset n d a v Hn Hv B1 B2 B3 Hz. rewrite (infer_one _ _ _ _ _ Hn). 
  match goal with |- exists ty r, IOk ?t = IOk ty /\ _ => exists t end.
  destruct v as [z|b|x]; cbn [in_dtype] in Hv.
  - destruct Hv as (lo & hi & Hr & Hb). specialize (Hz z eq_refl).
    assert (C : cast_i64 (EI z) = Some z).
    { apply cast_i64_id. destruct d; cbn in Hr; try discriminate Hr; injection Hr as <- <-; lia. }
    pose proof (convert_id d z lo hi Hr Hb) as K.
    destruct d; cbn in Hr; try discriminate Hr; unfold unsqueeze_native; cbn [is_int_dtype gen_lift tt_dtype tt_rank run_lift casts_to_i64];
      rewrite C; cbn [obind']; rewrite ?K; eexists; (split; [reflexivity|split; reflexivity]).
  - contradiction.
  - destruct Hv as (f & Hf). destruct d; cbn in Hf; try discriminate Hf; try contradiction; eexists; (split; [reflexivity|split; reflexivity]).
Qed.
Print Assumptions C83_one_axis_partial.

(** Two or more axes: import succeeds, but the program never has a result. *)
Theorem C83_more_axes_fail : forall value opset n d axes ty v r,
  of_native value opset n d axes -> (2 <= length axes)%nat ->
  infer_unsqueeze value opset n = IOk ty -> unsqueeze_native d v ty <> Gives r.
Proof.
  intros value opset n d axes ty v r Hn Hl Hi H.
  assert (L : length axes <> 1%nat) by lia.
  destruct (infer_more _ _ _ _ _ _ Hn L Hi) as (t & -> & Ht).
  assert (E : (tt_rank t =? 1)%N = false) by (apply N.eqb_neq; lia).
  unfold unsqueeze_native in H. cbn [gen_lift] in H.
  destruct (tt_dtype t); cbn [run_lift] in H;
    repeat match type of H with context [if ?b then _ else _] => destruct b; [|try discriminate H] end;
    unfold from_one in H; rewrite ?E in H; discriminate H.
Qed.
Print Assumptions C83_more_axes_fail.

(** Booleans and half precision numbers: the source does not compile. *)
Theorem C83_bool_half_fail : forall value opset n d a v,
  of_native value opset n d [a] -> d = BoolT \/ d = F16 \/ d = BF16 ->
  exists ty, infer_unsqueeze value opset n = IOk ty /\ unsqueeze_native d v ty = NoCompile.
Proof.
  intros value opset n d a v Hn Hd. rewrite (infer_one _ _ _ _ _ Hn). eexists. split; [reflexivity|].
  destruct Hd as [->|[->| ->]]; reflexivity.
Qed.
Print Assumptions C83_bool_half_fail.

(** Unsigned numbers from 2^63 on are not kept. *)
Theorem C83_large_fail : forall value opset n a z r,
  of_native value opset n U64 [a] -> (2 ^ 63 <= z < 2 ^ 64)%Z ->
  exists ty, infer_unsqueeze value opset n = IOk ty /\
    (unsqueeze_native U64 (EI z) ty = Gives r -> held r <> Some (unsqueezed 1 (EI z))).
Proof.
  intros value opset n a z r Hn Hz. rewrite (infer_one _ _ _ _ _ Hn). eexists. split; [reflexivity|].
  unfold unsqueeze_native. cbn [is_int_dtype gen_lift tt_dtype tt_rank run_lift casts_to_i64].
  assert (C : cast_i64 (EI z) = Some (z - 2 ^ 64)%Z).
  { unfold cast_i64. f_equal. rewrite <- (Z.mod_unique (z + 2 ^ 63) (2 ^ 64) 1 (z - 2 ^ 63)); lia. }
  rewrite C. cbn [obind']. unfold convert_int. cbn [int_range].
  destruct (Z.leb_spec 0 (z - 2 ^ 64)) as [L|L]; [lia|]. cbn. discriminate.
Qed.
Print Assumptions C83_large_fail.

(** ** Cases *)
Definition node (d : dtype) (axes : list Z) : rnode :=
  mkNode "Unsqueeze" "u" [mkArg "x" (ScalarNative d) VDynamic] [mkArg "y" (TensorT (mkTT d 1 None)) VDynamic] [("axes", AInts axes)].
Definition none (_ : arg) : option cval := None.
Lemma node_native d axes : of_native none 11 (node d axes) d axes.
Proof. split; [now do 2 eexists|]. split; [discriminate|reflexivity]. Qed.
Example C83_case_int : exists ty, infer_unsqueeze none 11 (node I64 [0%Z]) = IOk ty /\
  unsqueeze_native I64 (EI (-7)) ty = Gives (RShape [(-7)%Z]).
Proof. eexists. split; reflexivity. Qed.
Example C83_case_u8 : exists ty, infer_unsqueeze none 11 (node U8 [(-1)%Z]) = IOk ty /\
  unsqueeze_native U8 (EI 200) ty = Gives (RTensor (mkT [1] [EI 200])).
Proof. eexists. split; reflexivity. Qed.
(** The full statement is false: a 32 bit number with two axes. *)
Theorem C83_refuted : exists value opset n d axes v ty,
  of_native value opset n d axes /\ NoDup axes /\ (forall a, In a axes -> (0 <= a < Z.of_nat (length axes))%Z) /\
  in_dtype d v /\ infer_unsqueeze value opset n = IOk ty /\
  forall r, unsqueeze_native d v ty <> Gives r.
Proof.
  exists none, 11, (node I32 [0; 1]%Z), I32, [0; 1]%Z, (EI 3). eexists.
  split; [apply node_native|]. split; [repeat constructor; cbn; lia|].
  split; [intros a [<-|[<-|[]]]; cbn; lia|]. split; [cbn; do 2 eexists; split; [reflexivity|lia]|].
  split; [reflexivity|]. intros r.
  apply (C83_more_axes_fail none 11 (node I32 [0; 1]%Z) I32 [0; 1]%Z); [apply node_native|cbn; lia|reflexivity].
Qed.
Print Assumptions C83_refuted.
