(** C85: Reshape of a native scalar to a constant shape. *)
From Coq Require Import Lia ZArith Bool.
From Verif Require Import IR_Model ShapeOps_Model Tensor_Spec BinOps_Spec TensorRun_Model Lift_Spec Lift_Model LiftReshape_Model.
Local Open Scope N_scope.
Local Open Scope string_scope.
Local Open Scope list_scope.

(** A node Reshape of a native scalar of type [d] to the constant shape [l]. *)
Definition reshapes_native (value : arg -> option cval) (n : rnode) (d : dtype) (l : list Z) : Prop :=
  (exists x rest, ninputs n = x :: rest /\ aty x = ScalarNative d) /\ get_static_shape value n = IOk (Some l).

Lemma infer_type value n d l ty : reshapes_native value n d l -> infer_reshape value n = IOk ty ->
  exists dims, ty = reshape_output_type (ScalarNative d) (N.of_nat (length l)) (Some l) dims.
Proof.
  intros ((x & rest & Hi & Hx) & Hs). unfold infer_reshape. destruct (negb (reshape_input_ok n)); [discriminate|].
  rewrite Hs. cbn [ibind]. destruct (attr_i64_or n "allowzero" 0); cbn [ibind]; try discriminate.
  destruct (negb (reshape_values_ok l a)); [discriminate|]. unfold first_input. rewrite Hi. cbn [ibind].
  destruct (first_output n); cbn [ibind reshape_rank]; try discriminate. intros H. rewrite Hx in H.
  injection H as <-. eexists. reflexivity.
Qed.

(** The property: whatever the type, the value and the shape (made of ones and at
    most one -1, so that one element fits), the program has the tensor of ones
    with the scalar in it.  Proved for shapes of at most one dimension: the
    scalar stays a number.  Missing: the other shapes, refuted below. *)
Theorem C85_short_partial : forall value n d l v ty,
  reshapes_native value n d l -> l = [] \/ l = [1%Z] \/ l = [(-1)%Z] ->
  infer_reshape value n = IOk ty ->
  ty = ScalarNative d /\ reshape_native d v l ty = Gives (RNative v).
Proof.
  intros value n d l v ty Hn Hl Hi. destruct (infer_type _ _ _ _ _ Hn Hi) as (dims & ->).
  destruct Hl as [->|[->| ->]]; split; reflexivity.
Qed.
Print Assumptions C85_short_partial.

(** Two or more dimensions: whatever the scalar, the program never has a result. *)
Theorem C85_long_fail : forall value n d l v ty r,
  reshapes_native value n d l -> (2 <= length l)%nat -> infer_reshape value n = IOk ty ->
  ty = TensorT (mkTT d (N.of_nat (length l)) (match ty with TensorT t => tt_shape t | _ => None end)) /\
  reshape_native d v l ty <> Gives r.
Proof.
  intros value n d l v ty r Hn Hl Hi. destruct (infer_type _ _ _ _ _ Hn Hi) as (dims & ->).
  assert (E1 : (N.of_nat (length l) =? 1)%N = false) by (apply N.eqb_neq; lia).
  assert (E0 : (N.of_nat (length l) =? 0)%N = false) by (apply N.eqb_neq; lia).
  unfold reshape_output_type. rewrite E0, E1. cbn [input_dtype tt_shape]. split; [reflexivity|].
  unfold reshape_native. cbn [gen_rlift tt_dtype tt_rank].
  destruct d; cbn [dtype_beq run_rlift run_lift casts_to_f64 casts_to_i64 compares_to_0 then_reshape];
    unfold from_one; rewrite ?E1; cbn [then_reshape]; discriminate.
Qed.
Print Assumptions C85_long_fail.

(** ** Cases *)
Definition node (d : dtype) (l : list Z) : rnode :=
  mkNode "Reshape" "r" [mkArg "x" (ScalarNative d) VDynamic] [mkArg "y" (TensorT (mkTT d 1 None)) VDynamic] [("shape", AInts l)].
Definition none (_ : arg) : option cval := None.
Lemma node_native d l : reshapes_native none (node d l) d l.
Proof. split; [now do 2 eexists|reflexivity]. Qed.
Example C85_case : infer_reshape none (node F32 [(-1)%Z]) = IOk (ScalarNative F32).
Proof. reflexivity. Qed.
Theorem C85_refuted : exists value n d l v ty,
  reshapes_native value n d l /\ Forall (fun k => k = 1%Z) l /\ in_dtype d v /\ infer_reshape value n = IOk ty /\
  forall r, reshape_native d v l ty <> Gives r.
Proof.
  exists none, (node I64 [1; 1]%Z), I64, [1; 1]%Z, (EI 3). eexists.
  split; [apply node_native|]. split; [repeat constructor|]. split; [do 2 eexists; split; [reflexivity|lia]|].
  split; [reflexivity|]. intros r.
  apply (C85_long_fail none (node I64 [1; 1]%Z) I64 [1; 1]%Z (EI 3) _ r (node_native _ _)); [cbn; lia|reflexivity].
Qed.
Print Assumptions C85_refuted.
