(** C18, C19, C20, C21: Reshape, Transpose, Squeeze, Unsqueeze, Flatten. *)
From Verif Require Import IR_Model Tensor_Spec Shapes_Spec Infer_Props ShapeOps_Model ShapeOps_Spec ShapeOps_Proofs.
Open Scope string_scope.
Open Scope list_scope.
Open Scope N_scope.

Definition vt (r : N) (s : option (list (option N))) : argty := TensorT (mkTT F32 r s).
Definition in_ (t : argty) : arg := mkArg "x" t VDynamic.
Definition out_ (t : argty) : arg := mkArg "y" t VDynamic.
Definition ivec (k : N) : arg := mkArg "" (TensorT (mkTT I64 1 (Some [Some k]))) (VStatic 0).
Definition const (l : list Z) : arg -> option cval :=
  fun a => match asrc a with VStatic _ => Some (mkC [N.of_nat (length l)] I64 (Some l)) | _ => None end.

(** ** C18 *)

(** Whatever is inferred for Reshape is met by the shape ONNX prescribes: [req]
    is the requested shape (a constant second input or the attribute), [s] any
    run-time shape the input's type allows, [out] the ONNX output shape.
    Excluded are native scalars and a 1-D shape value reshaped to [0]: see the
    refutations.  Sizes fit in 64 bits. *)
Theorem C18_sound_partial : forall value n i0 rest o0 orest az s req out ty,
  ninputs n = i0 :: rest -> noutputs n = o0 :: orest ->
  (get_attr n "allowzero" = Some (AInt az) \/ (get_attr n "allowzero" = None /\ az = 0%Z)) ->
  shape_given value n req ->
  fits (aty i0) s -> (forall d, aty i0 <> ScalarNative d) -> ((exists r, aty i0 = ShapeT r) -> req <> [0%Z]) ->
  reshape_of (Z.eqb az 1) s req out -> Forall i64_range req -> prodN s < w64 ->
  infer_reshape value n = IOk ty -> fits ty out.
Proof.
  intros value n i0 rest o0 orest az s req out ty H1 H2 H3 H4.
  apply (reshape_ok value n i0 rest o0 orest az s req out ty H1 H2).
  - unfold attr_i64_or. destruct H3 as [->|[-> ->]]; reflexivity.
  - apply shape_given_static. exact H4.
Qed.
Print Assumptions C18_sound_partial.

(** A shape only known at run time: the rank is the length of that shape. *)
Theorem C18_runtime_shape : forall value n i0 i1 t o0 orest az s req out ty,
  ninputs n = [i0; i1] -> noutputs n = o0 :: orest ->
  (get_attr n "allowzero" = Some (AInt az) \/ (get_attr n "allowzero" = None /\ az = 0%Z)) ->
  value i1 = None -> get_attr n "shape" = None ->
  aty i0 = TensorT t -> fits (aty i1) [N.of_nat (length req)] ->
  (((forall t', aty o0 = TensorT t' -> fits_tt t' out) /\ (forall d, aty o0 = ScalarNative d -> out = [])) \/
   ((exists r, aty i1 = ShapeT r) /\ (forall t', aty o0 = TensorT t' -> tt_shape t' = None))) ->
  reshape_of (Z.eqb az 1) s req out ->
  infer_reshape value n = IOk ty -> fits ty out.
Proof.
  intros value n i0 i1 t o0 orest az s req out ty H1 H2 H3 H4 H4'.
  apply (reshape_runtime_ok value n i0 i1 t o0 orest az s req out ty H1 H2).
  - unfold attr_i64_or. destruct H3 as [->|[-> ->]]; reflexivity.
  - unfold get_static_shape. rewrite H1, H4, H4'. reflexivity.
Qed.
Print Assumptions C18_runtime_shape.

(** When a -1 is resolved, the element count is the input's (modulo 2^64, the
    wrap-around of the multiplication). *)
Theorem C18_count_kept : forall value n i0 rest t l req r t',
  ninputs n = i0 :: rest -> aty i0 = TensorT t -> tt_shape t = Some l -> shape_given value n req ->
  In (-1)%Z req -> (forall i j, nth_error req i = Some (-1)%Z -> nth_error req j = Some (-1)%Z -> i = j) ->
  (forall o, In o l -> o <> None) ->
  infer_reshape value n = IOk (TensorT t') -> tt_shape t' = Some r -> (forall o, In o r -> o <> None) ->
  prodN (unopt r) mod w64 = prodN (unopt l) mod w64.
Proof. exact reshape_count. Qed.
Print Assumptions C18_count_kept.

(** Requests ONNX rejects are rejected: more than one -1, and -1 beside a 0 that
    means an empty dimension. *)
Theorem C18_rejects : forall value n az req ty,
  (get_attr n "allowzero" = Some (AInt az) \/ (get_attr n "allowzero" = None /\ az = 0%Z)) ->
  shape_given value n req -> infer_reshape value n = IOk ty ->
  (forall i j, nth_error req i = Some (-1)%Z -> nth_error req j = Some (-1)%Z -> i = j) /\
  ~ (az = 1%Z /\ In 0%Z req /\ In (-1)%Z req).
Proof.
  intros value n az req ty Ha Hg H. apply (reshape_rejects value n az req ty); [|exact Hg|exact H].
  unfold attr_i64_or. destruct Ha as [->|[-> ->]]; reflexivity.
Qed.
Print Assumptions C18_rejects.
(** Only these are rejected for their values. *)
Theorem C18_accepts : forall value n i0 rest o0 orest az req,
  ninputs n = i0 :: rest -> noutputs n = o0 :: orest ->
  (forall i1 more, rest = i1 :: more -> match aty i1 with TensorT t => tt_rank t = 1 /\ tt_dtype t = I64 | ShapeT _ => True | _ => False end) ->
  (get_attr n "allowzero" = Some (AInt az) \/ (get_attr n "allowzero" = None /\ az = 0%Z)) ->
  shape_given value n req ->
  (forall i j, nth_error req i = Some (-1)%Z -> nth_error req j = Some (-1)%Z -> i = j) ->
  ~ (az = 1%Z /\ In 0%Z req /\ In (-1)%Z req) ->
  exists ty, infer_reshape value n = IOk ty.
Proof.
  intros value n i0 rest o0 orest az req Hi Ho Ht Ha Hg Hu Hz.
  apply (reshape_accepts value n i0 rest o0 orest az req); try assumption.
  unfold attr_i64_or. destruct Ha as [->|[-> ->]]; reflexivity.
Qed.
Print Assumptions C18_accepts.

Definition rs_node : rnode :=
  mkNode "Reshape" "r" [in_ (vt 3 (Some [Some 2; Some 3; Some 4])); ivec 3] [out_ (vt 1 None)] [].
Example C18_example :
  infer_reshape (const [0; -1; 2]%Z) rs_node = IOk (vt 3 (Some [Some 2; Some 6; Some 2])) /\
  shape_given (const [0; -1; 2]%Z) rs_node [0; -1; 2]%Z /\
  fits (aty (in_ (vt 3 (Some [Some 2; Some 3; Some 4])))) [2; 3; 4] /\
  reshape_of false [2; 3; 4] [0; -1; 2]%Z [2; 6; 2].
Proof.
  split; [reflexivity|]. split.
  { left. eexists _, _, _, _. repeat split. }
  split; [fits_tac|]. repeat split.
  - intros [|[|[|[|i]]]] [|[|[|[|j]]]]; cbn; congruence.
  - intros ?; discriminate.
  - intros [|[|[|[|i]]]] v d; cbn; intros E1 E2; try discriminate; injection E1 as <-; injection E2 as <-; auto 10.
    left. split; [reflexivity|reflexivity].
Qed.
Example C18_runtime_example :
  let n := mkNode "Reshape" "r" [in_ (vt 3 (Some [Some 2; Some 3; Some 4])); mkArg "sh" (ShapeT 2) VDynamic] [out_ (vt 1 None)] [] in
  infer_reshape (const []) n = IOk (vt 2 None) /\ const [] (mkArg "sh" (ShapeT 2) VDynamic) = None /\
  fits (ShapeT 2) [N.of_nat (length [6; -1]%Z)].
Proof. repeat split. Qed.

(** A native scalar reshaped to one element is still typed as a scalar. *)
Theorem C18_scalar_to_vector_refuted : exists n s out ty,
  shape_given (const [1%Z]) n [1%Z] /\ fits (ScalarNative F32) s /\ (exists i0 i1, ninputs n = [i0; i1] /\ aty i0 = ScalarNative F32) /\
  reshape_of false s [1%Z] out /\ infer_reshape (const [1%Z]) n = IOk ty /\ ~ fits ty out.
Proof.
  exists (mkNode "Reshape" "r" [in_ (ScalarNative F32); ivec 1] [out_ (vt 1 None)] []), [], [1], (ScalarNative F32).
  split; [left; eexists _, _, _, _; repeat split|]. split; [reflexivity|]. split; [eexists _, _; split; reflexivity|]. split.
  { split; [reflexivity|]. split; [reflexivity|]. split; [intros [|[|i]] [|[|j]]; cbn; congruence|]. split; [discriminate|].
    intros [|[|i]] v d; cbn; intros E1 E2; try discriminate. injection E1 as <-. injection E2 as <-. left. split; reflexivity. }
  split; [reflexivity|]. discriminate.
Qed.
Print Assumptions C18_scalar_to_vector_refuted.

(** A 1-D shape value of length 3 reshaped to [0] (keep the length) is typed as length 1. *)
Theorem C18_shape_zero_refuted : exists n s out ty,
  shape_given (const [0%Z]) n [0%Z] /\ (exists i0 i1, ninputs n = [i0; i1] /\ fits (aty i0) s) /\
  reshape_of false s [0%Z] out /\ infer_reshape (const [0%Z]) n = IOk ty /\ ~ fits ty out.
Proof.
  exists (mkNode "Reshape" "r" [in_ (ShapeT 3); ivec 1] [out_ (vt 1 None)] []), [3], [3], (ShapeT 1).
  split; [left; eexists _, _, _, _; repeat split|]. split; [eexists _, _; split; [reflexivity|reflexivity]|]. split.
  { split; [reflexivity|]. split; [reflexivity|]. split; [intros [|[|i]] [|[|j]]; cbn; congruence|]. split; [discriminate|].
    intros [|[|i]] v d; cbn; intros E1 E2; try discriminate. injection E1 as <-. injection E2 as <-. right. right. left. repeat split. }
  split; [reflexivity|]. discriminate.
Qed.
Print Assumptions C18_shape_zero_refuted.

(** ** C19 *)
Theorem C19_sound : forall n i0 rest t perm s out ty,
  ninputs n = i0 :: rest -> aty i0 = TensorT t ->
  (get_attr n "perm" = Some (AInts perm) \/ (get_attr n "perm" = None /\ perm = rev (map Z.of_nat (seq 0 (N.to_nat (tt_rank t)))))) ->
  tt_rank t < w64 -> fits (aty i0) s -> transpose_of perm s out ->
  infer_transpose n = IOk ty -> fits ty out.
Proof. exact transpose_sound. Qed.
Print Assumptions C19_sound.

Theorem C19_noop_exact : forall n i0 rest t perm ty,
  ninputs n = i0 :: rest -> aty i0 = TensorT t ->
  (get_attr n "perm" = Some (AInts perm) \/ (get_attr n "perm" = None /\ perm = rev (map Z.of_nat (seq 0 (N.to_nat (tt_rank t)))))) ->
  infer_transpose n = IOk ty ->
  (transpose_is_noop n = IOk true <-> perm = map Z.of_nat (seq 0 (N.to_nat (tt_rank t)))).
Proof. exact transpose_noop_exact. Qed.
Print Assumptions C19_noop_exact.

Definition tr_node : rnode :=
  mkNode "Transpose" "t" [in_ (vt 3 (Some [Some 2; None; Some 4]))] [out_ (vt 1 None)] [("perm", AInts [2; 0; 1]%Z)].
Example C19_example :
  infer_transpose tr_node = IOk (vt 3 (Some [Some 4; Some 2; None])) /\ transpose_is_noop tr_node = IOk false /\
  fits (vt 3 (Some [Some 2; None; Some 4])) [2; 9; 4] /\ transpose_of [2; 0; 1]%Z [2; 9; 4] [4; 2; 9].
Proof.
  split; [reflexivity|]. split; [reflexivity|]. split; [fits_tac|]. split.
  - cbn. apply (Permutation_trans (l' := [0; 2; 1]%Z)); [apply perm_swap|]. apply perm_skip. apply perm_swap.
  - split; [reflexivity|]. intros [|[|[|[|k]]]] p; cbn; intros E; try discriminate; injection E as <-; reflexivity.
Qed.

(** ** C20 *)
Theorem C20_squeeze_sound : forall value opset n i0 rest axes s out ty,
  ninputs n = i0 :: rest -> squeeze_axes_given value opset n axes -> axes <> [] ->
  N.of_nat (length s) < r63 -> fits (aty i0) s -> squeeze_of axes s out ->
  infer_squeeze value opset n = IOk ty -> fits ty out.
Proof. exact squeeze_any. Qed.
Print Assumptions C20_squeeze_sound.

(** Without axes all dimensions of size one go; they must all be known. *)
Theorem C20_squeeze_all_partial : forall value opset n i0 rest t l s out ty,
  ninputs n = i0 :: rest -> aty i0 = TensorT t -> no_axes n ->
  tt_shape t = Some l -> (forall o, In o l -> o <> None) ->
  fits (aty i0) s -> squeeze_all_of s out ->
  infer_squeeze value opset n = IOk ty -> fits ty out.
Proof.
  intros value opset n i0 rest t l s out ty H1 H2 H3.
  apply (squeeze_all_sound value opset n i0 rest t l s out ty H1 H2). apply no_axes_static. exact H3.
Qed.
Print Assumptions C20_squeeze_all_partial.

Theorem C20_unsqueeze_sound : forall value opset n i0 rest o0 orest axes s out,
  ninputs n = i0 :: rest -> noutputs n = o0 :: orest -> unsqueeze_axes_given value opset n axes ->
  N.of_nat (length out) < r63 -> (forall r, aty i0 <> ShapeT r) ->
  fits (aty i0) s -> unsqueeze_of axes s out ->
  exists ty, infer_unsqueeze value opset n = IOk ty /\ fits ty out.
Proof.
  intros value opset n i0 rest o0 orest axes s out H1 H2 H3.
  apply (unsqueeze_sound value opset n i0 rest o0 orest axes s out H1 H2). apply unsqueeze_axes_static. exact H3.
Qed.
Print Assumptions C20_unsqueeze_sound.

(** Squeezing the axes just inserted gives back rank and dimensions. *)
Theorem C20_inverse : forall value opset value' opset' n m i0 rest o0 orest j0 jrest t axes ty,
  ninputs n = i0 :: rest -> noutputs n = o0 :: orest -> aty i0 = TensorT t ->
  1 <= tt_rank t -> length (declared t) = N.to_nat (tt_rank t) ->
  tt_rank t + N.of_nat (length axes) < r63 ->
  valid_axes (N.to_nat (tt_rank t) + length axes) axes ->
  unsqueeze_axes_given value opset n axes -> infer_unsqueeze value opset n = IOk ty ->
  ninputs m = j0 :: jrest -> aty j0 = ty -> squeeze_axes_given value' opset' m axes ->
  exists d, infer_squeeze value' opset' m = IOk (TensorT (mkTT d (tt_rank t) (Some (declared t)))).
Proof.
  intros value opset value' opset' n m i0 rest o0 orest j0 jrest t axes ty H1 H2 H3 H4 H5 H6 H7 H8 H9 H10 H11 H12.
  apply (squeeze_unsqueeze value opset value' opset' n m i0 rest o0 orest j0 jrest t axes ty); auto.
  - apply unsqueeze_axes_static. exact H8.
  - apply squeeze_axes_static. exact H12.
Qed.
Print Assumptions C20_inverse.
(** The same on run-time shapes. *)
Theorem C20_inverse_shapes : forall axes s out, unsqueeze_of axes s out -> squeeze_of axes out s.
Proof. intros axes s out [_ [H1 [H2 H3]]]. split; [exact H1|split; assumption]. Qed.
Print Assumptions C20_inverse_shapes.

Definition us_node : rnode :=
  mkNode "Unsqueeze" "u" [in_ (vt 2 (Some [Some 3; None])); ivec 2] [out_ (vt 1 None)] [].
Definition sq_node : rnode :=
  mkNode "Squeeze" "s" [in_ (vt 4 (Some [Some 1; Some 3; None; Some 1])); ivec 2] [out_ (vt 1 None)] [].
Lemma us_valid : valid_axes 4 [-1; 0]%Z.
Proof.
  split; [cbn; intros a [<-|[<-|[]]]; lia|]. cbn. repeat constructor; cbn; intuition discriminate.
Qed.
Example C20_example :
  infer_unsqueeze (const [-1; 0]%Z) 13 us_node = IOk (vt 4 (Some [Some 1; Some 3; None; Some 1])) /\
  infer_squeeze (const [-1; 0]%Z) 13 sq_node = IOk (vt 2 (Some [Some 3; None])) /\
  unsqueeze_axes_given (const [-1; 0]%Z) 13 us_node [-1; 0]%Z /\ squeeze_axes_given (const [-1; 0]%Z) 13 sq_node [-1; 0]%Z /\
  unsqueeze_of [-1; 0]%Z [3; 8] [1; 3; 8; 1].
Proof.
  split; [reflexivity|]. split; [reflexivity|]. split.
  { right. split; [reflexivity|]. eexists _, _, _, _, I64. split; [reflexivity|]. split; [reflexivity|]. split; [reflexivity|].
    left. split; [|reflexivity]. eexists. split; [reflexivity|]. cbn. lia. }
  split; [right; split; [reflexivity|eexists _, _, _, _; repeat split]|].
  split; [reflexivity|]. split; [exact us_valid|]. split.
  - intros i d [a [[<-|[<-|[]]] <-]]; vm_compute; congruence.
  - assert (H1 : ~ named 4 [-1; 0]%Z 1) by (intros [a [[<-|[<-|[]]] E]]; discriminate E).
    assert (H2 : ~ named 4 [-1; 0]%Z 2) by (intros [a [[<-|[<-|[]]] E]]; discriminate E).
    apply del_drop; [exists 0%Z; cbn; auto|]. apply del_keep; [exact H1|]. apply del_keep; [exact H2|].
    apply del_drop; [exists (-1)%Z; cbn; auto|]. constructor.
Qed.

(** Squeeze without axes keeps a dimension whose size is unknown. *)
Theorem C20_squeeze_unknown_refuted : exists n i0 s out ty,
  ninputs n = [i0] /\ no_axes n /\ fits (aty i0) s /\ squeeze_all_of s out /\
  infer_squeeze (const []) 13 n = IOk ty /\ ~ fits ty out.
Proof.
  exists (mkNode "Squeeze" "s" [in_ (vt 2 (Some [None; Some 3]))] [out_ (vt 1 None)] []), (in_ (vt 2 (Some [None; Some 3]))), [1; 3], [3], (vt 2 (Some [None; Some 3])).
  split; [reflexivity|]. split; [split; [reflexivity|cbn; lia]|]. split; [fits_tac|]. split.
  - apply del_drop; [reflexivity|]. apply del_keep; [discriminate|]. constructor.
  - split; [reflexivity|]. intros [H _]. discriminate H.
Qed.
Print Assumptions C20_squeeze_unknown_refuted.

(** Axes only known at run time are treated as if no axes were given. *)
Theorem C20_squeeze_runtime_axes_refuted : exists n i0 i1 s out ty,
  ninputs n = [i0; i1] /\ const [0%Z] i1 = None /\
  fits (aty i0) s /\ squeeze_of [0%Z] s out /\ infer_squeeze (const [0%Z]) 13 n = IOk ty /\ ~ fits ty out.
Proof.
  set (a := in_ (vt 3 (Some [Some 1; Some 1; Some 3]))). set (b := mkArg "axes" (TensorT (mkTT I64 1 (Some [Some 1]))) VDynamic).
  exists (mkNode "Squeeze" "s" [a; b] [out_ (vt 1 None)] []), a, b, [1; 1; 3], [1; 3], (vt 1 (Some [Some 3])).
  split; [reflexivity|]. split; [reflexivity|]. split; [fits_tac|]. split.
  - split; [split; [cbn; intros z [<-|[]]; lia|repeat constructor; auto]|]. split.
    + intros i d [z [[<-|[]] <-]]; vm_compute; congruence.
    + assert (H1 : ~ named 3 [0]%Z 1) by (intros [z [[<-|[]] E]]; discriminate E).
      assert (H2 : ~ named 3 [0]%Z 2) by (intros [z [[<-|[]] E]]; discriminate E).
      apply del_drop; [exists 0%Z; cbn; auto|]. apply del_keep; [exact H1|]. apply del_keep; [exact H2|]. constructor.
  - split; [reflexivity|]. intros [H _]. discriminate H.
Qed.
Print Assumptions C20_squeeze_runtime_axes_refuted.

(** Axes that name one position twice: an undocumented wrong rank for Squeeze. *)
Example C20_duplicate_axes :
  infer_squeeze (const [0; -2]%Z) 13 (mkNode "Squeeze" "s" [in_ (vt 2 (Some [Some 1; Some 3])); ivec 2] [out_ (vt 1 None)] [])
  = IOk (ScalarTensor F32).
Proof. reflexivity. Qed.

(** ** C21 *)
Theorem C21_sound : forall n t axis s out ty i0 rest,
  ninputs n = i0 :: rest -> aty i0 = TensorT t ->
  (get_attr n "axis" = Some (AInt axis) \/ (get_attr n "axis" = None /\ axis = 1%Z)) ->
  fits (aty i0) s -> flatten_of axis s out -> Forall (fun d => d < w64) out -> tt_rank t < r63 ->
  infer_flatten n = IOk ty -> fits ty out.
Proof. exact flatten_sound. Qed.
Print Assumptions C21_sound.
Theorem C21_count_kept : forall axis s out, flatten_of axis s out -> prodN out = prodN s.
Proof. exact flatten_count. Qed.
Print Assumptions C21_count_kept.
(** A Flatten dropped as a no-op leaves the shape as it is. *)
Theorem C21_noop_sound : forall n i0 rest t axis s out,
  ninputs n = i0 :: rest -> aty i0 = TensorT t -> fits (aty i0) s ->
  (get_attr n "axis" = Some (AInt axis) \/ (get_attr n "axis" = None /\ axis = 1%Z)) ->
  flatten_of axis s out -> flatten_is_noop n = IOk true -> out = s.
Proof.
  intros n i0 rest t axis s out H1 H2 H3 H4. apply (flatten_noop n i0 rest t axis s out H1 H2 H3).
  unfold attr_i64_or. destruct H4 as [->|[-> ->]]; reflexivity.
Qed.
Print Assumptions C21_noop_sound.
Example C21_example :
  let n := mkNode "Flatten" "f" [in_ (vt 4 (Some [Some 2; Some 3; None; Some 5]))] [out_ (vt 1 None)] [("axis", AInt (-2)%Z)] in
  infer_flatten n = IOk (vt 2 (Some [Some 6; None])) /\ fits (vt 4 (Some [Some 2; Some 3; None; Some 5])) [2; 3; 7; 5] /\
  flatten_of (-2) [2; 3; 7; 5] [6; 35].
Proof.
  split; [reflexivity|]. split; [fits_tac|]. split; [cbn; lia|reflexivity].
Qed.
