(** C50: the code emitted for element-wise operators with two operands. *)
From Coq Require Import SpecFloat.
From Verif Require Import BinOps_Spec BinOps_Model BinOps_Proofs.
Open Scope list_scope.
Open Scope Z_scope.

(** The emitted expression exists, type inference records a type, and running
    the expression gives a value of that type standing for [t]. *)
Definition computes (d : dtype) (op : bop) (lty rty : argty) (vl vr : rv) (t : tensor elt) : Prop :=
  exists c ty v, generate op lty rty = Some c /\ infer_binary op lty rty = Some ty /\ run d vl vr c = Some v /\
    stands_for (if is_compare op then BoolT else d) ty v t.

(** Whatever the shapes, the number of dimensions and the elements: if the
    operands stand for two ONNX tensors of element type [d] and ONNX defines
    the result, the generated code computes it.  Missing: the combinations of
    types left out of [combination], which fail below. *)
Theorem C50_elementwise_partial : forall d op lty rty vl vr tl tr t,
  stands_for d lty vl tl -> stands_for d rty vr tr -> combination op lty rty ->
  onnx_binary d op tl tr = Some t ->
  computes d op lty rty vl vr t.
Proof.
  intros d op lty rty vl vr tl tr t Hl Hr C Ht.
  destruct (all_done _ _ _ _ _ _ _ _ _ Hl Hr C Ht) as (c & Hg & ty & v & Hi & Hv & Hs).
  exists c, ty, v. auto.
Qed.
Print Assumptions C50_elementwise_partial.

(** ** Cases that meet the hypotheses *)
Ltac element := cbn; (reflexivity || (eexists; reflexivity) || (do 2 eexists; split; [reflexivity|split; discriminate])).
Ltac stands := split; [reflexivity|split;
  [cbn; repeat apply Forall_cons; try apply Forall_nil; element
  |cbn; repeat split; try reflexivity; try discriminate; try (left; split; reflexivity)]].
Definition i64_tensor (s : list N) (l : list Z) : tensor elt := mkT s (map EI l).
Definition tensor_ty (d : dtype) (r : N) : argty := TensorT (mkTT d r None).

(** A [2;3] matrix minus a vector of 3: the vector is unsqueezed. *)
Example C50_matrix_vector :
  let a := i64_tensor [2; 3]%N [10; 20; 30; 40; 50; 60] in let b := i64_tensor [3]%N [1; 2; 3] in
  stands_for I64 (tensor_ty I64 2) (RTensor a) a /\ stands_for I64 (tensor_ty I64 1) (RTensor b) b /\
  combination OSub (tensor_ty I64 2) (tensor_ty I64 1) /\
  generate OSub (tensor_ty I64 2) (tensor_ty I64 1) = Some (CBinary MSub (DVar L) (DUnsqueeze 1 (DVar R))) /\
  onnx_binary I64 OSub a b = Some (i64_tensor [2; 3]%N [9; 18; 27; 39; 48; 57]).
Proof. cbv zeta. split; [stands|]. split; [stands|]. repeat split; try reflexivity. discriminate. Qed.

(** A native scalar compared with a device tensor: the method is exchanged. *)
Example C50_native_less :
  let b := i64_tensor [3]%N [4; 5; 6] in
  stands_for I64 (ScalarNative I64) (RNative (EI 5)) (i64_tensor [] [5]) /\
  stands_for I64 (tensor_ty I64 1) (RTensor b) b /\
  combination OLess (ScalarNative I64) (tensor_ty I64 1) /\
  generate OLess (ScalarNative I64) (tensor_ty I64 1) = Some (CScalar MGreater R L) /\
  onnx_binary I64 OLess (i64_tensor [] [5]) b = Some (mkT [3]%N [EB false; EB false; EB true]).
Proof. cbv zeta. split; [stands|]. split; [stands|]. repeat split; try reflexivity; try discriminate. Qed.

(** An array minus a native scalar, a scalar minus an array. *)
Example C50_shape_scalar :
  stands_for I64 (ShapeT 2) (RShape [7; 9]) (i64_tensor [2]%N [7; 9]) /\
  stands_for I64 (ScalarNative I64) (RNative (EI 1)) (i64_tensor [] [1]) /\
  combination OSub (ShapeT 2) (ScalarNative I64) /\ combination OSub (ScalarNative I64) (ShapeT 2) /\
  onnx_binary I64 OSub (i64_tensor [2]%N [7; 9]) (i64_tensor [] [1]) = Some (i64_tensor [2]%N [6; 8]) /\
  run I64 (RNative (EI 1)) (RShape [7; 9]) (CEach USatSubRev R L) = Some (RShape [-6; -8]).
Proof. split; [stands|]. split; [stands|]. repeat split; reflexivity. Qed.

(** ** What fails *)
Definition f32 (n : Z) : spec_float := binary_normalize 24 128 n 0 false.
Ltac fails := intros (c & ty & v & Hg & Hi & Hv & Hs); vm_compute in Hg; try discriminate Hg;
  injection Hg as <-; vm_compute in Hv; try discriminate Hv; injection Hv as <-.

(** Arrays of different lengths: items beyond the shorter one are left alone
    instead of broadcast. *)
Theorem C50_shape_lengths_refuted : exists vl vr tl tr t,
  stands_for I64 (ShapeT 2) vl tl /\ stands_for I64 (ShapeT 1) vr tr /\ onnx_binary I64 OAdd tl tr = Some t /\
  ~ computes I64 OAdd (ShapeT 2) (ShapeT 1) vl vr t.
Proof.
  exists (RShape [3; 4]), (RShape [1]), (i64_tensor [2]%N [3; 4]), (i64_tensor [1]%N [1]), (i64_tensor [2]%N [4; 5]).
  split; [stands|]. split; [stands|]. split; [reflexivity|]. fails.
  vm_compute in Hi. injection Hi as <-. destruct Hs as (_ & _ & _ & [[_ H]|[H _]]); discriminate H.
Qed.
Print Assumptions C50_shape_lengths_refuted.

(** An array and a tensor of two dimensions: the program does not compile. *)
Theorem C50_shape_matrix_refuted : exists vl vr tl tr t,
  stands_for I64 (ShapeT 2) vl tl /\ stands_for I64 (tensor_ty I64 2) vr tr /\ onnx_binary I64 OAdd tl tr = Some t /\
  ~ computes I64 OAdd (ShapeT 2) (tensor_ty I64 2) vl vr t.
Proof.
  exists (RShape [3; 4]), (RTensor (i64_tensor [1; 2]%N [1; 1])), (i64_tensor [2]%N [3; 4]), (i64_tensor [1; 2]%N [1; 1]),
    (i64_tensor [1; 2]%N [4; 5]).
  split; [stands|]. split; [stands|]. split; [reflexivity|]. fails.
Qed.
Print Assumptions C50_shape_matrix_refuted.

(** An array compared with a native scalar: the generator panics.  With a device
    scalar: the recorded type is an array, the value a tensor. *)
Theorem C50_shape_compare_refuted : exists vl tl tr t, forall vr rty,
  rty = ScalarNative I64 /\ vr = RNative (EI 3) \/ rty = ScalarTensor I64 /\ vr = RTensor (i64_tensor [1]%N [3]) ->
  stands_for I64 (ShapeT 2) vl tl /\ stands_for I64 rty vr tr /\ onnx_binary I64 OEqual tl tr = Some t /\
  ~ computes I64 OEqual (ShapeT 2) rty vl vr t.
Proof.
  exists (RShape [3; 4]), (i64_tensor [2]%N [3; 4]), (i64_tensor [] [3]), (mkT [2]%N [EB true; EB false]).
  intros vr rty [[-> ->] | [-> ->]]; (split; [stands|]; split; [stands|]; split; [reflexivity|]); fails.
  vm_compute in Hi. injection Hi as <-. exact (proj2 (proj2 Hs)).
Qed.
Print Assumptions C50_shape_compare_refuted.

(** A native float divided by a device value: 3 / 7 is rounded twice. *)
Theorem C50_native_division_refuted : exists vl vr tl tr t,
  stands_for F32 (ScalarNative F32) vl tl /\ stands_for F32 (tensor_ty F32 1) vr tr /\ onnx_binary F32 ODiv tl tr = Some t /\
  ~ computes F32 ODiv (ScalarNative F32) (tensor_ty F32 1) vl vr t.
Proof.
  exists (RNative (EF (f32 3))), (RTensor (mkT [1]%N [EF (f32 7)])), (mkT [] [EF (f32 3)]), (mkT [1]%N [EF (f32 7)]),
    (mkT [1]%N [EF (SFdiv 24 128 (f32 3) (f32 7))]).
  split; [stands|]. split; [stands|]. split; [vm_compute; reflexivity|]. fails.
  vm_compute in Hi. injection Hi as <-. destruct Hs as (_ & _ & H & _). vm_compute in H. discriminate H.
Qed.
Print Assumptions C50_native_division_refuted.

(** A native integer divided by an integer tensor: does not compile. *)
Theorem C50_native_int_division_refuted : exists vl vr tl tr t,
  stands_for I64 (ScalarNative I64) vl tl /\ stands_for I64 (tensor_ty I64 1) vr tr /\ onnx_binary I64 ODiv tl tr = Some t /\
  ~ computes I64 ODiv (ScalarNative I64) (tensor_ty I64 1) vl vr t.
Proof.
  exists (RNative (EI 7)), (RTensor (i64_tensor [1]%N [2])), (i64_tensor [] [7]), (i64_tensor [1]%N [2]), (i64_tensor [1]%N [3]).
  split; [stands|]. split; [stands|]. split; [reflexivity|]. fails.
Qed.
Print Assumptions C50_native_int_division_refuted.

(** [Mod] of native scalars takes the sign of the dividend. *)
Theorem C50_native_mod_refuted : exists vl vr tl tr t,
  stands_for I64 (ScalarNative I64) vl tl /\ stands_for I64 (ScalarNative I64) vr tr /\ onnx_binary I64 OMod tl tr = Some t /\
  ~ computes I64 OMod (ScalarNative I64) (ScalarNative I64) vl vr t.
Proof.
  exists (RNative (EI (-1))), (RNative (EI 3)), (i64_tensor [] [-1]), (i64_tensor [] [3]), (i64_tensor [] [2]).
  split; [stands|]. split; [stands|]. split; [reflexivity|]. fails.
  vm_compute in Hi. injection Hi as <-. destruct Hs as (_ & _ & _ & H). discriminate H.
Qed.
Print Assumptions C50_native_mod_refuted.

(** Shifts of operands of different ranks: does not compile. *)
Theorem C50_shift_ranks_refuted : exists vl vr tl tr t,
  stands_for U8 (tensor_ty U8 2) vl tl /\ stands_for U8 (tensor_ty U8 1) vr tr /\ onnx_binary U8 OShiftLeft tl tr = Some t /\
  ~ computes U8 OShiftLeft (tensor_ty U8 2) (tensor_ty U8 1) vl vr t.
Proof.
  exists (RTensor (i64_tensor [1; 2]%N [1; 2])), (RTensor (i64_tensor [2]%N [3; 4])), (i64_tensor [1; 2]%N [1; 2]),
    (i64_tensor [2]%N [3; 4]), (i64_tensor [1; 2]%N [8; 32]).
  split; [stands|]. split; [stands|]. split; [reflexivity|]. fails.
Qed.
Print Assumptions C50_shift_ranks_refuted.

(** [Max] and [Min] with a native scalar, [Mod], the bitwise operators and the
    shifts with an array: the generator panics, although a type is recorded. *)
Theorem C50_no_code_refuted : forall op lty rty,
  is_extremum op = true /\ (exists d, lty = ScalarNative d) /\ (exists y, rty = TensorT y) \/
  (op = OMod \/ op = OBitAnd \/ op = OBitOr \/ op = OBitXor \/ is_extremum op = true \/ is_shift op = true) /\
    (exists n, lty = ShapeT n) /\ rty = ScalarNative I64 ->
  generate op lty rty = None /\ exists ty, infer_binary op lty rty = Some ty.
Proof.
  intros op lty rty [(Ho & [d ->] & [y ->])|(Ho & [n ->] & ->)].
  - split; [destruct op; try discriminate Ho; reflexivity|]. unfold infer_binary, broadcast_output_type.
    destruct op; try discriminate Ho; cbn; eexists; reflexivity.
  - split.
    + destruct Ho as [-> | [-> | [-> | [-> | [Ho|Ho]]]]]; try reflexivity; destruct op; try discriminate Ho; reflexivity.
    + eexists. reflexivity.
Qed.
Print Assumptions C50_no_code_refuted.
Example C50_no_code_example : generate OMax (ScalarNative F32) (tensor_ty F32 1) = None.
Proof. reflexivity. Qed.
