(** C69: the code emitted for Pow, Sum, Mean, Not and BitwiseNot. *)
From Coq Require Import SpecFloat Lia.
From Verif Require Import Power_Model Power_Proofs BinOps_Proofs.
Import BinOps_Spec Power_Spec Tensor_Spec BinOps_Model.
Open Scope list_scope.
Open Scope Z_scope.

(** ** Pow *)
Definition computes_pow powf powi (d : dtype) (lty rty : argty) (vl vr : rv) (t : tensor elt) : Prop :=
  exists c ty v, gen_pow lty rty = Some c /\ infer_pow lty rty = Some ty /\ run_pow powf powi d vl vr c = Some v /\ stands_for d ty v t.

(** Whatever the two shapes, ranks and elements, and whatever powers of
    floating-point numbers are rounded to: if the operands stand for an ONNX base
    and exponent and ONNX defines the power, the generated code computes it, in
    the type of the base.  Missing: the combinations left out of [pow_operands];
    those below are refused, wrong or wrongly typed. *)
Theorem C69_pow_partial : forall powf powi d d' lty rty vl vr tl tr t,
  stands_for d lty vl tl -> stands_for d' rty vr tr -> pow_operands d d' lty rty vr ->
  onnx_pow powf powi d tl tr = Some t -> computes_pow powf powi d lty rty vl vr t.
Proof. intros powf powi d d' lty rty vl vr tl tr t. apply (pow_ok powf powi d d'). Qed.
Print Assumptions C69_pow_partial.

Ltac element := cbn; (reflexivity || (eexists; reflexivity) || (do 2 eexists; split; [reflexivity|split; discriminate])).
Ltac stands := split; [reflexivity|split;
  [cbn; repeat apply Forall_cons; try apply Forall_nil; element
  |cbn; repeat split; try reflexivity; try discriminate; try (left; split; reflexivity)]].
Definition i64_tensor (s : list N) (l : list Z) : tensor elt := mkT s (map EI l).
Definition tensor_ty (d : dtype) (r : N) : argty := TensorT (mkTT d r None).
Definition f32 (n : Z) : spec_float := binary_normalize 24 128 n 0 false.
Definition f32_tensor (s : list N) (l : list Z) : tensor elt := mkT s (map (fun z => EF (f32 z)) l).

(** A vector of bases to a matrix of exponents: the vector is unsqueezed. *)
Example C69_pow_case : forall powf powi,
  let a := i64_tensor [3]%N [2; 3; -1] in let b := i64_tensor [2; 1]%N [2; 5] in
  stands_for I64 (tensor_ty I64 1) (RTensor a) a /\ stands_for I64 (tensor_ty I64 2) (RTensor b) b /\
  pow_operands I64 I64 (tensor_ty I64 1) (tensor_ty I64 2) (RTensor b) /\
  gen_pow (tensor_ty I64 1) (tensor_ty I64 2) = Some (PDevice true (DUnsqueeze 1 (DVar L)) (DVar R)) /\
  onnx_pow powf powi I64 a b = Some (i64_tensor [2; 3]%N [4; 9; 1; 32; 243; -1]).
Proof. intros powf powi. cbv zeta. split; [stands|]. split; [stands|]. split; [split; [right; reflexivity|left; repeat split]|]. split; reflexivity. Qed.
(** A matrix of floats to a native whole exponent. *)
Example C69_pow_scalar_case : forall powf powi,
  let a := f32_tensor [2; 1]%N [2; 3] in let b := i64_tensor [] [2] in
  stands_for F32 (tensor_ty F32 2) (RTensor a) a /\ stands_for I64 (ScalarNative I64) (RNative (EI 2)) b /\
  pow_operands F32 I64 (tensor_ty F32 2) (ScalarNative I64) (RNative (EI 2)) /\
  gen_pow (tensor_ty F32 2) (ScalarNative I64) = Some (PByScalar true) /\
  onnx_pow powf powi F32 a b = Some (mkT [2; 1]%N [EF (powi F32 (f32 2) 2); EF (powi F32 (f32 3) 2)]).
Proof.
  intros powf powi. cbv zeta. split; [stands|]. split; [stands|]. split; [split; [right; reflexivity|right; left; repeat split; right; split; reflexivity]|].
  split; reflexivity.
Qed.

(** No code is emitted for an array or unsigned or boolean exponent, nor for a
    native whole base and an exponent on the device. *)
Theorem C69_pow_refused : forall lty rty,
  (forall n, rty = ShapeT n -> gen_pow lty rty = None) /\
  (floating (element_of rty) = false -> signed (element_of rty) = false -> gen_pow lty rty = None) /\
  (forall d, lty = ScalarNative d -> floating d = false -> device rty -> signed (element_of rty) = true -> gen_pow lty rty = None).
Proof.
  intros lty rty. split; [intros n ->; reflexivity|]. split.
  - intros F S. unfold gen_pow, power_type. destruct rty; cbn in *; rewrite ?F, ?S; try reflexivity.
  - intros d -> F D S. unfold gen_pow, power_type. destruct rty; try contradiction; cbn in *; rewrite S, F; reflexivity.
Qed.
Print Assumptions C69_pow_refused.

(** The exponent of two native whole numbers is reduced to 32 bits: 0 to the
    power 2^32 is 1. *)
Theorem C69_pow_exponent_refuted : forall powf powi, exists vl vr tl tr t,
  stands_for I64 (ScalarNative I64) vl tl /\ stands_for I64 (ScalarNative I64) vr tr /\ onnx_pow powf powi I64 tl tr = Some t /\
  ~ computes_pow powf powi I64 (ScalarNative I64) (ScalarNative I64) vl vr t.
Proof.
  intros powf powi. exists (RNative (EI 0)), (RNative (EI 4294967296)), (i64_tensor [] [0]), (i64_tensor [] [4294967296]), (i64_tensor [] [0]).
  split; [stands|]. split; [stands|]. split.
  - unfold onnx_pow. change (i64_tensor [] [4294967296]) with (mkT (@nil N) [EI 4294967296]). rewrite broadcast2_scalar_r by reflexivity.
    unfold tmapo, i64_tensor. cbn [map tdata mapo tshape pow_elt]. rewrite Z.pow_0_l by lia. reflexivity.
  - intros (c & ty & v & Hg & Hi & Hv & Hs). cbn in Hg. injection Hg as <-. cbn [run_pow] in Hv.
    replace (as_u32 4294967296) with 0 in Hv by reflexivity. cbn in Hv. injection Hv as <-. cbn in Hi. injection Hi as <-.
    destruct Hs as (_ & _ & _ & H). discriminate H.
Qed.
Print Assumptions C69_pow_exponent_refuted.

(** A native float to the power of whole numbers on the device: the type recorded
    is that of the exponent. *)
Theorem C69_pow_type_refuted : forall powf powi, exists vl vr tl tr t ty,
  stands_for F32 (ScalarNative F32) vl tl /\ stands_for I64 (tensor_ty I64 1) vr tr /\ onnx_pow powf powi F32 tl tr = Some t /\
  infer_pow (ScalarNative F32) (tensor_ty I64 1) = Some ty /\ element_of ty = I64 /\ forall v, ~ stands_for F32 ty v t.
Proof.
  intros powf powi. exists (RNative (EF (f32 2))), (RTensor (i64_tensor [1]%N [3])), (f32_tensor [] [2]), (i64_tensor [1]%N [3]),
    (mkT [1]%N [EF (powi F32 (f32 2) 3)]), (TensorT (mkTT I64 1 None)).
  split; [stands|]. split; [stands|]. split; [reflexivity|]. split; [reflexivity|]. split; [reflexivity|].
  intros v (_ & _ & H). destruct v; try contradiction. destruct H as (_ & H & _). discriminate H.
Qed.
Print Assumptions C69_pow_type_refuted.

(** ** Sum *)
(** The operands stand for tensors of element type [d]; those on the device have
    one number of dimensions. *)
Definition operands (d : dtype) (r : N) (l : list operand) : Prop :=
  Forall (fun o => stands_for d (oty o) (oval o) (oten o)) l /\
  Forall (fun o => native (oty o) \/ device (oty o) /\ device_rank (oty o) = r) l.
Definition computes_sum (d : dtype) (l : list operand) (t : tensor elt) : Prop :=
  exists ty v, infer_sum (map oty l) = IOk ty /\ run_sum d (map oval l) = Some v /\ stands_for d ty v t.
Definition computes_mean (d : dtype) (l : list operand) (t : tensor elt) : Prop :=
  exists ty v, infer_mean (map oty l) = IOk ty /\ run_mean d (map oval l) = Some v /\ stands_for d ty v t.

(** Any number of operands, of any shapes that broadcast.  Missing: tensors of
    different numbers of dimensions, and arrays. *)
Theorem C69_sum_partial : forall d r l t, l <> [] -> d <> BoolT -> operands d r l ->
  onnx_sum d (map oten l) = Some t -> computes_sum d l t.
Proof. intros d r l t Hn Hb [Hs Hr] Ht. exact (sum_ok d r l t Hn Hb Hs Hr Ht). Qed.
Print Assumptions C69_sum_partial.

Definition on_dev (t : tensor elt) (ty : argty) : operand := Op ty (RTensor t) t.
Definition three : list operand :=
  [on_dev (i64_tensor [2; 1]%N [10; 20]) (tensor_ty I64 2); Op (ScalarNative I64) (RNative (EI 5)) (i64_tensor [] [5]);
   on_dev (i64_tensor [1; 3]%N [1; 2; 3]) (tensor_ty I64 2)].
Ltac ops := split; [repeat apply Forall_cons; try apply Forall_nil; stands|
  repeat apply Forall_cons; try apply Forall_nil; ((left; exact I) || (right; split; [exact I|reflexivity]))].
Example C69_sum_case : three <> [] /\ operands I64 2 three /\ onnx_sum I64 (map oten three) = Some (i64_tensor [2; 3]%N [16; 17; 18; 26; 27; 28]).
Proof. split; [discriminate|]. split; [ops|reflexivity]. Qed.

(** A matrix and a vector: the sum of tensors of different ranks is not code that compiles. *)
Theorem C69_sum_ranks_refuted : exists l t, l <> [] /\ Forall (fun o => stands_for I64 (oty o) (oval o) (oten o)) l /\
  onnx_sum I64 (map oten l) = Some t /\ (exists ty, infer_sum (map oty l) = IOk ty) /\ run_sum I64 (map oval l) = None.
Proof.
  exists [on_dev (i64_tensor [1; 2]%N [10; 20]) (tensor_ty I64 2); on_dev (i64_tensor [2]%N [1; 2]) (tensor_ty I64 1)], (i64_tensor [1; 2]%N [11; 22]).
  split; [discriminate|]. split; [repeat apply Forall_cons; try apply Forall_nil; stands|]. split; [reflexivity|]. split; [eexists; reflexivity|reflexivity].
Qed.
Print Assumptions C69_sum_ranks_refuted.

(** Operands of different element types, or booleans, are refused. *)
Theorem C69_sum_types : forall tys ty, infer_sum tys = IOk ty -> exists d, d <> BoolT /\ Forall (fun ty => element_of ty = d) tys.
Proof.
  intros tys ty. unfold infer_sum. destruct (sum_types None tys) eqn:E; [|discriminate]. intros _.
  assert (D : forall a b, dtype_beq a b = true -> a = b) by (intros [] []; cbn; congruence).
  assert (G : forall d l, sum_types (Some d) l = true -> Forall (fun ty => element_of ty = d) l).
  { intros d. induction l as [|u l IH]; cbn [sum_types]; intros H; [constructor|].
    destruct (dtype_beq (type_elem u) BoolT); [discriminate|]. destruct (dtype_beq (type_elem u) d) eqn:Ed; [|discriminate].
    constructor; [exact (D _ _ Ed)|auto]. }
  destruct tys as [|u l]; [exists F32; split; [discriminate|constructor]|]. cbn [sum_types] in E.
  destruct (dtype_beq (type_elem u) BoolT) eqn:Eb; [discriminate|]. exists (type_elem u). split.
  - intros H. rewrite H in Eb. discriminate.
  - constructor; [reflexivity|auto].
Qed.
Print Assumptions C69_sum_types.
Example C69_sum_types_case : infer_sum (map oty three) = IOk (tensor_ty I64 2) /\ infer_sum [tensor_ty I64 2; tensor_ty F32 2] = IErr.
Proof. split; reflexivity. Qed.

(** ** Mean *)
(** Missing: tensors of different numbers of dimensions, arrays, and native
    scalars alone. *)
Theorem C69_mean_partial : forall d r l t, Exists (fun o => device (oty o)) l -> operands d r l ->
  onnx_mean d (map oten l) = Some t -> computes_mean d l t.
Proof. intros d r l t He [Hs Hr] Ht. exact (mean_ok d r l t He Hs Hr Ht). Qed.
Print Assumptions C69_mean_partial.

Definition pair : list operand :=
  [on_dev (f32_tensor [2]%N [10; 20]) (tensor_ty F32 1); on_dev (f32_tensor [1]%N [4]) (tensor_ty F32 1)].
Example C69_mean_case : Exists (fun o => device (oty o)) pair /\ operands F32 1 pair /\
  onnx_mean F32 (map oten pair) = Some (f32_tensor [2]%N [7; 12]).
Proof. split; [left; exact I|]. split; [ops|reflexivity]. Qed.

(** The mean of native scalars divides a float by a [u32], which does not compile. *)
Theorem C69_mean_native_refuted : exists l t, Forall (fun o => stands_for F32 (oty o) (oval o) (oten o)) l /\
  onnx_mean F32 (map oten l) = Some t /\ (exists ty, infer_mean (map oty l) = IOk ty) /\ run_mean F32 (map oval l) = None.
Proof.
  exists [Op (ScalarNative F32) (RNative (EF (f32 3))) (f32_tensor [] [3])], (f32_tensor [] [3]).
  split; [repeat apply Forall_cons; try apply Forall_nil; stands|]. split; [reflexivity|]. split; [eexists; reflexivity|reflexivity].
Qed.
Print Assumptions C69_mean_native_refuted.
Theorem C69_mean_ranks_refuted : exists l t, Exists (fun o => device (oty o)) l /\ Forall (fun o => stands_for F32 (oty o) (oval o) (oten o)) l /\
  onnx_mean F32 (map oten l) = Some t /\ (exists ty, infer_mean (map oty l) = IOk ty) /\ run_mean F32 (map oval l) = None.
Proof.
  exists [on_dev (f32_tensor [1; 2]%N [10; 20]) (tensor_ty F32 2); on_dev (f32_tensor [2]%N [2; 4]) (tensor_ty F32 1)], (f32_tensor [1; 2]%N [6; 12]).
  split; [left; exact I|]. split; [repeat apply Forall_cons; try apply Forall_nil; stands|]. split; [reflexivity|]. split; [eexists; reflexivity|reflexivity].
Qed.
Print Assumptions C69_mean_ranks_refuted.

(** ** Not and BitwiseNot *)
(** Missing: native scalars, which have neither method. *)
Theorem C69_not_partial : forall ty v t r, device ty -> stands_for BoolT ty v t -> each not_elt t = Some r ->
  infer_not ty = IOk ty /\ exists w, run_not v = Some w /\ stands_for BoolT ty w r.
Proof.
  intros ty v t r D H He. split; [reflexivity|]. unfold run_not. apply (each_ok BoolT ty v t r not_elt); auto.
  intros x y _. destruct x; cbn; try discriminate. intros E. injection E as <-. split; reflexivity.
Qed.
Print Assumptions C69_not_partial.
Theorem C69_bitwise_not_partial : forall d opset ty v t r, (18 <= opset)%N -> device ty -> stands_for d ty v t -> each (bitnot_elt d) t = Some r ->
  infer_bitnot opset ty = IOk ty /\ exists w, run_bitnot d v = Some w /\ stands_for d ty w r.
Proof.
  intros d opset ty v t r Ho D H He. split.
  - unfold infer_bitnot. destruct (N.ltb_spec opset 18); [lia|reflexivity].
  - unfold run_bitnot. apply (each_ok d ty v t r (bitnot_elt d)); auto. intros x y Hx. apply bitnot_range.
    destruct H as (_ & F & _). rewrite Forall_forall in F. auto.
Qed.
Print Assumptions C69_bitwise_not_partial.
(** BitwiseNot is refused before version 18, where the operator did not exist. *)
Theorem C69_bitwise_not_version : forall opset ty, infer_bitnot opset ty = IOk ty <-> (18 <= opset)%N.
Proof. intros opset ty. unfold infer_bitnot. destruct (N.ltb_spec opset 18); split; try discriminate; try lia; reflexivity. Qed.
Print Assumptions C69_bitwise_not_version.
Example C69_not_case :
  let b := mkT [3]%N [EB true; EB false; EB true] in let u := mkT [2]%N [EI 0; EI 200] in
  stands_for BoolT (tensor_ty BoolT 1) (RTensor b) b /\ each not_elt b = Some (mkT [3]%N [EB false; EB true; EB false]) /\
  stands_for U8 (tensor_ty U8 1) (RTensor u) u /\ each (bitnot_elt U8) u = Some (mkT [2]%N [EI 255; EI 55]) /\
  each (bitnot_elt I8) (mkT [2]%N [EI 0; EI (-128)]) = Some (mkT [2]%N [EI (-1); EI 127]).
Proof. cbv zeta. split; [stands|]. split; [reflexivity|]. split; [stands|]. split; reflexivity. Qed.
Theorem C69_not_native_refuted : exists v t r w,
  stands_for BoolT (ScalarNative BoolT) v t /\ each not_elt t = Some r /\ run_not v = None /\
  stands_for I64 (ScalarNative I64) w (i64_tensor [] [5]) /\ each (bitnot_elt I64) (i64_tensor [] [5]) = Some (i64_tensor [] [-6]) /\ run_bitnot I64 w = None.
Proof.
  exists (RNative (EB true)), (mkT [] [EB true]), (mkT [] [EB false]), (RNative (EI 5)).
  split; [stands|]. split; [reflexivity|]. split; [reflexivity|]. split; [stands|]. split; reflexivity.
Qed.
Print Assumptions C69_not_native_refuted.
