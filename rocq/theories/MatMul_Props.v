(** Matrix products compute what ONNX prescribes (C60). *)
From Verif Require Import Import_Model Linear_Spec MatMul_Nodes.
Import MatMul_Spec Tensor_Spec.
Local Open Scope N_scope.

(** MatMul: every rank, batch dimensions broadcast, vectors on one side.
    Missing: the product of two vectors, products of integers (below). *)
Theorem C60_matmul_partial : forall (T : Type) (dot : list T -> list T -> option T) (add sub mul : T -> T -> T) (of_f32 : N -> T)
    (n : rnode) (e : menv T) (a b o : arg) (x y z : tensor T) (ty : argty),
  ninputs n = [a; b] -> noutputs n = [o] -> covered_matmul n x y -> mholds e a x -> mholds e b y ->
  infer_matmul n = IOk ty -> aty o = ty ->
  onnx_matmul dot x y = Some z ->
  exists c v, gen_matmul n = Some c /\ mrun dot add sub mul of_f32 e c = Some v /\ result_ok ty v z.
Proof. intros. eapply matmul_ok; eassumption. Qed.
Print Assumptions C60_matmul_partial.

(** MatMulInteger, with zero points.  Missing: native zero points, one zero point
    for each row, omitted ones before others, products of two vectors. *)
Theorem C60_integer_partial : forall (n : rnode) (e : menv Z) (a b : arg) (zs : list arg) (o : arg) (x y : tensor Z)
    (za zb : option (tensor Z)) (z : tensor Z) (ta tb : tensor_type) (ty : argty),
  ninputs n = a :: b :: zs -> noutputs n = [o] -> aty a = TensorT ta -> aty b = TensorT tb ->
  ~ (length (tshape x) = 1%nat /\ length (tshape y) = 1%nat) -> mholds e a x -> mholds e b y ->
  zero_points e zs za zb (length (tshape y)) -> infer_matmul_integer n = IOk ty -> aty o = ty ->
  onnx_matmul_integer x y za zb = Some z ->
  exists c v, gen_matmul_integer n = Some c /\ mrun sum32 Z.add Z.sub Z.mul Z.of_N e c = Some v /\ result_ok ty v z.
Proof. intros. eapply integer_ok; eassumption. Qed.
Print Assumptions C60_integer_partial.

(** Gemm, of elements whose product commutes and has the number 1.0 as its unit.
    Missing: a third input that is a scalar on the device, or omitted by an empty
    name. *)
Theorem C60_gemm_partial : forall (T : Type) (dot : list T -> list T -> T) (add sub mul : T -> T -> T) (of_f32 : N -> T),
  (forall u v, mul u v = mul v u) -> (forall v, mul (of_f32 f32_one) v = v) ->
  forall (n : rnode) (e : menv T) (a b : arg) (cs : list arg) (o : arg) (A B : tensor T) (C : option (tensor T))
    (ta tb : tensor_type) (z : tensor T) (ty : argty),
  ninputs n = a :: b :: cs -> noutputs n = [o] -> aty a = TensorT ta -> aty b = TensorT tb -> gemm_attrs n ->
  mholds e a A -> mholds e b B ->
  third_input e cs C ->
  infer_gemm n = IOk ty -> gemm_of add mul dot of_f32 (nattrs n) A B C = Some z ->
  exists c v, gen_gemm n = Some c /\ mrun (fun u v => Some (dot u v)) add sub mul of_f32 e c = Some v /\ result_ok ty v z.
Proof. intros T dot add sub mul of_f32 Hc H1 n e a b cs o A B C ta tb z ty. exact (gemm_ok dot add sub mul of_f32 Hc H1 n e a b cs o A B C ta tb z ty). Qed.
Print Assumptions C60_gemm_partial.

(** ** Cases that meet the hypotheses *)
Definition targ (x : string) (d : dtype) (r : N) : arg := mkArg x (TensorT (mkTT d r None)) VDynamic.
Definition zdot (u v : list Z) : Z := fold_right Z.add 0%Z (map (fun p => (fst p * snd p)%Z) (combine u v)).
Definition env2 (x y : tensor Z) : menv Z := fun k => if String.eqb k "x" then Some (VTensor x) else if String.eqb k "y" then Some (VTensor y) else None.
Definition zrun := mrun (fun u v => Some (zdot u v)) Z.add Z.sub Z.mul Z.of_N.

(** A batch of matrices and one vector: [2; 2; 3] by [3]. *)
Definition batch : tensor Z := mkT [2; 2; 3] [1; 2; 3; 4; 5; 6; 7; 8; 9; 10; 11; 12]%Z.
Definition vector : tensor Z := mkT [3] [1; 0; -1]%Z.
Definition mv_node : rnode := mkNode "MatMul" "n" [targ "x" F32 3; targ "y" F32 1] [targ "z" F32 2] [].
Example C60_matrix_vector :
  covered_matmul mv_node batch vector /\ mholds (env2 batch vector) (targ "x" F32 3) batch /\ mholds (env2 batch vector) (targ "y" F32 1) vector /\
  infer_matmul mv_node = IOk (TensorT (mkTT F32 2 None)) /\
  onnx_matmul (fun u v => Some (zdot u v)) batch vector = Some (mkT [2; 2] [-2; -2; -2; -2]%Z) /\
  exists c, gen_matmul mv_node = Some c /\ zrun (env2 batch vector) c = Some (VTensor (mkT [2; 2] [-2; -2; -2; -2]%Z)).
Proof.
  split; [|split; [|split; [|split; [|split]]]].
  - exists (targ "x" F32 3), (targ "y" F32 1), (mkTT F32 3 None), (mkTT F32 1 None). repeat split. intros [H _]. discriminate H.
  - repeat split. cbn. Lia.lia.
  - repeat split. cbn. Lia.lia.
  - reflexivity.
  - reflexivity.
  - eexists. split; [reflexivity|]. reflexivity.
Qed.
(** Broadcast batches: [2; 1; 2; 3] by [3; 3; 1] (as [2; 3; 2; 1]). *)
Definition left_ : tensor Z := mkT [2; 1; 1; 2] [1; 2; 3; 4]%Z.
Definition right_ : tensor Z := mkT [2; 2; 1] [1; 1; -1; 2]%Z.
Definition bb_node : rnode := mkNode "MatMul" "n" [targ "x" F32 4; targ "y" F32 3] [targ "z" F32 4] [].
Example C60_broadcast :
  infer_matmul bb_node = IOk (TensorT (mkTT F32 4 None)) /\
  onnx_matmul (fun u v => Some (zdot u v)) left_ right_ = Some (mkT [2; 2; 1; 1] [3; 3; 7; 5]%Z) /\
  exists c, gen_matmul bb_node = Some c /\ zrun (env2 left_ right_) c = Some (VTensor (mkT [2; 2; 1; 1] [3; 3; 7; 5]%Z)).
Proof. split; [|split]; [reflexivity..|]. eexists. split; [reflexivity|]. reflexivity. Qed.

(** Bytes with a zero point on the left and one for each column on the right. *)
Definition env4 (x y z w : tensor Z) : menv Z := fun k => if String.eqb k "x" then Some (VTensor x) else if String.eqb k "y" then Some (VTensor y)
  else if String.eqb k "zx" then Some (VTensor z) else if String.eqb k "zy" then Some (VTensor w) else None.
Definition za_arg : arg := mkArg "zx" (ScalarTensor U8) VDynamic.
Definition int_node : rnode := mkNode "MatMulInteger" "n" [targ "x" U8 2; targ "y" U8 2; za_arg; targ "zy" U8 1] [targ "z" I32 2] [].
Definition bytes_x : tensor Z := mkT [2; 2] [130; 128; 127; 255]%Z.
Definition bytes_y : tensor Z := mkT [2; 2] [3; 4; 5; 0]%Z.
Definition cols : tensor Z := mkT [2] [1; 2]%Z.
Definition int_env := env4 bytes_x bytes_y (mkT [1] [128]%Z) cols.
Example C60_zero_points :
  zero_points int_env [za_arg; targ "zy" U8 1] (Some (mkT [] [128]%Z)) (Some cols) 2 /\
  infer_matmul_integer int_node = IOk (TensorT (mkTT I32 2 None)) /\
  onnx_matmul_integer bytes_x bytes_y (Some (mkT [] [128]%Z)) (Some cols) = Some (mkT [2; 2] [4; 4; 506; -256]%Z) /\
  exists c, gen_matmul_integer int_node = Some c /\ mrun sum32 Z.add Z.sub Z.mul Z.of_N int_env c = Some (VTensor (mkT [2; 2] [4; 4; 506; -256]%Z)).
Proof.
  split; [|split; [|split]]; [|reflexivity..|eexists; split; reflexivity].
  apply zp_both; [repeat split|exact I|discriminate|reflexivity|repeat split; cbn; Lia.lia|exact I|discriminate|right; split; [Lia.lia|reflexivity]].
Qed.

(** A transposed operand, both factors other than one, a row added. *)
Definition gemm_node : rnode := mkNode "Gemm" "n" [targ "x" F32 2; targ "y" F32 2; targ "zx" F32 1] [targ "z" F32 2]
  [("alpha", AFloat 2); ("beta", AFloat 3); ("transB", AInt 1)]%string.
Definition of_bits (b : N) : Z := if b =? f32_one then 1%Z else Z.of_N b.
Definition gemm_env := env4 (mkT [1; 2] [1; 2]%Z) (mkT [3; 2] [1; 0; 0; 1; 1; 1]%Z) (mkT [3] [1; 10; 100]%Z) (mkT [] []).
Example C60_gemm_case :
  gemm_attrs gemm_node /\ infer_gemm gemm_node = IOk (TensorT (mkTT F32 2 None)) /\
  gemm_of Z.add Z.mul zdot of_bits (nattrs gemm_node) (mkT [1; 2] [1; 2]%Z) (mkT [3; 2] [1; 0; 0; 1; 1; 1]%Z) (Some (mkT [3] [1; 10; 100]%Z))
    = Some (mkT [1; 3] [5; 34; 306]%Z) /\
  (forall u v : Z, (u * v = v * u)%Z) /\ (forall v, (of_bits f32_one * v = v)%Z) /\
  exists c, gen_gemm gemm_node = Some c /\
    mrun (fun u v => Some (zdot u v)) Z.add Z.sub Z.mul of_bits gemm_env c = Some (VTensor (mkT [1; 3] [5; 34; 306]%Z)).
Proof.
  split; [|split; [|split; [|split; [|split]]]]; [|reflexivity|reflexivity|apply Z.mul_comm|apply Z.mul_1_l|eexists; split; reflexivity].
  unfold gemm_attrs. cbn [nattrs gemm_node]. repeat (apply Forall_cons; [cbn; auto|]). apply Forall_nil.
Qed.

(** ** What fails *)
(** The product of two vectors is a single number: it is recorded as a tensor of
    rank one, which no result of that type is. *)
Theorem C60_dot_product_refuted : exists (n : rnode) (x y z : tensor Z) (ty : argty),
  infer_matmul n = IOk ty /\ onnx_matmul (fun u v => Some (zdot u v)) x y = Some z /\
  (exists ta, aty (nth 0 (ninputs n) (targ "" F32 0)) = TensorT ta /\ tt_rank ta = N.of_nat (length (tshape x))) /\
  (exists tb, aty (nth 1 (ninputs n) (targ "" F32 0)) = TensorT tb /\ tt_rank tb = N.of_nat (length (tshape y))) /\
  (forall v, ~ result_ok ty v z).
Proof.
  exists (mkNode "MatMul" "n" [targ "x" F32 1; targ "y" F32 1] [targ "z" F32 1] []), vector, vector, (mkT [] [2]%Z), (TensorT (mkTT F32 1 None)).
  split; [reflexivity|]. split; [reflexivity|]. split; [eexists; split; reflexivity|]. split; [eexists; split; reflexivity|].
  intros v (t & E & _ & R). injection E as <-. discriminate R.
Qed.
Print Assumptions C60_dot_product_refuted.
(** Integer matrices pass type inference and the generator panics. *)
Theorem C60_integer_matmul_refuted : exists (n : rnode) (ty : argty), infer_matmul n = IOk ty /\ gen_matmul n = None /\
  (exists x y z : tensor Z, onnx_matmul (fun u v => Some (zdot u v)) x y = Some z /\ length (tshape x) = 2%nat /\ length (tshape y) = 2%nat).
Proof.
  exists (mkNode "MatMul" "n" [targ "x" I64 2; targ "y" I64 2] [targ "z" I64 2] []). eexists. split; [reflexivity|]. split; [reflexivity|].
  exists bytes_x, bytes_y. eexists. repeat split.
Qed.
Print Assumptions C60_integer_matmul_refuted.
(** One zero point for each row is subtracted column by column. *)
Theorem C60_row_zero_points_refuted : exists (n : rnode) (e : menv Z) (x y za z : tensor Z) (ty : argty) (c : mexp) (v : tensor Z),
  onnx_matmul_integer x y (Some za) None = Some z /\ infer_matmul_integer n = IOk ty /\
  mholds e (nth 0 (ninputs n) za_arg) x /\ mholds e (nth 1 (ninputs n) za_arg) y /\ mholds e (nth 2 (ninputs n) za_arg) za /\
  gen_matmul_integer n = Some c /\ mrun sum32 Z.add Z.sub Z.mul Z.of_N e c = Some (VTensor v) /\ tshape v = tshape z /\ tdata v <> tdata z.
Proof.
  exists (mkNode "MatMulInteger" "n" [targ "x" U8 2; targ "y" U8 2; targ "zx" U8 1] [targ "z" I32 2] []), (env4 bytes_x bytes_y cols cols), bytes_x, bytes_y, cols.
  do 4 eexists. split; [reflexivity|]. split; [reflexivity|]. do 3 (split; [repeat split; cbn; Lia.lia|]).
  split; [reflexivity|]. split; [reflexivity|]. split; [reflexivity|]. discriminate.
Qed.
Print Assumptions C60_row_zero_points_refuted.
(** A zero point held as a native number, and one left out before another. *)
Theorem C60_native_zero_point_refuted : exists (n : rnode) (e : menv Z) (x y : tensor Z) (za z : tensor Z) (ty : argty) (c : mexp),
  onnx_matmul_integer x y (Some za) None = Some z /\ infer_matmul_integer n = IOk ty /\
  mholds e (nth 0 (ninputs n) za_arg) x /\ mholds e (nth 1 (ninputs n) za_arg) y /\ mholds e (nth 2 (ninputs n) za_arg) za /\
  gen_matmul_integer n = Some c /\ mrun sum32 Z.add Z.sub Z.mul Z.of_N e c = None.
Proof.
  exists (mkNode "MatMulInteger" "n" [targ "x" U8 2; targ "y" U8 2; mkArg "zx" (ScalarNative U8) VDynamic] [targ "z" I32 2] []),
    (fun k => if String.eqb k "zx" then Some (VNative 128%Z) else int_env k), bytes_x, bytes_y, (mkT [] [128]%Z).
  do 3 eexists. split; [reflexivity|]. split; [reflexivity|]. split; [repeat split; cbn; Lia.lia|]. split; [repeat split; cbn; Lia.lia|].
  split; [repeat split; cbn; eauto|]. split; reflexivity.
Qed.
Print Assumptions C60_native_zero_point_refuted.
Theorem C60_omitted_zero_point_refuted : exists (n : rnode) (ty : argty),
  infer_matmul_integer n = IOk ty /\ map aname (ninputs n) = ["x"; "y"; ""; "zy"]%string /\ gen_matmul_integer n = None.
Proof.
  exists (mkNode "MatMulInteger" "n" [targ "x" U8 2; targ "y" U8 2; mkArg "" (ScalarNative F32) VOptional; targ "zy" U8 1] [targ "z" I32 2] []). eexists.
  split; [reflexivity|]. split; reflexivity.
Qed.
Print Assumptions C60_omitted_zero_point_refuted.
(** A third input of Gemm that is a scalar on the device: the generator panics. *)
Theorem C60_gemm_scalar_refuted : exists (n : rnode) (ty : argty) (A B C z : tensor Z),
  infer_gemm n = IOk ty /\ gemm_attrs n /\ gemm_of Z.add Z.mul zdot of_bits (nattrs n) A B (Some C) = Some z /\
  aty (nth 2 (ninputs n) za_arg) = ScalarTensor F32 /\ tshape C = [] /\ gen_gemm n = None.
Proof.
  exists (mkNode "Gemm" "n" [targ "x" F32 2; targ "y" F32 2; mkArg "c" (ScalarTensor F32) VDynamic] [targ "z" F32 2] []). eexists.
  exists bytes_x, bytes_y, (mkT [] [1]%Z). eexists. split; [reflexivity|]. split; [constructor|]. split; [reflexivity|]. repeat split.
Qed.
Print Assumptions C60_gemm_scalar_refuted.
