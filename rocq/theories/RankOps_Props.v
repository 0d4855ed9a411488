(** C26, C27, C28, C46, C47: reductions, MatMul, Gather, convolution, padding, Shape. *)
From Verif Require Import IR_Model Tensor_Spec Shapes_Spec Infer_Props ShapeOps_Model ShapeOps_Spec ShapeOps_Proofs ShapeOps_Props
  AxisOps_Model AxisOps_Spec AxisOps_Proofs AxisOps_Props RankOps_Model RankOps_Spec RankOps_Proofs.
Open Scope string_scope.
Open Scope list_scope.
Open Scope N_scope.

(** ** C26 *)

(** Reduce*: [axes] come from the constant second input or from the attribute,
    in any order and of either sign; [out] is the ONNX shape.  Missing: no axes
    at all with keepdims, and [noop_with_empty_axes], see the refutations. *)
Theorem C26_reduce_partial : forall value n i0 rest t axes keep s out ty,
  ninputs n = i0 :: rest -> aty i0 = TensorT t -> reduce_axes_given value n axes -> attr_i64_or n "keepdims" 1 = IOk keep ->
  tt_rank t < r63 -> fits (aty i0) s -> reduce_of axes (Z.eqb keep 1) s out -> (axes = [] -> keep <> 1%Z) ->
  infer_reduce value n = IOk ty -> fits ty out.
Proof. exact reduce_sound. Qed.
Print Assumptions C26_reduce_partial.

(** ArgMax and ArgMin: the type, and the axis and flag handed to code generation. *)
Theorem C26_arg_sound : forall n i0 rest t axis keep s out ty,
  ninputs n = i0 :: rest -> aty i0 = TensorT t -> attr_i64_or n "axis" 0 = IOk axis -> attr_i64_or n "keepdims" 1 = IOk keep ->
  fits (aty i0) s -> reduce_of [axis] (Z.eqb keep 1) s out -> infer_arg n = IOk ty -> fits ty out.
Proof. exact arg_sound. Qed.
Print Assumptions C26_arg_sound.
Theorem C26_arg_axis : forall n i0 rest t axis keep c,
  ninputs n = i0 :: rest -> aty i0 = TensorT t -> attr_i64_or n "axis" 0 = IOk axis -> attr_i64_or n "keepdims" 1 = IOk keep ->
  tt_rank t < r63 -> (- Z.of_N (tt_rank t) <= axis < Z.of_N (tt_rank t))%Z -> arg_config n = IOk c ->
  fst c = N.of_nat (position (N.to_nat (tt_rank t)) axis) /\ (snd c = true <-> keep = 1%Z) /\ (keep = 0%Z \/ keep = 1%Z).
Proof. exact arg_axis. Qed.
Print Assumptions C26_arg_axis.

(** TopK: both outputs; [k] may be unknown. *)
Theorem C26_topk_sound : forall n i0 rest t axis k s out tys,
  ninputs n = i0 :: rest -> aty i0 = TensorT t -> fits (aty i0) s -> topk_of axis k s out ->
  infer_topk n = IOk tys -> fits (fst tys) out /\ fits (snd tys) out.
Proof. exact topk_sound. Qed.
Print Assumptions C26_topk_sound.
Theorem C26_topk_axis : forall n i0 rest t axis a,
  ninputs n = i0 :: rest -> aty i0 = TensorT t -> attr_i64_or n "axis" (-1) = IOk axis -> tt_rank t < r63 ->
  (- Z.of_N (tt_rank t) <= axis < Z.of_N (tt_rank t))%Z -> topk_axis n = IOk a ->
  a = N.of_nat (position (N.to_nat (tt_rank t)) axis).
Proof.
  intros n i0 rest t axis a Hi Ht Ha Hw Hx H. unfold topk_axis, first_input in H. rewrite Hi in H. cbn [ibind] in H. rewrite Ht, Ha in H. cbn [ibind] in H.
  assert (E : a = norm_axis (tt_rank t) axis) by congruence. rewrite E. apply norm_axis_position; assumption.
Qed.
Print Assumptions C26_topk_axis.

Definition red_ex (s : list N) (attrs : list (string * attr)) : rnode :=
  mkNode "ReduceSum" "r" [in_ (vt (N.of_nat (length s)) (Some (map Some s)))] [out_ (vt 0 None)] attrs.
Lemma fits_known s : fits (vt (N.of_nat (length s)) (Some (map Some s))) s.
Proof.
  split; [reflexivity|]. intros l E. cbn in E. injection E as <-. induction s as [|d s IH]; constructor; [right; reflexivity|exact IH].
Qed.

Example C26_ex : infer_reduce (const []) (red_ex [2; 3; 4] [("axes", AInts [-1; 0]%Z); ("keepdims", AInt 0)]) = IOk (vt 1 (Some [Some 3]))
  /\ reduce_axes_given (const []) (red_ex [2; 3; 4] [("axes", AInts [-1; 0]%Z); ("keepdims", AInt 0)]) [-1; 0]%Z
  /\ reduce_of [-1; 0]%Z (Z.eqb 0 1) [2; 3; 4] [3].
Proof.
  split; [reflexivity|]. split; [right; split; [reflexivity|left; reflexivity]|]. split.
  - split; [intros a [<-|[<-|[]]]; cbn; lia|]. cbn. constructor; [intros [C|[]]; discriminate C|]. constructor; [intros []|constructor].
  - cbn [Z.eqb length]. apply del_drop; [right; exists 0%Z; split; [right; left; reflexivity|reflexivity]|].
    apply del_keep; [intros [C|[a [[<-|[<-|[]]] C]]]; discriminate C|].
    apply del_drop; [right; exists (-1)%Z; split; [left; reflexivity|reflexivity]|]. apply del_nil.
Qed.
Example C26_arg_ex : infer_arg (red_ex [5] [("keepdims", AInt 0)]) = IOk (ScalarTensor I64)
  /\ infer_arg (red_ex [2; 3] [("axis", AInt (-1)); ("keepdims", AInt 0)]) = IOk (TensorT (mkTT I64 1 None))
  /\ arg_config (red_ex [2; 3] [("axis", AInt (-1)); ("keepdims", AInt 0)]) = IOk (1, false).
Proof. repeat split; reflexivity. Qed.

(** keepdims without axes: ONNX reduces everything to ones, the inferred shape is the input's. *)
Theorem C26_no_axes_refuted : exists n s out ty,
  ninputs n = [in_ (vt 2 (Some [Some 2; Some 3]))] /\ reduce_axes_given (fun _ => None) n [] /\ attr_i64_or n "keepdims" 1 = IOk 1%Z /\
  fits (vt 2 (Some [Some 2; Some 3])) s /\ reduce_of [] true s out /\ infer_reduce (fun _ => None) n = IOk ty /\ ~ fits ty out.
Proof.
  exists (red_ex [2; 3] []), [2; 3], [1; 1], (vt 2 (Some [Some 2; Some 3])).
  split; [reflexivity|]. split; [right; split; [reflexivity|right; split; reflexivity]|]. split; [reflexivity|].
  split; [apply (fits_known [2; 3])|]. split; [|split; [reflexivity|]].
  - split; [split; [intros a []|constructor]|]. split; [reflexivity|]. intros [|[|[|k]]] d E; cbn in E; try discriminate; (split; [reflexivity|]); intros C; destruct C; left; reflexivity.
  - intros [_ H]. specialize (H _ eq_refl). inversion H as [|? ? ? ? [?|?] _]; congruence.
Qed.
Print Assumptions C26_no_axes_refuted.
(** [noop_with_empty_axes = 1] makes the ONNX operator a copy; a scalar is inferred. *)
Theorem C26_noop_axes_refuted : exists n s ty,
  ninputs n = [in_ (vt 1 (Some [Some 3]))] /\ get_attr n "axes" = None /\ get_attr n "noop_with_empty_axes" = Some (AInt 1) /\
  fits (vt 1 (Some [Some 3])) s /\ infer_reduce (fun _ => None) n = IOk ty /\ ~ fits ty s.
Proof.
  exists (red_ex [3] [("noop_with_empty_axes", AInt 1); ("keepdims", AInt 0)]), [3], (ScalarTensor F32).
  repeat (split; [reflexivity || apply (fits_known [3])|]). cbn. discriminate.
Qed.
Print Assumptions C26_noop_axes_refuted.

(** ** C27 *)

(** Missing: the product of two vectors, see the refutation. *)
Theorem C27_matmul_partial : forall n i0 i1 rest a b out ty,
  ninputs n = i0 :: i1 :: rest -> fits (aty i0) a -> fits (aty i1) b -> matmul_of a b out ->
  (length a <> 1 \/ length b <> 1)%nat -> infer_matmul n = IOk ty -> fits ty out.
Proof. exact matmul_sound. Qed.
Print Assumptions C27_matmul_partial.

(** Missing: a shape vector gathered with a tensor of indices, see the refutation. *)
Theorem C27_gather_partial : forall n i0 i1 rest axis s idx out ty,
  ninputs n = i0 :: i1 :: rest -> attr_i64_or n "axis" 0 = IOk axis -> fits (aty i0) s -> fits (aty i1) idx -> gather_of axis s idx out ->
  ((exists r, aty i0 = ShapeT r) -> idx = [] \/ exists r, aty i1 = ShapeT r) ->
  infer_gather n = IOk ty -> fits ty out.
Proof. exact gather_sound. Qed.
Print Assumptions C27_gather_partial.

(** The axis handed to code generation is the one named, and an axis out of
    range is refused (of a tensor). *)
Theorem C27_gather_axis : forall n i0 i1 rest t axis,
  ninputs n = i0 :: i1 :: rest -> aty i0 = TensorT t -> tt_rank t < r63 -> attr_i64_or n "axis" 0 = IOk axis ->
  ((exists ty, infer_gather n = IOk ty) -> (- Z.of_N (tt_rank t) <= axis < Z.of_N (tt_rank t))%Z) /\
  ((- Z.of_N (tt_rank t) <= axis < Z.of_N (tt_rank t))%Z -> gather_axis n = IOk (N.of_nat (position (N.to_nat (tt_rank t)) axis))).
Proof.
  intros n i0 i1 rest t axis Hi Ht Hw Ha. split.
  - intros [ty H]. unfold infer_gather in H. rewrite Hi in H. destruct (negb _); [discriminate|]. rewrite Ha in H. cbn [ibind] in H. rewrite Ht in H. cbn [gather_dim] in H.
    destruct (Z.ltb_spec axis 0); destruct ((_ <? 0)%Z || _)%bool eqn:E; try discriminate; lia.
  - intros Hx. unfold gather_axis, first_input. rewrite Hi. cbn [ibind]. rewrite Ha. cbn [ibind]. rewrite Ht. cbn [gather_dim]. f_equal.
    rewrite <- norm_axis_position by assumption. unfold r63 in Hw. unfold norm_axis. destruct (Z.ltb_spec axis 0); [f_equal; lia|reflexivity].
Qed.
Print Assumptions C27_gather_axis.

Definition two (op : string) (a b : argty) (attrs : list (string * attr)) : rnode := mkNode op "m" [in_ a; mkArg "z" b VDynamic] [out_ (vt 0 None)] attrs.
Example C27_ex : infer_matmul (two "MatMul" (vt 3 None) (vt 1 None) []) = IOk (vt 2 None) /\ matmul_of [5; 2; 3] [3] [5; 2]
  /\ infer_gather (two "Gather" (vt 3 None) (vt 2 None) [("axis", AInt (-1))]) = IOk (vt 4 None) /\ gather_of (-1) [5; 2; 3] [7; 8] [5; 2; 7; 8].
Proof.
  split; [reflexivity|]. split; [|split; [reflexivity|split; [cbn; lia|reflexivity]]].
  exists [5], [], [5], 2, 3, 1. split; [left; reflexivity|]. split; [right; split; reflexivity|]. split; [|reflexivity].
  split; [intros x [<-|[<-|[]]]; cbn; lia|]. split; [right; exists [5]; split; [left; reflexivity|reflexivity]|].
  intros [|k] Hk; [|cbn in Hk; lia]. split.
  - intros x [<-|[<-|[]]]; cbn; auto.
  - right. exists [5]. split; [left; reflexivity|reflexivity].
Qed.

(** Vector times vector is a scalar; rank 1 is inferred. *)
Theorem C27_dot_refuted : exists n a b out ty,
  ninputs n = [in_ (vt 1 None); mkArg "z" (vt 1 None) VDynamic] /\ fits (vt 1 None) a /\ fits (vt 1 None) b /\ matmul_of a b out /\
  infer_matmul n = IOk ty /\ ~ fits ty out.
Proof.
  exists (two "MatMul" (vt 1 None) (vt 1 None) []), [3], [3], [], (vt 1 None).
  split; [reflexivity|]. split; [split; [reflexivity|discriminate]|]. split; [split; [reflexivity|discriminate]|]. split; [|split; [reflexivity|intros [C _]; discriminate C]].
  exists [], [], [], 1, 3, 1. split; [right; split; reflexivity|]. split; [right; split; reflexivity|]. split; [|reflexivity].
  split; [intros x [<-|[<-|[]]]; cbn; lia|]. split; [left; reflexivity|]. intros k Hk. cbn in Hk. lia.
Qed.
Print Assumptions C27_dot_refuted.
(** Three positions gathered from a shape vector: a vector of one is inferred. *)
Theorem C27_gather_shape_refuted : exists n s idx out ty,
  ninputs n = [in_ (ShapeT 4); mkArg "z" (TensorT (mkTT I64 1 (Some [Some 3]))) VDynamic] /\ fits (ShapeT 4) s /\
  fits (TensorT (mkTT I64 1 (Some [Some 3]))) idx /\ gather_of 0 s idx out /\ infer_gather n = IOk ty /\ ~ fits ty out.
Proof.
  exists (two "Gather" (ShapeT 4) (TensorT (mkTT I64 1 (Some [Some 3]))) []), [4], [3], [3], (ShapeT 1).
  split; [reflexivity|]. split; [reflexivity|]. split; [|split; [split; [cbn; lia|reflexivity]|split; [reflexivity|cbn; discriminate]]].
  split; [reflexivity|]. intros l E. cbn in E. injection E as <-. constructor; [right; reflexivity|constructor].
Qed.
Print Assumptions C27_gather_shape_refuted.

(** ** C28 *)

(** Conv1d, Conv2d and Conv3d ([k] = 1, 2, 3), padding given explicitly or
    absent: every dimension claimed is the number of positions at which the
    dilated kernel fits.  Sizes stay below 2^62.  Missing: auto_pad SAME_*, and
    the other windowed operators, see the refutations. *)
Theorem C28_conv_partial : forall value k n i0 i1 rest x w out strides dilations pads ty,
  ninputs n = i0 :: i1 :: rest -> fits (aty i0) x -> fits (aty i1) w -> (forall v, value i1 = Some v -> cv_shape v = w) ->
  (get_attr n "kernel_shape" = None \/ as_attribute n "kernel_shape" (map Z.of_N (skipn 2 w))) ->
  ints_given n "strides" (repeat 1%Z k) strides -> ints_given n "dilations" (repeat 1%Z k) dilations -> explicit_padding k n pads ->
  (forall i, (i < k)%nat -> 0 < nth (2 + i) w 0 /\ small (nth (2 + i) w 0) /\
     (0 < nth i strides 0 < 4611686018427387904)%Z /\ (0 <= nth i dilations 0 < 4611686018427387904)%Z /\
     small (Z.to_N (nth i dilations 0%Z) * (nth (2 + i) w 0 - 1)) /\
     small (nth (2 + i) x 0 + Z.to_N (nth i pads 0%Z) + Z.to_N (nth (k + i) pads 0%Z))) ->
  conv_of k (map Z.to_N strides) (map Z.to_N dilations) (map Z.to_N (firstn k pads)) (map Z.to_N (skipn k pads)) x w out ->
  infer_conv value k n = IOk ty -> fits ty out.
Proof. exact conv_sound. Qed.
Print Assumptions C28_conv_partial.

(** The size formula itself, for every kernel, stride, dilation and padding. *)
Theorem C28_window : forall d kernel stride dilation pb pe r,
  0 < kernel -> small (d + pb + pe) -> small (dilation * (kernel - 1)) -> small dilation -> small kernel ->
  compute_spatial (Some d) kernel stride dilation pb pe = Some r ->
  r = window_size (d + pb + pe) kernel stride dilation.
Proof. exact compute_spatial_ok. Qed.
Print Assumptions C28_window.
(** No size is claimed only when the kernel does not fit or the stride is 0. *)
Theorem C28_window_none : forall d kernel stride dilation pb pe,
  0 < kernel -> small (d + pb + pe) -> small (dilation * (kernel - 1)) -> small dilation -> small kernel ->
  compute_spatial (Some d) kernel stride dilation pb pe = None -> stride = 0 \/ window_size (d + pb + pe) kernel stride dilation = 0.
Proof.
  unfold small. intros d kernel stride dilation pb pe Hk H1 H2 H3 H4 H. unfold compute_spatial in H.
  assert (Ez : (Z.of_N dilation * (Z.of_N kernel - 1) = Z.of_N (dilation * (kernel - 1)))%Z) by (rewrite N2Z.inj_mul, N2Z.inj_sub by lia; reflexivity).
  set (e := dilation * (kernel - 1)) in *.
  rewrite (N.mod_small (pb + pe) w64) in H by (unfold w64; lia).
  rewrite (i64_id (Z.of_N d)), (i64_id (Z.of_N (pb + pe))), (i64_id (Z.of_N dilation)), (i64_id (Z.of_N kernel)), (i64_id (Z.of_N kernel - 1)) in H by lia.
  rewrite Ez in H. rewrite (i64_id (Z.of_N e)) in H by lia. rewrite (i64_id (Z.of_N d + _)) in H by lia.
  rewrite (i64_id (Z.of_N d + Z.of_N (pb + pe) - Z.of_N e)) in H by lia. rewrite i64_id in H by lia.
  destruct (Z.ltb_spec (Z.of_N d + Z.of_N (pb + pe) - Z.of_N e - 1) 0) as [Hneg|Hpos].
  - right. unfold window_size, kernel_positions. fold e. rewrite filter_none; [reflexivity|]. intros i _.
    replace (N.of_nat i + e <? d + pb + pe) with false by lia. apply andb_false_r.
  - destruct (N.eqb_spec stride 0) as [E0|E0]; [left; exact E0|]. discriminate.
Qed.
Print Assumptions C28_window_none.

Definition wconst (w : list N) : arg -> option cval := fun a => match asrc a with VStatic _ => Some (mkC w F32 None) | _ => None end.
Definition conv_ex (x w : list N) (attrs : list (string * attr)) : rnode :=
  mkNode "Conv1d" "c" [in_ (vt (N.of_nat (length x)) (Some (map Some x))); mkArg "" (vt (N.of_nat (length w)) (Some (map Some w))) (VStatic 0)] [out_ (vt 0 None)] attrs.
Definition conv_ex2 := conv_ex [1; 3; 10; 9] [8; 3; 3; 2] [("strides", AInts [2; 1]%Z); ("dilations", AInts [1; 3]%Z); ("pads", AInts [1; 0; 2; 1]%Z)].
Example C28_ex : infer_conv (wconst [8; 3; 3; 2]) 2 conv_ex2 = IOk (vt 4 (Some [Some 1; Some 8; Some 6; Some 7]))
  /\ conv_of 2 [2; 1] [1; 3] [1; 0] [2; 1] [1; 3; 10; 9] [8; 3; 3; 2] [1; 8; 6; 7]
  /\ ints_given conv_ex2 "strides" (repeat 1%Z 2) [2; 1]%Z /\ explicit_padding 2 conv_ex2 [1; 0; 2; 1]%Z.
Proof.
  split; [reflexivity|]. split; [|split; [left; reflexivity|left; split; [left; reflexivity|left; reflexivity]]].
  repeat (split; [reflexivity|]). intros [|[|i]] Hi; [reflexivity|reflexivity|lia].
Qed.

(** auto_pad SAME_UPPER on 5 positions with a kernel of 3 pads one position on
    each side; the inferred size ignores that. *)
Theorem C28_auto_pad_refuted : exists n x w out ty,
  ninputs n = [in_ (vt 3 (Some [Some 1; Some 1; Some 5])); mkArg "" (vt 3 (Some [Some 1; Some 1; Some 3])) (VStatic 0)] /\
  get_attr n "auto_pad" = Some (AString "SAME_UPPER") /\ x = [1; 1; 5] /\ w = [1; 1; 3] /\
  conv_of 1 [1] [1] [1] [1] x w out /\ infer_conv (wconst w) 1 n = IOk ty /\ ~ fits ty out.
Proof.
  exists (conv_ex [1; 1; 5] [1; 1; 3] [("auto_pad", AString "SAME_UPPER")]), [1; 1; 5], [1; 1; 3], [1; 1; 5], (vt 3 (Some [Some 1; Some 1; Some 3])).
  repeat (split; [reflexivity|]). split; [|split; [reflexivity|]].
  - repeat (split; [reflexivity|]). intros [|i] Hi; [reflexivity|lia].
  - intros [_ H]. specialize (H _ eq_refl). inversion H as [|? ? ? ? _ K1]. inversion K1 as [|? ? ? ? _ K2]. inversion K2 as [|? ? ? ? [?|?] _]; congruence.
Qed.
Print Assumptions C28_auto_pad_refuted.
(** MaxPool, ConvTranspose and Resize copy the input's type, sizes included. *)
Theorem C28_max_pool_refuted : exists n x out ty,
  ntype n = "MaxPool1d" /\ ninputs n = [in_ (vt 3 (Some [Some 1; Some 1; Some 4]))] /\
  get_attr n "kernel_shape" = Some (AInts [2]%Z) /\ get_attr n "strides" = Some (AInts [2]%Z) /\ fits (vt 3 (Some [Some 1; Some 1; Some 4])) x /\
  out = [1; 1; window_size 4 2 2 1] /\ infer_same n = IOk ty /\ ~ fits ty out.
Proof.
  exists (mkNode "MaxPool1d" "p" [in_ (vt 3 (Some [Some 1; Some 1; Some 4]))] [out_ (vt 0 None)] [("kernel_shape", AInts [2]%Z); ("strides", AInts [2]%Z)]),
    [1; 1; 4], [1; 1; 2], (vt 3 (Some [Some 1; Some 1; Some 4])).
  repeat (split; [reflexivity|]). split; [apply (fits_known [1; 1; 4])|]. repeat (split; [reflexivity|]).
  intros [_ H]. specialize (H _ eq_refl). inversion H as [|? ? ? ? _ K1]. inversion K1 as [|? ? ? ? _ K2]. inversion K2 as [|? ? ? ? [?|?] _]; congruence.
Qed.
Print Assumptions C28_max_pool_refuted.

(** ** C46 *)

(** Convolution and pooling: of the pads [b1..bk, e1..ek], negative ones and
    only those make the conversion stop, all zeros and only those are dropped,
    everything else is kept axis by axis. *)
Theorem C46_convolution : forall k pads, Forall i64_range pads -> (length pads = 2 * k)%nat ->
  (padding_conf k pads = IPanic <-> exists z, In z pads /\ (z < 0)%Z) /\
  (padding_conf k pads = IOk None <-> Forall (fun z => z = 0)%Z pads) /\
  (forall b e, padding_conf k pads = IOk (Some (b, e)) ->
     length b = k /\ length e = k /\
     forall i, (i < k)%nat -> Z.of_N (nth i b 0) = nth i pads 0%Z /\ Z.of_N (nth i e 0) = nth (k + i) pads 0%Z) /\
  padding_conf k pads <> IErr.
Proof. exact padding_conf_spec. Qed.
Print Assumptions C46_convolution.

(** Pad: the pads are accepted exactly when there are two per axis and none is
    negative, and become one (begin, end) pair per axis, in order. *)
Theorem C46_pad : forall value n i0 rest t pads,
  ninputs n = i0 :: rest -> (length (ninputs n) < 4)%nat -> aty i0 = TensorT t -> pads_given value n pads -> Forall i64_range pads ->
  ((exists r, get_pads value n = IOk r) <-> (N.of_nat (length pads) = 2 * tt_rank t /\ Forall (fun z => 0 <= z)%Z pads)) /\
  forall r, get_pads value n = IOk r -> exists l, r = PadStatic l /\ N.of_nat (length l) = tt_rank t /\
    forall i, N.of_nat i < tt_rank t -> Z.of_N (fst (nth i l (0, 0))) = nth i pads 0%Z /\ Z.of_N (snd (nth i l (0, 0))) = nth (N.to_nat (tt_rank t) + i) pads 0%Z.
Proof. exact get_pads_ok. Qed.
Print Assumptions C46_pad.

Example C46_ex : padding_conf 2 [1; 2; 3; 4]%Z = IOk (Some ([1; 2], [3; 4])) /\ padding_conf 1 [0; 0]%Z = IOk None /\ padding_conf 1 [0; -1]%Z = IPanic
  /\ get_pads (fun _ => None) (red_ex [5; 6] [("pads", AInts [1; 2; 3; 4]%Z)]) = IOk (PadStatic [(1, 3); (2, 4)])
  /\ pads_given (fun _ => None) (red_ex [5; 6] [("pads", AInts [1; 2; 3; 4]%Z)]) [1; 2; 3; 4]%Z.
Proof. repeat (split; [reflexivity|]). left. reflexivity. Qed.

(** ** C47 *)

(** Shape of a tensor: the length of the shape vector.  Missing: bounds outside
    the rank, and bounds in the wrong order, see the refutations. *)
Theorem C47_shape_partial : forall n i0 rest t start stop s ty,
  ninputs n = i0 :: rest -> aty i0 = TensorT t -> fits (aty i0) s ->
  attr_i64_or n "start" 0 = IOk start -> attr_i64_or n "end" (Z.of_N (tt_rank t)) = IOk stop -> tt_rank t < r63 ->
  (- Z.of_nat (length s) <= start <= Z.of_nat (length s))%Z -> (- Z.of_nat (length s) <= stop <= Z.of_nat (length s))%Z ->
  (from_end (Z.of_nat (length s)) start <= from_end (Z.of_nat (length s)) stop)%Z ->
  infer_shape n = IOk ty -> fits ty [N.of_nat (length (shape_value s start stop))].
Proof. exact shape_sound. Qed.
Print Assumptions C47_shape_partial.

Example C47_ex : infer_shape (red_ex [2; 3; 4; 5] [("start", AInt 1); ("end", AInt (-1))]) = IOk (ShapeT 2) /\ shape_value [2; 3; 4; 5] 1 (-1) = [3; 4]
  /\ fits (vt 4 (Some (map Some [2; 3; 4; 5]))) [2; 3; 4; 5].
Proof. split; [reflexivity|]. split; [reflexivity|]. apply (fits_known [2; 3; 4; 5]). Qed.

(** ONNX clamps [end] to the rank; the inferred length does not. *)
Theorem C47_end_refuted : exists n s ty,
  ninputs n = [in_ (vt 2 (Some [Some 2; Some 3]))] /\ get_attr n "start" = None /\ get_attr n "end" = Some (AInt 5) /\
  fits (vt 2 (Some [Some 2; Some 3])) s /\ infer_shape n = IOk ty /\ ~ fits ty [N.of_nat (length (shape_value s 0 5))].
Proof.
  exists (red_ex [2; 3] [("end", AInt 5)]), [2; 3], (ShapeT 5).
  repeat (split; [reflexivity || apply (fits_known [2; 3])|]). cbn. discriminate.
Qed.
Print Assumptions C47_end_refuted.
(** [start] after [end] is an empty shape in ONNX; the subtraction wraps around. *)
Theorem C47_order_refuted : exists n s ty,
  ninputs n = [in_ (vt 2 (Some [Some 2; Some 3]))] /\ get_attr n "start" = Some (AInt 2) /\ get_attr n "end" = Some (AInt 1) /\
  fits (vt 2 (Some [Some 2; Some 3])) s /\ infer_shape n = IOk ty /\ ~ fits ty [N.of_nat (length (shape_value s 2 1))].
Proof.
  exists (red_ex [2; 3] [("start", AInt 2); ("end", AInt 1)]), [2; 3], (ShapeT 18446744073709551615).
  repeat (split; [reflexivity || apply (fits_known [2; 3])|]). cbn. discriminate.
Qed.
Print Assumptions C47_order_refuted.
(** The shape of a shape vector from axis 1 on is empty; one element is inferred. *)
Theorem C47_shape_input_refuted : exists n s ty,
  ninputs n = [in_ (ShapeT 3)] /\ get_attr n "start" = Some (AInt 1) /\
  fits (ShapeT 3) s /\ infer_shape n = IOk ty /\ ~ fits ty [N.of_nat (length (shape_value s 1 1))].
Proof.
  exists (mkNode "Shape" "s" [in_ (ShapeT 3)] [out_ (vt 0 None)] [("start", AInt 1)]), [3], (ShapeT 1).
  repeat (split; [reflexivity|]). cbn. discriminate.
Qed.
Print Assumptions C47_shape_input_refuted.
