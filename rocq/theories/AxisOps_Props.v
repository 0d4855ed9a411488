(** C22, C23, C24, C25: Split, Concat, Slice, Tile, Pad, Expand. *)
From Verif Require Import IR_Model Tensor_Spec Shapes_Spec Infer_Props ShapeOps_Model ShapeOps_Spec ShapeOps_Proofs ShapeOps_Props
  AxisOps_Model AxisOps_Spec AxisOps_Proofs.
Open Scope string_scope.
Open Scope list_scope.
Open Scope N_scope.

(** ** C22 *)

(** Without explicit sizes, [d] being the known size of the axis: as many chunks
    as outputs, a partition into equal chunks except for trailing ones, and the
    sizes the ONNX reference uses whenever it can partition at all. *)
Theorem C22_even_split : forall value n i0 t axis d c num,
  ninputs n = [i0] -> split_input_type (aty i0) = Some t -> get_attr n "split" = None ->
  attr_i64_or n "axis" 0 = IOk axis -> tt_rank t < r63 ->
  (get_attr n "num_outputs" = None \/ (get_attr n "num_outputs" = Some (AInt num) /\ num = Z.of_nat (length (noutputs n)))) ->
  N.of_nat (length (noutputs n)) < r63 ->
  (exists l, tt_shape t = Some l /\ nth_error l (position (N.to_nat (tt_rank t)) axis) = Some (Some d)) ->
  split_config value n = IOk c ->
  sp_axis c = N.of_nat (position (N.to_nat (tt_rank t)) axis) /\
  exists sizes, sp_sizes c = Some (SStatic sizes) /\
    even_chunks d (N.of_nat (length (noutputs n))) sizes /\
    forall l, onnx_even d (N.of_nat (length (noutputs n))) l -> sizes = l.
Proof. exact split_even. Qed.
Print Assumptions C22_even_split.

(** Explicit sizes are used as given and are accepted only if they are
    nonnegative, as many as the outputs and (a known axis) add up. *)
Theorem C22_explicit_sizes : forall value n i0 rest t axis l c,
  ninputs n = i0 :: rest -> split_input_type (aty i0) = Some t ->
  attr_i64_or n "axis" 0 = IOk axis -> tt_rank t < r63 ->
  sizes_given value n l -> l <> [] ->
  split_config value n = IOk c ->
  sp_axis c = N.of_nat (position (N.to_nat (tt_rank t)) axis) /\
  sp_sizes c = Some (SStatic (map to_usize l)) /\ Forall (fun z => 0 <= z)%Z l /\
  length l = length (noutputs n) /\
  forall s d, tt_shape t = Some s -> nth_error s (position (N.to_nat (tt_rank t)) axis) = Some (Some d) ->
    sumN (map to_usize l) mod w64 = d.
Proof. exact split_explicit. Qed.
Print Assumptions C22_explicit_sizes.

(** The output types are met by the parts of any input the type allows. *)
Theorem C22_types_sound : forall value n i0 rest t axis s sizes outs tys,
  ninputs n = i0 :: rest -> split_input_type (aty i0) = Some t -> attr_i64_or n "axis" 0 = IOk axis ->
  tt_rank t < r63 -> (- Z.of_N (tt_rank t) <= axis < Z.of_N (tt_rank t))%Z ->
  fits (aty i0) s -> split_of (position (N.to_nat (tt_rank t)) axis) sizes s outs -> length outs = length (noutputs n) ->
  (forall l, sizes_given value n l -> map to_usize l = sizes) ->
  infer_split value n = IOk tys -> Forall2 fits tys outs.
Proof. exact split_types. Qed.
Print Assumptions C22_types_sound.

(** A Split with one output may be removed. *)
Theorem C22_noop_sound : forall n axis sizes s outs out,
  split_is_noop n = true -> length outs = length (noutputs n) -> split_of axis sizes s outs -> nth_error outs 0 = Some out -> out = s.
Proof.
  intros n axis sizes s outs out H HL Hof H0. unfold split_is_noop in H. apply Nat.eqb_eq in H.
  destruct outs as [|o [|? ?]]; cbn in HL; try lia. cbn in H0. injection H0 as ->. exact (split_noop axis sizes s [out] out Hof eq_refl).
Qed.
Print Assumptions C22_noop_sound.

Definition split_ex := mkNode "Split" "s" [in_ (vt 2 (Some [Some 2; Some 7]))] [out_ (vt 0 None); out_ (vt 0 None); out_ (vt 0 None)] [("axis", AInt (-1))].
Example C22_even_ex : split_config (const []) split_ex = IOk (mkSplit 1 (Some (SStatic [3; 3; 1])) None)
  /\ onnx_even 7 3 [3; 3; 1] /\ onnx_even 6 3 [2; 2; 2].
Proof.
  split; [reflexivity|]. split; [right|left]; vm_compute; [|split; reflexivity]. repeat split; congruence.
Qed.
(** More chunks than fit: the importer still partitions. *)
Example C22_tail_ex : chunk_sizes 5 4 = [2; 2; 1; 0].
Proof. reflexivity. Qed.
Definition split_ex2 := mkNode "Split" "s" [in_ (vt 2 (Some [Some 2; Some 7])); ivec 2] [out_ (vt 0 None); out_ (vt 0 None)] [("axis", AInt (-1))].
Example C22_explicit_ex : split_config (const [3; 4]%Z) split_ex2 = IOk (mkSplit 1 (Some (SStatic [3; 4])) None)
  /\ split_config (const [3; 5]%Z) split_ex2 = IErr
  /\ sizes_given (const [3; 4]%Z) split_ex2 [3; 4]%Z
  /\ infer_split (const [3; 4]%Z) split_ex2 = IOk [vt 2 (Some [Some 2; Some 3]); vt 2 (Some [Some 2; Some 4])]
  /\ split_of 1 [3; 4] [2; 7] [[2; 3]; [2; 4]].
Proof.
  split; [reflexivity|]. split; [reflexivity|]. split.
  - left. exists (in_ (vt 2 (Some [Some 2; Some 7]))), (ivec 2), [], (mkC [2] I64 (Some [3; 4]%Z)). repeat split.
  - split; [reflexivity|]. split; [reflexivity|].
    assert (R : forall d, replaced 1 d [2; 7] [2; d]).
    { intros d. repeat split. intros [|[|k]] Hk; [reflexivity|congruence|destruct k; reflexivity]. }
    repeat constructor; apply R.
Qed.

(** ** C23 *)

(** The type inferred for Concat is met by the ONNX result.  Scalars count as
    vectors of length 1.  When shape vectors or scalars are involved, the
    length of every rank-1 tensor among the inputs has to be known (see the
    refutation); otherwise there is no condition. *)
Theorem C23_sound_partial : forall value n ss axis out ty,
  ninputs n <> [] -> Forall2 (operand value) (ninputs n) ss -> concat_of axis ss out ->
  (mixed (ninputs n) = true -> forall a, In a (ninputs n) -> length_known value a) ->
  infer_concat value n = IOk ty -> fits ty out.
Proof. exact concat_sound. Qed.
Print Assumptions C23_sound_partial.

(** The axis is normalised as ONNX prescribes when the first input is a tensor
    or a shape vector. *)
Theorem C23_axis_partial : forall n i0 rest axis r,
  ninputs n = i0 :: rest -> get_attr n "axis" = Some (AInt axis) ->
  (match aty i0 with TensorT t => tt_rank t = r | ShapeT _ => r = 1 | _ => False end) ->
  r < r63 -> (- Z.of_N r <= axis < Z.of_N r)%Z ->
  concat_axis n = IOk (N.of_nat (position (N.to_nat r) axis)).
Proof. exact concat_axis_ok. Qed.
Print Assumptions C23_axis_partial.

(** A Concat of one input may be removed. *)
Theorem C23_noop_sound : forall n axis ss s out,
  concat_is_noop n = true -> length ss = length (ninputs n) -> nth_error ss 0 = Some s -> concat_of axis ss out -> out = s.
Proof.
  intros n axis ss s out H HL H0 Hof. unfold concat_is_noop in H. apply Nat.eqb_eq in H.
  destruct ss as [|x [|? ?]]; cbn in HL; try lia. cbn in H0. injection H0 as ->. exact (concat_noop axis s out Hof).
Qed.
Print Assumptions C23_noop_sound.

(** The full statement is false: the length of a rank-1 tensor whose length is
    not known is taken to be 1 when it is joined to a shape vector. *)
Theorem C23_unknown_length_refuted : exists n ss out ty,
  Forall2 (operand (const [])) (ninputs n) ss /\ concat_of 0 ss out /\ infer_concat (const []) n = IOk ty /\ ~ fits ty out.
Proof.
  exists (mkNode "Concat" "c" [in_ (ShapeT 2); in_ (TensorT (mkTT I64 1 None))] [] [("axis", AInt 0)]), [[2]; [3]], [5], (ShapeT 3).
  split; [|split; [|split]].
  - constructor; [split; [reflexivity|intros v Hv; discriminate]|]. constructor; [|constructor]. split; [|intros v Hv; discriminate].
    split; [reflexivity|]. cbn. discriminate.
  - split; [congruence|]. split; [cbn; lia|]. split; [|reflexivity]. intros s [<-|[<-|[]]]; (split; [reflexivity|]);
      intros [|k] Hk; try congruence; destruct k; reflexivity.
  - reflexivity.
  - cbn. congruence.
Qed.
Print Assumptions C23_unknown_length_refuted.

(** With a scalar first, the axis -1 becomes 2^64 - 1. *)
Theorem C23_scalar_axis_refuted : exists n ty,
  get_attr n "axis" = Some (AInt (-1)) /\ infer_concat (const []) n = IOk ty /\ fits ty [2] /\
  concat_axis n = IOk 18446744073709551615.
Proof.
  exists (mkNode "Concat" "c" [in_ (ScalarNative I64); in_ (ScalarNative I64)] [] [("axis", AInt (-1))]), (TensorT (mkTT I64 1 (Some [Some 2]))).
  repeat split; try (vm_compute; reflexivity). cbn. intros l E. injection E as <-. constructor; [right; reflexivity|constructor].
Qed.
Print Assumptions C23_scalar_axis_refuted.

Definition concat_ex := mkNode "Concat" "c" [in_ (ShapeT 2); ivec 1; in_ (ScalarNative I64)] [] [("axis", AInt 0)].
Example C23_ex : infer_concat (const [4]%Z) concat_ex = IOk (ShapeT 4)
  /\ Forall2 (operand (const [4]%Z)) (ninputs concat_ex) [[2]; [1]; [1]] /\ concat_of 0 [[2]; [1]; [1]] [4]
  /\ mixed (ninputs concat_ex) = true /\ forall a, In a (ninputs concat_ex) -> length_known (const [4]%Z) a.
Proof.
  split; [reflexivity|]. split; [|split; [|split; [reflexivity|]]].
  - constructor; [split; [reflexivity|intros v Hv; discriminate]|]. constructor.
    + split; [split; [reflexivity|]|].
      * cbn. intros l E. injection E as <-. constructor; [right; reflexivity|constructor].
      * intros v Hv. cbn in Hv. injection Hv as <-. reflexivity.
    + constructor; [split; [reflexivity|intros v Hv; discriminate]|constructor].
  - split; [congruence|]. split; [cbn; lia|]. split; [|reflexivity]. intros s [<-|[<-|[<-|[]]]]; (split; [reflexivity|]);
      intros [|k] Hk; try congruence; destruct k; reflexivity.
  - intros a [<-|[<-|[<-|[]]]] t Ht; try discriminate. left. injection Ht as <-. discriminate.
Qed.
Definition concat_ex2 := mkNode "Concat" "c" [in_ (vt 2 (Some [Some 2; Some 7])); in_ (vt 2 None)] [] [("axis", AInt (-1))].
Example C23_ex2 : infer_concat (const []) concat_ex2 = IOk (vt 2 None) /\ concat_axis concat_ex2 = IOk 1 /\ mixed (ninputs concat_ex2) = false.
Proof. repeat split. Qed.

(** ** C24 *)

(** Slicing a shape vector with a positive step: the exact length. *)
Theorem C24_slice_shape_partial : forall value n i0 rest r axis start stop step out ty,
  ninputs n = i0 :: rest -> aty i0 = ShapeT r -> one_cut_given value n start stop step ->
  (0 < step < 4611686018427387904)%Z -> (Z.of_N r < 4611686018427387904)%Z -> i64_range start -> i64_range stop ->
  slice_of [mkCut axis start stop step] [r] out -> infer_slice value n = IOk ty -> fits ty out.
Proof. exact slice_shape_sound. Qed.
Print Assumptions C24_slice_shape_partial.

(** Slicing a tensor: the rank is right and so are the sizes claimed for axes
    that are not cut.  Missing: the sizes of the cut axes, which are the
    input's (see the refutation). *)
Theorem C24_slice_tensor_partial : forall value n i0 rest t cuts s out ty,
  ninputs n = i0 :: rest -> aty i0 = TensorT t -> fits (aty i0) s -> slice_of cuts s out -> infer_slice value n = IOk ty ->
  exists t', ty = TensorT t' /\ tt_rank t' = N.of_nat (length out) /\
    forall k, ~ named (length s) (map c_axis cuts) k -> right_at t' out k.
Proof. exact slice_tensor_sound. Qed.
Print Assumptions C24_slice_tensor_partial.

(** Tile and Pad likewise: what is not repeated, not padded is right. *)
Theorem C24_tile_partial : forall n i0 rest t reps s out ty,
  ninputs n = i0 :: rest -> aty i0 = TensorT t -> fits (aty i0) s -> tile_of reps s out -> infer_same n = IOk ty ->
  exists t', ty = TensorT t' /\ tt_rank t' = N.of_nat (length out) /\
    forall k, nth_error reps k = Some 1%N -> right_at t' out k.
Proof. exact tile_sound. Qed.
Print Assumptions C24_tile_partial.
Theorem C24_pad_partial : forall n i0 rest t pads s out ty,
  ninputs n = i0 :: rest -> aty i0 = TensorT t -> fits (aty i0) s -> pad_of pads s out -> infer_same n = IOk ty ->
  exists t', ty = TensorT t' /\ tt_rank t' = N.of_nat (length out) /\
    forall k, (nth k pads 0 = 0)%Z -> (nth (k + length s) pads 0 = 0)%Z -> right_at t' out k.
Proof. exact pad_sound. Qed.
Print Assumptions C24_pad_partial.

(** A Pad that is removed leaves the shape alone. *)
Theorem C24_pad_noop_sound : forall value n pads s out,
  pads_given value n pads -> pad_of pads s out -> pad_is_noop value n = IOk true -> out = s.
Proof. exact pad_noop. Qed.
Print Assumptions C24_pad_noop_sound.

Definition slice_ex := mkNode "Slice" "s" [in_ (vt 1 (Some [Some 10]))] [] [("starts", AInts [0%Z]); ("ends", AInts [3%Z])].
(** The full statement is false: a tensor of 10 elements cut down to 3 is still
    claimed to have 10. *)
Theorem C24_slice_tensor_refuted : exists n s out ty,
  fits (aty (in_ (vt 1 (Some [Some 10])))) s /\ ninputs n = [in_ (vt 1 (Some [Some 10]))] /\
  slice_of [mkCut 0 0 3 1] s out /\ one_cut_given (const []) n 0 3 1 /\
  infer_slice (const []) n = IOk ty /\ ~ fits ty out.
Proof.
  exists slice_ex, [10], [3], (vt 1 (Some [Some 10])). split; [|split; [reflexivity|split; [|split; [|split; [reflexivity|]]]]].
  - split; [reflexivity|]. cbn. intros l E. injection E as <-. constructor; [right; reflexivity|constructor].
  - split; [|split; [|split; [reflexivity|]]].
    + split.
      * intros a [<-|[]]. cbn. lia.
      * cbn. constructor; [intros []|constructor].
    + intros c [<-|[]]. cbn. congruence.
    + intros [|k] d E; [|destruct k; discriminate]. cbn in E. injection E as <-. split.
      * intros c [<-|[]] _. reflexivity.
      * intros Hn. exfalso. apply Hn. exists 0%Z. split; [left; reflexivity|reflexivity].
  - left. repeat split. left. reflexivity.
  - intros [_ H]. cbn in H. specialize (H _ eq_refl). inversion H as [|? ? ? ? [?|?] _]; congruence.
Qed.
Print Assumptions C24_slice_tensor_refuted.

(** A shape vector reversed: 5 elements remain, none is claimed. *)
Theorem C24_slice_negative_step_refuted : exists r start stop step,
  (step < 0)%Z /\ slice_size r start stop step = 5 /\ shape_slice_len start stop step r = 0.
Proof. exists 5, 4%Z, (-6)%Z, (-1)%Z. vm_compute. repeat split. Qed.
Print Assumptions C24_slice_negative_step_refuted.

Theorem C24_tile_refuted : exists n s out ty,
  ninputs n = [in_ (vt 1 (Some [Some 2]))] /\ fits (vt 1 (Some [Some 2])) s /\ tile_of [3] s out /\ infer_same n = IOk ty /\ ~ fits ty out.
Proof.
  exists (mkNode "Tile" "t" [in_ (vt 1 (Some [Some 2]))] [] []), [2], [6], (vt 1 (Some [Some 2])).
  split; [reflexivity|]. split.
  - split; [reflexivity|]. cbn. intros l E. injection E as <-. constructor; [right; reflexivity|constructor].
  - split; [|split; [reflexivity|]].
    + split; [reflexivity|]. split; [reflexivity|]. intros [|k] d r E1 E2; [|destruct k; discriminate]. cbn in *. injection E1 as <-. injection E2 as <-. reflexivity.
    + intros [_ H]. cbn in H. specialize (H _ eq_refl). inversion H as [|? ? ? ? [?|?] _]; congruence.
Qed.
Print Assumptions C24_tile_refuted.
Theorem C24_pad_refuted : exists n s out ty,
  ninputs n = [in_ (vt 1 (Some [Some 2]))] /\ fits (vt 1 (Some [Some 2])) s /\ pad_of [1; 1]%Z s out /\ infer_same n = IOk ty /\ ~ fits ty out.
Proof.
  exists (mkNode "Pad" "p" [in_ (vt 1 (Some [Some 2]))] [] [("pads", AInts [1; 1]%Z)]), [2], [4], (vt 1 (Some [Some 2])).
  split; [reflexivity|]. split.
  - split; [reflexivity|]. cbn. intros l E. injection E as <-. constructor; [right; reflexivity|constructor].
  - split; [|split; [reflexivity|]].
    + split; [reflexivity|]. split; [reflexivity|]. intros [|k] d E1; [|destruct k; discriminate]. cbn in *. injection E1 as <-. exists 4. split; reflexivity.
    + intros [_ H]. cbn in H. specialize (H _ eq_refl). inversion H as [|? ? ? ? [?|?] _]; congruence.
Qed.
Print Assumptions C24_pad_refuted.

Definition slice_shape_ex := mkNode "Slice" "s" [in_ (ShapeT 7); ivec 1; ivec 1; ivec 1; ivec 1] [] [].
Definition slice_vals : arg -> option cval := const [2%Z].
(** shape[2:2:2] is empty; with the attribute form shape[-5:6] has 4 elements. *)
Example C24_shape_ex : infer_slice slice_vals slice_shape_ex = IOk (ShapeT 0)
  /\ one_cut_given slice_vals slice_shape_ex 2 2 2 /\ slice_size 7 2 2 2 = 0
  /\ infer_slice (const []) (mkNode "Slice" "s" [in_ (ShapeT 7)] [] [("starts", AInts [-5]%Z); ("ends", AInts [6]%Z)]) = IOk (ShapeT 4)
  /\ slice_size 7 (-5) 6 1 = 4 /\ slice_size 7 1 100 3 = 2 /\ slice_size 7 5 1 (-2) = 2.
Proof.
  split; [reflexivity|]. split; [|vm_compute; repeat split].
  right. exists (in_ (ShapeT 7)), (ivec 1), (ivec 1), (mkC [1] I64 (Some [2%Z])), (mkC [1] I64 (Some [2%Z])). repeat split.
  right. exists (ivec 1), (mkC [1] I64 (Some [2%Z])). repeat split.
Qed.
Example C24_pad_noop_ex : pad_is_noop (const [0; 0]%Z) (mkNode "Pad" "p" [in_ (vt 1 None); ivec 2] [] []) = IOk true
  /\ pads_given (const [0; 0]%Z) (mkNode "Pad" "p" [in_ (vt 1 None); ivec 2] [] []) [0; 0]%Z /\ pad_of [0; 0]%Z [4] [4].
Proof.
  split; [reflexivity|]. split.
  - right. right. split; [reflexivity|]. split; [reflexivity|]. exists (ivec 2), (mkC [2] I64 (Some [0; 0]%Z)). repeat split.
  - split; [reflexivity|]. split; [reflexivity|]. intros [|k] d E; [|destruct k; discriminate]. cbn in E. injection E as <-. exists 4. split; reflexivity.
Qed.

(** ** C25 *)

(** A constant requested shape [req]: the inferred type is met by the broadcast
    result provided [req] is at least as long as the input shape and asks for 1
    only where the input has 1.  The full statement drops these two conditions
    and is false: see the refutations. *)
Theorem C25_sound_partial : forall value n i0 i1 rest req s out ty v,
  ninputs n = i0 :: i1 :: rest -> value i1 = Some v -> cv_ints v = Some req -> Forall (fun z => 0 <= z < 9223372036854775808)%Z req ->
  bcast_of [s; map Z.to_N req] out -> (length s <= length req)%nat ->
  (forall k, nth k (rev (map Z.to_N req)) 0 = 1 -> nth k (rev s) 1 = 1) ->
  infer_expand value n = IOk ty -> fits ty out.
Proof. exact expand_sound. Qed.
Print Assumptions C25_sound_partial.

(** A requested shape only known at run time. *)
Theorem C25_runtime_partial : forall value n i0 i1 o0 orest req s out ty,
  ninputs n = [i0; i1] -> noutputs n = o0 :: orest -> value i1 = None ->
  fits (aty i1) [N.of_nat (length req)] -> (forall t, aty o0 = TensorT t -> tt_rank t = 0 \/ fits_tt t out) ->
  bcast_of [s; req] out -> (length s <= length req)%nat ->
  infer_expand value n = IOk ty -> fits ty out.
Proof. exact expand_runtime_sound. Qed.
Print Assumptions C25_runtime_partial.

(** An Expand between equal, fully known shapes may be removed. *)
Theorem C25_noop_partial : forall n i0 rest o0 orest t l s out,
  ninputs n = i0 :: rest -> noutputs n = o0 :: orest -> aty i0 = TensorT t -> tt_shape t = Some l -> (forall x, In x l -> x <> None) ->
  fits (aty i0) s -> fits (aty o0) out -> expand_is_noop n = IOk true -> out = s.
Proof. exact expand_noop. Qed.
Print Assumptions C25_noop_partial.

Definition expand_ex (s : list N) (k : N) := mkNode "Expand" "e" [in_ (vt (N.of_nat (length s)) (Some (map Some s))); ivec k] [out_ (vt 0 None)] [].
Lemma bcast_pair : forall s r out, (length s <= length r)%nat -> length out = length r ->
  (forall k, (k < length out)%nat -> (nth k (rev s) 1 = 1 \/ nth k (rev s) 1 = nth k (rev out) 0) /\ (nth k (rev r) 1 = 1 \/ nth k (rev r) 1 = nth k (rev out) 0) /\
     (nth k (rev out) 0 = 1 \/ nth k (rev s) 1 = nth k (rev out) 0 \/ nth k (rev r) 1 = nth k (rev out) 0)) -> bcast_of [s; r] out.
Proof.
  intros s r out Hl Ho H. split; [|split].
  - intros x [<-|[<-|[]]]; lia.
  - right. exists r. split; [right; left; reflexivity|congruence].
  - intros k Hk. destruct (H k Hk) as [A [B C]]. split.
    + intros x [<-|[<-|[]]]; assumption.
    + destruct C as [C|[C|C]]; [left; exact C|right; exists s; split; [left; reflexivity|exact C]|right; exists r; split; [right; left; reflexivity|exact C]].
Qed.

(** Requesting 1 where the input has 3 yields 3; the importer claims 1. *)
Theorem C25_one_refuted : exists n out ty,
  ninputs n = [in_ (vt 1 (Some [Some 3])); ivec 1] /\ bcast_of [[3]; [1]] out /\ infer_expand (const [1%Z]) n = IOk ty /\ ~ fits ty out.
Proof.
  exists (expand_ex [3] 1), [3], (vt 1 (Some [Some 1])). split; [reflexivity|]. split; [|split; [reflexivity|]].
  - apply bcast_pair; [cbn; lia|reflexivity|]. intros [|k] Hk; [cbn; auto|cbn in Hk; lia].
  - intros [_ H]. cbn in H. specialize (H _ eq_refl). inversion H as [|? ? ? ? [?|?] _]; congruence.
Qed.
Print Assumptions C25_one_refuted.
(** A requested shape shorter than the input's: the rank is wrong. *)
Theorem C25_rank_refuted : exists n out ty,
  ninputs n = [in_ (vt 2 (Some [Some 2; Some 3])); ivec 1] /\ bcast_of [[2; 3]; [3]] out /\ infer_expand (const [3%Z]) n = IOk ty /\ ~ fits ty out.
Proof.
  exists (expand_ex [2; 3] 1), [2; 3], (vt 1 (Some [Some 3])). split; [reflexivity|]. split; [|split; [reflexivity|]].
  - split; [|split].
    + intros x [<-|[<-|[]]]; cbn; lia.
    + right. exists [2; 3]. split; [left; reflexivity|reflexivity].
    + intros [|[|k]] Hk; [| |cbn in Hk; lia]; (split; [intros x [<-|[<-|[]]]; cbn; auto|]); right; exists [2; 3]; (split; [left; reflexivity|reflexivity]).
  - intros [H _]. cbn in H. discriminate.
Qed.
Print Assumptions C25_rank_refuted.
(** Equal shapes with an unknown size: an Expand that does something is removed. *)
Theorem C25_noop_unknown_refuted : exists n s out,
  expand_is_noop n = IOk true /\ (forall a, In a (ninputs n ++ noutputs n) -> aty a = vt 1 (Some [None])) /\
  fits (vt 1 (Some [None])) s /\ fits (vt 1 (Some [None])) out /\ out <> s /\ bcast_of [s; out] out.
Proof.
  exists (mkNode "Expand" "e" [in_ (vt 1 (Some [None]))] [out_ (vt 1 (Some [None]))] []), [1], [4].
  assert (F : forall d, fits (vt 1 (Some [None])) [d]).
  { intros d. split; [reflexivity|]. cbn. intros l E. injection E as <-. constructor; [left; reflexivity|constructor]. }
  split; [reflexivity|]. split; [intros a [<-|[<-|[]]]; reflexivity|]. split; [apply F|]. split; [apply F|]. split; [congruence|].
  apply bcast_pair; [cbn; lia|reflexivity|]. intros [|k] Hk; [cbn; auto|cbn in Hk; lia].
Qed.
Print Assumptions C25_noop_unknown_refuted.

Example C25_ex : infer_expand (const [2; 4; 3]%Z) (expand_ex [1; 3] 3) = IOk (vt 3 (Some [Some 2; Some 4; Some 3])) /\ bcast_of [[1; 3]; [2; 4; 3]] [2; 4; 3]
  /\ forall k, nth k (rev (map Z.to_N [2; 4; 3]%Z)) 0 = 1 -> nth k (rev [1; 3]) 1 = 1.
Proof.
  split; [reflexivity|]. split.
  - apply bcast_pair; [cbn; lia|reflexivity|]. intros [|[|[|k]]] Hk; [cbn; auto..|cbn in Hk; lia].
  - intros [|[|[|[|k]]]] H; cbn in *; try discriminate; reflexivity.
Qed.
