(** C15, C16, C17, C44: shape knowledge, broadcasting, the inference loop and
    the specification checks. *)
From Verif Require Import IR_Model Shapes_Spec Infer_Model Infer_Spec Infer_Proofs.
Open Scope string_scope.
Open Scope list_scope.
Open Scope N_scope.

Ltac fits_dims_tac :=
  lazymatch goal with
  | |- Forall2 _ [] [] => constructor
  | |- Forall2 _ _ _ => constructor; [first [left; reflexivity|right; reflexivity]|fits_dims_tac]
  | |- fits_dims _ _ => unfold fits_dims; fits_dims_tac
  end.
Ltac fits_tac :=
  first [reflexivity
        |split; [reflexivity|cbn; let l := fresh in let E := fresh in intros l E; first [discriminate E|injection E as <-; fits_dims_tac]]].
Ltac fits_all := repeat (constructor; [fits_tac|]); try constructor.

(** ** C15 *)

(** Every dimension that was known stays known, with its value. *)
Theorem C15_known_kept : forall self other l i d,
  tt_shape self = Some l -> nth_error l i = Some (Some d) ->
  exists l', tt_shape (fst (merge_tt self other)) = Some l' /\ nth_error l' i = Some (Some d).
Proof. exact merge_known. Qed.
Print Assumptions C15_known_kept.

(** Every known dimension of the result was known to one of the two sources;
    rank and element type are those of the receiver. *)
Theorem C15_nothing_invented : forall self other l' i d,
  tt_shape (fst (merge_tt self other)) = Some l' -> nth_error l' i = Some (Some d) ->
  (exists l, tt_shape self = Some l /\ nth_error l i = Some (Some d)) \/
  (exists l, tt_shape other = Some l /\ nth_error l i = Some (Some d)).
Proof. exact merge_source. Qed.
Print Assumptions C15_nothing_invented.

Theorem C15_rank_and_type_kept : forall self other,
  tt_rank (fst (merge_tt self other)) = tt_rank self /\
  tt_dtype (fst (merge_tt self other)) = tt_dtype self.
Proof. exact merge_rank. Qed.
Print Assumptions C15_rank_and_type_kept.

(** Everything the other source knows is taken over where the receiver knows
    nothing, if the ranks agree and the declarations have the length of the rank. *)
Theorem C15_taken_over : forall self other ls lo i d,
  tt_rank self = tt_rank other -> tt_shape self = Some ls -> tt_shape other = Some lo ->
  length ls = length lo -> nth_error ls i = Some None -> nth_error lo i = Some (Some d) ->
  exists l', tt_shape (fst (merge_tt self other)) = Some l' /\ nth_error l' i = Some (Some d).
Proof. exact merge_taken. Qed.
Print Assumptions C15_taken_over.
Theorem C15_taken_over_whole : forall self other lo,
  tt_rank self = tt_rank other -> tt_shape self = None -> tt_shape other = Some lo ->
  N.of_nat (length lo) = tt_rank self -> tt_shape (fst (merge_tt self other)) = Some lo.
Proof. exact merge_taken_whole. Qed.
Print Assumptions C15_taken_over_whole.

(** The flag tells whether something changed. *)
Theorem C15_changed_flag : forall self other,
  snd (merge_tt self other) = true <-> fst (merge_tt self other) <> self.
Proof. exact merge_flag. Qed.
Print Assumptions C15_changed_flag.

(** Merging again changes nothing and reports so. *)
Theorem C15_idempotent : forall self other,
  merge_tt (fst (merge_tt self other)) other = (fst (merge_tt self other), false).
Proof. exact merge_again. Qed.
Print Assumptions C15_idempotent.

(** A shape consistent with both sources is consistent with the result. *)
Theorem C15_consistent : forall self other s,
  fits_tt self s -> fits_tt other s -> fits_tt (fst (merge_tt self other)) s.
Proof. exact merge_fits. Qed.
Print Assumptions C15_consistent.

Definition half := mkTT F32 3 (Some [Some 2; None; None]).
Definition other_half := mkTT F32 3 (Some [None; Some 5; None]).
Example C15_example :
  merge_tt half other_half = (mkTT F32 3 (Some [Some 2; Some 5; None]), true) /\
  fits_tt half [2; 5; 7] /\ fits_tt other_half [2; 5; 7].
Proof.
  split; [reflexivity|].
  split; fits_tac.
Qed.

(** ** C16 *)

(** The inferred type has the rank of the broadcast result: no restriction on
    the number of operands or on what is known about them (tensor types have
    rank at least 1, rank 0 is expressed by the scalar types). *)
Theorem C16_rank : forall tys od ss out ty,
  Forall (fun ty => forall t, ty = TensorT t -> 1 <= tt_rank t) tys ->
  Forall2 fits tys ss -> bcast_of ss out ->
  broadcast_output_type tys od = Some ty ->
  match ty with
  | ScalarTensor _ | ScalarNative _ => length out = 0%nat
  | ShapeT _ => length out = 1%nat
  | TensorT t => N.of_nat (length out) = tt_rank t
  end.
Proof. exact broadcast_rank_sound'. Qed.
Print Assumptions C16_rank.

(** The whole inferred type is right, dimensions included, if every tensor
    operand declares its dimensions (single dimensions may be unknown) and no
    operand is a shape.  Missing for the full property: operands without
    declared dimensions and shape operands, where the claim is false (below). *)
Theorem C16_dims_partial : forall tys od ss out ty,
  (forall ty, In ty tys -> match ty with
     | TensorT t => 1 <= tt_rank t /\ tt_shape t <> None
     | ShapeT _ => False
     | _ => True end) ->
  Forall2 fits tys ss -> bcast_of ss out ->
  broadcast_output_type tys od = Some ty -> fits ty out.
Proof. exact broadcast_type_sound. Qed.
Print Assumptions C16_dims_partial.

(** The element type is the one asked for, and otherwise the one the operands
    share; shapes are lists of 64-bit integers whatever is asked for. *)
Definition operand_type (ty : argty) (d : dtype) : Prop :=
  match ty with TensorT t => tt_dtype t = d | ScalarTensor c | ScalarNative c => c = d | ShapeT _ => d = I64 end.
Theorem C16_element_type : forall tys od ty d,
  broadcast_output_type tys od = Some ty ->
  (od = Some d \/ (od = None /\ forall o, In o tys -> operand_type o d)) ->
  (exists n, ty = ShapeT n) \/ operand_type ty d.
Proof. exact broadcast_element_type. Qed.
Print Assumptions C16_element_type.

(** Without those restrictions: every claimed dimension other than 1 is right,
    provided the claimed shape has as many dimensions as the result. *)
Theorem C16_nonunit_dims_partial : forall tys ss out l p c,
  Forall2 fits tys ss -> bcast_of ss out ->
  compute_broadcast_static_shape tys = Some l -> length l = length out ->
  nth_error l p = Some (Some c) -> c <> 1 -> nth p out 0 = c.
Proof. exact broadcast_nonunit_sound. Qed.
Print Assumptions C16_nonunit_dims_partial.

Definition b1 := TensorT (mkTT F32 3 (Some [Some 2; None; Some 1])).
Definition b2 := TensorT (mkTT F32 2 (Some [Some 5; Some 7])).
Lemma b1_fits : fits b1 [2; 1; 1].
Proof. fits_tac. Qed.
Lemma b2_fits : fits b2 [5; 7].
Proof. fits_tac. Qed.
Lemma b12_bcast : bcast_of [[2; 1; 1]; [5; 7]; []] [2; 5; 7].
Proof.
  split; [intros s [<-|[<-|[<-|[]]]]; cbn; lia|]. split; [right; exists [2; 1; 1]; split; [left|]; reflexivity|].
  intros k Hk. cbn in Hk. destruct k as [|[|[|k]]]; [| | |lia]; cbn.
  - split; [intros s [<-|[<-|[<-|[]]]]; auto|right; exists [5; 7]; auto].
  - split; [intros s [<-|[<-|[<-|[]]]]; auto|right; exists [5; 7]; auto].
  - split; [intros s [<-|[<-|[<-|[]]]]; auto|right; exists [2; 1; 1]; auto].
Qed.
Example C16_example :
  Forall2 fits [b1; b2; ScalarNative F32] [[2; 1; 1]; [5; 7]; []] /\
  bcast_of [[2; 1; 1]; [5; 7]; []] [2; 5; 7] /\
  broadcast_output_type [b1; b2; ScalarNative F32] None = Some (TensorT (mkTT F32 3 (Some [Some 2; None; Some 7]))).
Proof.
  split; [fits_all|].
  split; [exact b12_bcast|reflexivity].
Qed.

(** An operand of known shape [1,3] and one of unknown shape and the same
    rank: the output is claimed to be [1,3], but [5,3] is possible. *)
Theorem C16_unknown_operand_refuted : exists tys ss out ty,
  Forall (fun ty => forall t, ty = TensorT t -> 1 <= tt_rank t) tys /\
  Forall2 fits tys ss /\ bcast_of ss out /\
  broadcast_output_type tys None = Some ty /\ ~ fits ty out.
Proof.
  exists [TensorT (mkTT F32 2 (Some [Some 1; Some 3])); TensorT (mkTT F32 2 None)], [[1; 3]; [5; 3]], [5; 3].
  eexists. split; [repeat constructor; intros t E; injection E as <-; cbn; lia|].
  split; [fits_all|].
  split.
  { split; [intros s [<-|[<-|[]]]; cbn; lia|]. split; [right; exists [5; 3]; split; [right; left|]; reflexivity|].
    intros k Hk. cbn in Hk. destruct k as [|[|k]]; [| |lia]; cbn.
    - split; [intros s [<-|[<-|[]]]; auto|right; exists [5; 3]; auto].
    - split; [intros s [<-|[<-|[]]]; auto|right; exists [5; 3]; auto]. }
  split; [reflexivity|]. intros [_ H]. specialize (H _ eq_refl). inversion H as [|? ? ? ? Hx]; subst.
  destruct Hx; discriminate.
Qed.
Print Assumptions C16_unknown_operand_refuted.

(** Two operands with the same known shape of rank 1 and a third of rank 2 and
    unknown shape: the claimed dimensions do not even have the claimed rank. *)
Theorem C16_rank_mismatch_refuted : exists tys t l,
  Forall (fun ty => forall t, ty = TensorT t -> 1 <= tt_rank t) tys /\
  broadcast_output_type tys None = Some (TensorT t) /\ tt_shape t = Some l /\ N.of_nat (length l) <> tt_rank t.
Proof.
  exists [TensorT (mkTT F32 1 (Some [Some 3])); TensorT (mkTT F32 1 (Some [Some 3])); TensorT (mkTT F32 2 None)].
  eexists _, _. split; [repeat constructor; intros t E; injection E as <-; cbn; lia|].
  split; [reflexivity|]. split; [reflexivity|]. discriminate.
Qed.
Print Assumptions C16_rank_mismatch_refuted.

(** A shape of length 3 and a tensor of shape [1]: the output is claimed to have
    shape [1], broadcasting produces [3]. *)
Theorem C16_shape_operand_refuted : exists tys ss out ty,
  Forall2 fits tys ss /\ bcast_of ss out /\ broadcast_output_type tys None = Some ty /\ ~ fits ty out.
Proof.
  exists [ShapeT 3; TensorT (mkTT I64 1 (Some [Some 1]))], [[3]; [1]], [3]. eexists.
  split; [fits_all|].
  split.
  { split; [intros s [<-|[<-|[]]]; cbn; lia|]. split; [right; exists [3]; split; [left|]; reflexivity|].
    intros k Hk. cbn in Hk. destruct k as [|k]; [|lia]; cbn.
    split; [intros s [<-|[<-|[]]]; auto|right; exists [3]; auto]. }
  split; [reflexivity|]. intros [_ H]. specialize (H _ eq_refl). inversion H as [|? ? ? ? Hx]; subst.
  destruct Hx; discriminate.
Qed.
Print Assumptions C16_shape_operand_refuted.

(** Two shapes of lengths 1 and 3: claimed length 1. *)
Theorem C16_two_shapes_refuted : exists tys ss out ty,
  Forall2 fits tys ss /\ bcast_of ss out /\ broadcast_output_type tys None = Some ty /\ ~ fits ty out.
Proof.
  exists [ShapeT 1; ShapeT 3], [[1]; [3]], [3]. eexists.
  split; [fits_all|].
  split.
  { split; [intros s [<-|[<-|[]]]; cbn; lia|]. split; [right; exists [3]; split; [right; left|]; reflexivity|].
    intros k Hk. cbn in Hk. destruct k as [|k]; [|lia]; cbn.
    split; [intros s [<-|[<-|[]]]; auto|right; exists [3]; auto]. }
  split; [reflexivity|]. discriminate.
Qed.
Print Assumptions C16_two_shapes_refuted.

(** ** C17 *)

(** At most ten sweeps; before the tenth, only convergence ends the loop. *)
Theorem C17_at_most_ten : forall infer wants spec opset nodes nodes' prefs b sweeps,
  infer_types infer wants spec opset nodes = Some (nodes', prefs, b, sweeps) ->
  (sweeps <= 10)%nat /\ ((sweeps < 10)%nat -> b = true).
Proof. exact (fun infer wants spec opset nodes => iterate_bound infer wants spec opset 10 true nodes []). Qed.
Print Assumptions C17_at_most_ten.

(** Inference ends with a result unless a processor or a check rejects a node. *)
Theorem C17_ends : forall infer wants spec opset nodes,
  (forall n pf, validate_node_spec n opset (spec (ntype n)) = true /\
     exists n', infer n pf = Some n' /\ no_rank_zero n' = true) ->
  exists r, infer_types infer wants spec opset nodes = Some r.
Proof. exact (fun infer wants spec opset nodes H => iterate_runs infer wants spec opset H 10 true nodes []). Qed.
Print Assumptions C17_ends.

(** When it reports convergence the graph is settled, and one more sweep
    reproduces the nodes, the preferences and the verdict. *)
Theorem C17_settled : forall infer wants spec opset nodes nodes' prefs sweeps,
  assigns_output_types infer ->
  infer_types infer wants spec opset nodes = Some (nodes', prefs, true, sweeps) ->
  settled infer wants nodes' prefs /\
  iteration infer wants spec opset false nodes' prefs = Some (nodes', prefs, true).
Proof. exact (fun infer wants spec opset nodes nodes' prefs sweeps H => iterate_settled infer wants spec opset H 10 true nodes [] nodes' prefs sweeps). Qed.
Print Assumptions C17_settled.

(** A processor that copies the type of its first input. *)
Definition copy_type (n : rnode) (pf : list pkey) : option rnode :=
  match ninputs n, noutputs n with
  | i :: _, o :: r => Some (mkNode (ntype n) (nname n) (ninputs n) (set_ty o (aty i) :: r) (nattrs n))
  | _, _ => Some n
  end.
Example C17_copy_type_assigns : assigns_output_types copy_type.
Proof.
  intros [t nm is os ats] pf n'. unfold copy_type. destruct is as [|i is], os as [|o os]; cbn; intros E; injection E as <-; cbn; auto 10.
Qed.
Definition any_spec (t : string) : node_spec := mkSpec 1 None (IAtLeast 0) (ORange 0 9).
Definition vec2 := TensorT (mkTT F32 2 (Some [Some 4; None])).
Definition unknown1 := TensorT (mkTT F32 1 None).
(** A chain in the wrong order: the consumer comes first, so one sweep is not enough. *)
Definition chain : list rnode :=
  [ mkNode "Relu" "b" [mkArg "y" unknown1 VDynamic] [mkArg "z" unknown1 VDynamic] [];
    mkNode "Relu" "a" [mkArg "x" vec2 VDynamic] [mkArg "y" unknown1 VDynamic] [] ].
Example C17_example :
  infer_types copy_type (fun _ _ => [PTensor]) any_spec 16 chain =
  Some ([ mkNode "Relu" "b" [mkArg "y" vec2 VDynamic] [mkArg "z" vec2 VDynamic] [];
          mkNode "Relu" "a" [mkArg "x" vec2 VDynamic] [mkArg "y" vec2 VDynamic] [] ],
        [("y", "b", PTensor)], true, 2%nat).
Proof. reflexivity. Qed.

(** The proviso on processors is needed: a processor that rewrites an output
    nobody reads differently each time ends the loop although the next sweep
    changes the graph. *)
Theorem C17_needs_stable_processors_refuted : exists infer wants spec opset nodes nodes' prefs sweeps,
  infer_types infer wants spec opset nodes = Some (nodes', prefs, true, sweeps) /\
  exists nodes'' prefs' b, iteration infer wants spec opset false nodes' prefs = Some (nodes'', prefs', b) /\ nodes'' <> nodes'.
Proof.
  exists (fun n _ => Some (mkNode (ntype n) (nname n) (ninputs n)
     (map (fun o => set_ty o (match aty o with ScalarNative F32 => ScalarNative F64 | _ => ScalarNative F32 end)) (noutputs n)) (nattrs n))),
    (fun _ _ => []), any_spec, 16, [mkNode "X" "n" [] [mkArg "o" (ScalarNative F32) VDynamic] []].
  eexists _, _, _. split; [reflexivity|]. eexists _, _, _. split; [reflexivity|]. cbn. discriminate.
Qed.
Print Assumptions C17_needs_stable_processors_refuted.

(** ** C44 *)
Theorem C44_checks_exact : forall n opset s,
  validate_node_spec n opset s = true <->
  min_opset s <= opset /\ (forall m, max_opset s = Some m -> opset <= m) /\
  in_range_in opset (onnx_input_count n) (in_spec s) /\
  in_range_out opset (N.of_nat (length (noutputs n))) (out_spec s).
Proof. exact validate_spec. Qed.
Print Assumptions C44_checks_exact.

(** The count of inputs is the recorded one, or the number of arguments. *)
Theorem C44_input_count : forall n,
  (forall z, get_attr n "__onnx_input_count" = Some (AInt z) -> (0 <= z < 2 ^ 64)%Z -> Z.of_N (onnx_input_count n) = z) /\
  ((forall z, get_attr n "__onnx_input_count" <> Some (AInt z)) -> onnx_input_count n = N.of_nat (length (ninputs n))).
Proof. exact input_count_spec. Qed.
Print Assumptions C44_input_count.

Definition versioned := mkSpec 1 None (IOpset [(1, IExact 2); (13, IRange 1 2); (18, IAtLeast 3)]) (OExact 1).
Definition node2 := mkNode "Squeeze" "s" [mkArg "a" vec2 VDynamic] [mkArg "b" vec2 VDynamic] [].
Example C44_example :
  validate_node_spec node2 13 versioned = true /\ validate_node_spec node2 17 versioned = true /\
  validate_node_spec node2 12 versioned = false /\ validate_node_spec node2 18 versioned = false /\
  validate_node_spec node2 0 versioned = false.
Proof. repeat split. Qed.
