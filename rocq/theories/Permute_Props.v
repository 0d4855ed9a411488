(** C35: Reshape to a permutation of the data's own dimensions, replaced by
    Transpose. *)
From Verif Require Import IR_Model IR_Spec Tensor_Spec ShapeOps_Spec Permute_Model Permute_Spec Permute_Proofs.
From Coq Require Import Lia.
Open Scope string_scope.
Open Scope list_scope.
Open Scope N_scope.

(** Reshape keeps the elements in their order.  For a shape with no empty
    dimension, Transpose by [p] gives the same list of elements for every
    tensor of that shape exactly when [p] leaves the dimensions other than 1
    in their order. *)
Theorem C35_equal_iff : forall p s, Permutation p (seq 0 (length s)) -> Forall (fun d => 1 <= d) s ->
  (in_order p s <-> forall x r : tensor Z, tshape x = s -> twf x -> transposed p x r -> tdata r = tdata x).
Proof. exact in_order_iff. Qed.
Print Assumptions C35_equal_iff.

(** Transpose is defined for every permutation. *)
Theorem C35_transpose_exists : forall A p (x : tensor A), Permutation p (seq 0 (length (tshape x))) -> twf x ->
  exists r, transposed p x r.
Proof. intros A p x Hp Hx. destruct (transpose_ok p x Hp Hx) as (r & _ & H). eauto. Qed.
Print Assumptions C35_transpose_exists.

(** The simplified graph gives every name the value it had.  Missing: data
    whose dimensions other than 1 change their order, data of another rank
    than the number of indices (see the refutations), empty data. *)
Theorem C35_pass_partial : forall scalar (sem : zsem) static nodes nodes' (e ef : string -> option zt),
  shape_laws sem -> ssa e nodes -> names_apart nodes -> whole_shapes nodes ->
  run sem static e nodes = Some ef ->
  single_indices scalar static nodes ef -> one_value_per_name static nodes ef ->
  simplify_permute_reshape scalar nodes = Some nodes' ->
  (forall n n' p x v, In (n, n') (combine nodes nodes') -> ntype n = "Reshape" -> ntype n' = "Transpose" ->
     nattrs n' = [("perm", AInts p)] -> nth_error (ninputs n) 0 = Some x -> arg_eval static ef x = Some (Some v) ->
     twf v /\ length p = length (tshape v) /\ Forall (fun d => 1 <= d) (tshape v) /\ in_order (positions p) (tshape v)) ->
  run sem static e nodes' = Some ef.
Proof. exact pass_run. Qed.
Print Assumptions C35_pass_partial.

(** Only Reshape nodes change, and each to the Transpose of its data by a
    permutation, under its own name and output. *)
Theorem C35_only_reshape : forall scalar nodes nodes', simplify_permute_reshape scalar nodes = Some nodes' ->
  Forall2 (fun n n' => n' = n \/ (ntype n = "Reshape" /\ exists p x rest, ninputs n = x :: rest /\
     Permutation (positions p) (seq 0 (length p)) /\
     n' = mkNode "Transpose" (nname n) [x] (noutputs n) [("perm", AInts p)])) nodes nodes'.
Proof. intros scalar nodes nodes'. apply permute_all_shape. Qed.
Print Assumptions C35_only_reshape.

(** The replaced Reshape asked for the permuted dimensions of its data, when
    that has as many dimensions as there are indices: the Transpose has the
    shape of the Reshape. *)
Theorem C35_shape : forall scalar (sem : zsem) static nodes (e ef : string -> option zt) n n' p x s rest v,
  shape_laws sem -> ssa e nodes -> names_apart nodes -> whole_shapes nodes ->
  run sem static e nodes = Some ef ->
  single_indices scalar static nodes ef -> one_value_per_name static nodes ef ->
  In n nodes -> permute_node scalar nodes n = Some n' -> ntype n = "Reshape" -> ntype n' = "Transpose" ->
  nattrs n' = [("perm", AInts p)] -> ninputs n = x :: s :: rest ->
  arg_eval static ef x = Some (Some v) -> length (tshape v) = length p ->
  exists t, arg_eval static ef s = Some (Some t) /\ tdata t = map Z.of_N (pick (positions p) (tshape v)).
Proof.
  intros scalar sem static nodes e ef n n' p x s rest v laws Hssa apart whole Hr single onev Hn Hp Ht Ht' Ha Hi Hv Hl.
  unfold permute_node in Hp. rewrite Ht in Hp. cbn [String.eqb Ascii.eqb Bool.eqb] in Hp.
  destruct (extract_permute_pattern scalar nodes n) as [[q|]|] eqn:Ep; [|injection Hp as <-; rewrite Ht in Ht'; discriminate|discriminate].
  rewrite Hi in Hp. injection Hp as <-. cbn in Ha. injection Ha as ->.
  destruct (pattern_ok scalar sem static nodes ef laws apart whole single onev
              (IR_Proofs.run_holds sem static nodes e ef Hssa Hr) n p x Hn Ht Ep) as (_ & sa & r' & Ei & H).
  { rewrite Hi. reflexivity. }
  rewrite Hi in Ei. injection Ei as <- <-. apply H; assumption.
Qed.
Print Assumptions C35_shape.

(** The pass does not panic on nodes with the inputs and attributes ONNX
    prescribes. *)
Theorem C35_total : forall scalar nodes,
  (forall n, In n nodes -> mem_str (ntype n) ["Unsqueeze"; "Gather"; "Shape"] = true -> ninputs n <> []) ->
  (forall n a, In n nodes -> ntype n = "Gather" -> get_attr n "axis" = Some a -> exists z, a = AInt z) ->
  exists nodes', simplify_permute_reshape scalar nodes = Some nodes'.
Proof. exact pass_total. Qed.
Print Assumptions C35_total.

(** ** Graphs *)
Definition tt0 : argty := TensorT (mkTT I64 0 None).
Definition dyn (x : string) : arg := mkArg x tt0 VDynamic.
Definition cst (k : N) : arg := mkArg "" tt0 (VStatic k).
(** Embedded data: 0, 1, 2 and -1, and the axes of Unsqueeze. *)
Definition data_of (k : N) : option zt :=
  nth_error [mkT [] [0%Z]; mkT [] [1%Z]; mkT [] [2%Z]; mkT [] [(-1)%Z]] (N.to_nat k).
Definition scalar_of (a : arg) : option Z :=
  match asrc a with VStatic k => match data_of k with Some t => hd_error (tdata t) | None => None end | _ => None end.

Definition one_dim (k : N) (g u : string) : list rnode :=
  [mkNode "Gather" g [dyn "sh"; cst k] [dyn g] [("axis", AInt 0)]; mkNode "Unsqueeze" u [dyn g; cst 0] [dyn u] []].
Definition graph_of (ks : list (N * string * string)) : list rnode :=
  mkNode "Shape" "shape" [dyn "X"] [dyn "sh"] [] ::
  flat_map (fun k => one_dim (fst (fst k)) (snd (fst k)) (snd k)) ks ++
  [mkNode "Concat" "concat" (map (fun k => dyn (snd k)) ks) [dyn "c"] [("axis", AInt 0)];
   mkNode "Reshape" "reshape" [dyn "X"; dyn "c"] [dyn "Y"] []].
Definition with_x (x : zt) : string -> option zt := fun y => if String.eqb y "X" then Some x else None.

(** [2, 1, 3] to [1, 2, 3]; the last index is given as -1. *)
Definition nodes213 := graph_of [((1, "g0"), "u0"); ((0, "g1"), "u1"); ((3, "g2"), "u2")].
Definition x213 : zt := mkT [2; 1; 3] [1; 2; 3; 4; 5; 6]%Z.
Definition nodes213' := removelast nodes213 ++
  [mkNode "Transpose" "reshape" [dyn "X"] [dyn "Y"] [("perm", AInts [1; 0; 2]%Z)]].


Lemma dyn_one static ef l : (forall n, In n l -> forall i, nth_error (ninputs n) 0 = Some i -> asrc i = VDynamic) ->
  (forall n i, In n l -> ntype n = "Shape" -> In i (ninputs n) -> asrc i = VDynamic) -> one_value_per_name static l ef.
Proof.
  intros H1 H2 n m i j Hn Tn Hi Hm Tm Hj E. unfold arg_eval. rewrite (H1 m Hm j Hj), (H2 n i Hn Tn Hi), E. reflexivity.
Qed.

(** Facts about one of the graphs, by looking at its nodes. *)
Ltac look := repeat match goal with H : In _ _ |- _ => cbn in H; repeat (destruct H as [H|H]); try contradiction; progress subst end.

Example C35_pass_used : exists ef, run demo_sem data_of (with_x x213) nodes213 = Some ef /\
  run demo_sem data_of (with_x x213) nodes213' = Some ef /\ ef "Y" = Some (mkT [1; 2; 3] [1; 2; 3; 4; 5; 6]%Z).
Proof.
  destruct (run demo_sem data_of (with_x x213) nodes213) as [ef|] eqn:E; [|vm_compute in E; discriminate].
  assert (Ex : ef "X" = Some x213) by (vm_compute in E; injection E as <-; reflexivity).
  exists ef. split; [reflexivity|]. split; [|vm_compute in E; injection E as <-; reflexivity].
  apply (C35_pass_partial scalar_of demo_sem data_of nodes213 nodes213' (with_x x213) ef).
  - exact demo_laws.
  - split; [cbn; repeat constructor; cbn; intuition discriminate|]. intros x Hx. cbn in Hx. intuition (subst; reflexivity).
  - intros n i Hn Hi. look; cbn; try exact I; intros Hc; cbn in Hc; intuition discriminate.
  - intros n Hn T. look; cbn in T; try discriminate. reflexivity.
  - exact E.
  - intros n i z Hn T Hi Hz. look; cbn in T; try discriminate; cbn in Hi; injection Hi as <-; cbn in Hz; injection Hz as <-;
      cbn; eexists; split; reflexivity.
  - apply dyn_one.
    + intros n Hn i Hi. look; cbn in Hi; injection Hi as <-; reflexivity.
    + intros n i Hn T Hi. look; cbn in T; try discriminate; reflexivity.
  - vm_compute. reflexivity.
  - intros n n' p x v Hin Tn Tn' Ha Hx Hv. cbn in Hin.
    repeat (destruct Hin as [Hin|Hin]; [injection Hin as <- <-; cbn in Tn; try discriminate|]); [|contradiction].
    cbn in Ha. injection Ha as <-. cbn in Hx. injection Hx as <-. unfold arg_eval in Hv. cbn in Hv. rewrite Ex in Hv.
    injection Hv as <-. repeat split; [repeat constructor; lia|]. cbn. repeat constructor; lia.
Qed.

(** ** C35, refuted *)

(** [2, 3] to [3, 2]: the Reshape keeps 1 2 3 4 5 6, the Transpose that
    replaces it gives 1 4 2 5 3 6. *)
Definition nodes32 := graph_of [((1, "g0"), "u0"); ((0, "g1"), "u1")].
Definition x23 : zt := mkT [2; 3] [1; 2; 3; 4; 5; 6]%Z.
Theorem C35_refuted : exists nodes nodes' (e ef ef' : string -> option zt),
  shape_laws demo_sem /\ ssa e nodes /\ names_apart nodes /\ whole_shapes nodes /\
  run demo_sem data_of e nodes = Some ef /\ single_indices scalar_of data_of nodes ef /\ one_value_per_name data_of nodes ef /\
  simplify_permute_reshape scalar_of nodes = Some nodes' /\
  run demo_sem data_of e nodes' = Some ef' /\
  ef "Y" = Some (mkT [3; 2] [1; 2; 3; 4; 5; 6]%Z) /\ ef' "Y" = Some (mkT [3; 2] [1; 4; 2; 5; 3; 6]%Z).
Proof.
  exists nodes32, (removelast nodes32 ++ [mkNode "Transpose" "reshape" [dyn "X"] [dyn "Y"] [("perm", AInts [1; 0]%Z)]]), (with_x x23).
  destruct (run demo_sem data_of (with_x x23) nodes32) as [ef|] eqn:E; [|vm_compute in E; discriminate].
  destruct (run demo_sem data_of (with_x x23) (removelast nodes32 ++ [mkNode "Transpose" "reshape" [dyn "X"] [dyn "Y"] [("perm", AInts [1; 0]%Z)]]))
    as [ef'|] eqn:E'; [|vm_compute in E'; discriminate].
  exists ef, ef'. split; [exact demo_laws|]. split.
  { split; [cbn; repeat constructor; cbn; intuition discriminate|]. intros x Hx. cbn in Hx. intuition (subst; reflexivity). }
  split; [intros n i Hn Hi; look; cbn; try exact I; intros Hc; cbn in Hc; intuition discriminate|].
  split; [intros n Hn T; look; cbn in T; try discriminate; reflexivity|].
  split; [reflexivity|]. split.
  { intros n i z Hn T Hi Hz. look; cbn in T; try discriminate; cbn in Hi; injection Hi as <-; cbn in Hz; injection Hz as <-;
      cbn; eexists; split; reflexivity. }
  split.
  { apply dyn_one.
    - intros n Hn i Hi. look; cbn in Hi; injection Hi as <-; reflexivity.
    - intros n i Hn T Hi. look; cbn in T; try discriminate; reflexivity. }
  split; [vm_compute; reflexivity|]. split; [reflexivity|].
  split; [vm_compute in E; injection E as <-; reflexivity|vm_compute in E'; injection E' as <-; reflexivity].
Qed.
Print Assumptions C35_refuted.

(** The number of indices is not compared with the rank of the data: the same
    nodes on data of shape [2, 3, 1], which the Reshape turns into [3, 2], are
    replaced by a Transpose that has no result. *)
Definition x231 : zt := mkT [2; 3; 1] [1; 2; 3; 4; 5; 6]%Z.
Theorem C35_rank_refuted : exists nodes' (ef : string -> option zt),
  simplify_permute_reshape scalar_of nodes32 = Some nodes' /\
  run demo_sem data_of (with_x x231) nodes32 = Some ef /\ ef "Y" = Some (mkT [3; 2] [1; 2; 3; 4; 5; 6]%Z) /\
  exists n', In n' nodes' /\ ntype n' = "Transpose" /\ nattrs n' = [("perm", AInts [1; 0]%Z)] /\
    map aname (noutputs n') = ["Y"] /\
    (forall r : zt, ~ transposed (positions [1; 0]%Z) x231 r).
Proof.
  exists (removelast nodes32 ++ [mkNode "Transpose" "reshape" [dyn "X"] [dyn "Y"] [("perm", AInts [1; 0]%Z)]]).
  destruct (run demo_sem data_of (with_x x231) nodes32) as [ef|] eqn:E; [|vm_compute in E; discriminate].
  exists ef. split; [vm_compute; reflexivity|]. split; [reflexivity|].
  split; [vm_compute in E; injection E as <-; reflexivity|].
  eexists. split; [apply in_or_app; right; left; reflexivity|]. repeat split; try reflexivity.
  intros r [Hp _]. apply Permutation_length in Hp. cbn in Hp. discriminate.
Qed.
Print Assumptions C35_rank_refuted.

(** A shape where the order stays and one where it does not. *)
Example C35_equal_used : in_order [1; 0; 2]%nat [2; 1; 3] /\ ~ in_order [1; 0]%nat [2; 3].
Proof.
  split; [cbn; repeat constructor; lia|]. intros H. cbn in H. inversion H as [|? ? _ Hf]; subst. inversion Hf; lia.
Qed.
