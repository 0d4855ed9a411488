(** C55 and C56: the code emitted for operators that move, select and join the
    elements of tensors, alone and in a program. *)
From Coq Require Import Lia ZifyBool ZifyNat ZifyN.
From Verif Require Import ShapeRun_Spec ShapeRun_Model ShapeRun_Proofs Index_Spec.
From Verif Require Import TensorRun_Spec TensorRun_Model TensorRun_Nodes.
Import Tensor_Spec BinOps_Spec RankOps_Spec ShapeRun_Spec Permute_Spec TensorRun_Spec.
Open Scope string_scope.
Open Scope list_scope.
Open Scope Z_scope.

Notation known value := (fun a => constant_of value a <> None).

(** ** C55: one node *)

(** Whatever the shapes, the elements and the attributes: when the inputs of a
    node hold the values of an ONNX execution, the statement emitted for the
    node runs, and its results are values of the recorded types standing for
    the ONNX results.  Missing: the nodes outside [covered_any], some of which
    fail below; the others are not modelled. *)
Theorem C55_statement_partial : forall value opset n ins outs e,
  Forall2 (given value e) (ninputs n) ins -> covered_any (known value) n ins outs -> onnx_any_node n ins outs ->
  length outs = length (noutputs n) -> infer_any value opset n = IOk (map aty (noutputs n)) ->
  exists s vs, gen_any value opset n = Some s /\ texec e s = Some vs /\ all_stand (noutputs n) vs outs.
Proof. intros value opset n ins outs e G C O L T. exact (any_all value opset n e ins outs G C O L T). Qed.
Print Assumptions C55_statement_partial.

(** Every such node whose attributes are those of the operator is accepted, and
    recorded as a tensor of the same element type and of rank four ([opset]
    admits the mode, and the input's shape, where recorded, has four entries). *)
Theorem C55_blocks_accepted : forall value opset n a t b,
  ntype n = "DepthToSpace" /\ (forall kv, In kv (nattrs n) -> fst kv = "blocksize" \/ fst kv = "mode") /\
    (get_attr n "mode" = None \/ get_attr n "mode" = Some (AString "DCR") \/ get_attr n "mode" = Some (AString "CRD") /\ (11 <= opset)%N) \/
  ntype n = "SpaceToDepth" /\ (forall kv, In kv (nattrs n) -> fst kv = "blocksize") ->
  ninputs n = [a] -> aty a = TensorT t -> tt_rank t = 4%N -> match tt_shape t with Some l => length l = 4%nat | None => True end ->
  get_attr n "blocksize" = Some (AInt b) -> 0 < b <= i64_max ->
  exists t', infer_any value opset n = IOk [TensorT t'] /\ tt_dtype t' = tt_dtype t /\ tt_rank t' = 4%N.
Proof.
  intros value opset n a t b H Hi Ha Hr Hs Hb Hp. unfold infer_any.
  assert (B : block_size n = IOk (Z.to_N b)) by (unfold block_size; rewrite Hb; f_equal; unfold to_usize; rewrite Z.mod_small; [reflexivity|unfold i64_max in Hp; lia]).
  assert (B0 : (Z.to_N b =? 0)%N = false) by lia.
  assert (I : first_input n = IOk a) by (unfold first_input; rewrite Hi; reflexivity).
  destruct H as [(Ht & Hk & Hm)|(Ht & Hk)]; rewrite Ht; cbn [String.eqb Ascii.eqb Bool.eqb]; cbv beta iota delta [String.eqb Ascii.eqb Bool.eqb].
  - assert (K : only_attrs n ["blocksize"; "mode"] = true).
    { unfold only_attrs. apply forallb_forall. intros kv Hkv. destruct (Hk kv Hkv) as [->| ->]; reflexivity. }
    assert (M : exists crd, depth_mode n = IOk crd /\ negb (negb (crd && (opset <? 11)%N)) = false).
    { unfold depth_mode. destruct Hm as [->|[->|[-> Ho]]]; [exists false|exists false|exists true]; (split; [reflexivity|]); [reflexivity|reflexivity|]. cbn. destruct (N.ltb_spec opset 11); [lia|reflexivity]. }
    destruct M as (crd & M & M'). unfold infer_depth, infer_blocks. rewrite K, B, M. cbn [ibind]. rewrite I. cbn [ibind]. rewrite M', B0, Ha, Hr. cbn.
    destruct (tt_shape t) as [[|b1 [|c [|h [|w [|]]]]]|]; try discriminate Hs; eexists; (split; [reflexivity|]); split; reflexivity.
  - assert (K : only_attrs n ["blocksize"] = true).
    { unfold only_attrs. apply forallb_forall. intros kv Hkv. rewrite (Hk kv Hkv). reflexivity. }
    unfold infer_space, infer_blocks. rewrite K, B. cbn [ibind]. rewrite I. cbn [ibind]. rewrite B0, Ha, Hr. cbn.
    destruct (tt_shape t) as [[|b1 [|c [|h [|w [|]]]]]|]; try discriminate Hs; eexists; (split; [reflexivity|]); split; reflexivity.
Qed.
Print Assumptions C55_blocks_accepted.

(** ** C56: a straight-line graph *)

(** The whole program, with nodes on tensors, on shapes and on scalars: if the
    graph runs, its arguments have the types recorded for their names, and the
    variables of the program hold the graph's inputs (and the constants kept in
    variables, which no node overwrites), then code is emitted for every node,
    it runs to the end, and every value of the graph is held by the variable
    of its name. *)
Theorem C56_program_partial : forall value opset ty ns oe oe' e,
  runs_any (constant_of value) (fun n ins outs => onnx_any_node n ins outs /\ covered_any (known value) n ins outs) ns oe oe' ->
  (forall a, In a (flat_map ninputs ns) -> run_time a -> aty a = ty (aname a)) ->
  (forall o, In o (flat_map noutputs ns) -> aty o = ty (aname o)) ->
  (forall n, In n ns -> infer_any value opset n = IOk (map aty (noutputs n))) ->
  (forall a c, In a (flat_map ninputs ns) -> constant_of value a = Some c ->
      (twf (snd c) /\ Forall (in_dtype (fst c)) (tdata (snd c))) /\
      (run_time a -> oe (aname a) = Some c /\ ~ In (aname a) (map aname (flat_map noutputs ns)))) ->
  holds ty oe e ->
  exists p e', gen_program value opset ns = Some p /\ exec_program p e = Some e' /\ holds ty oe' e'.
Proof. intros value opset ty ns oe oe' e R Ti To Hi Hc Hh. exact (program_ok value opset ty ns oe oe' R Ti To Hi Hc e Hh). Qed.
Print Assumptions C56_program_partial.

(** *** A graph that meets the hypotheses: [x] is tiled, split in two along the
    second axis; the first part is summed up along its rows; the row [i] of
    that is expanded to the shape of the second part. *)
Definition var (x : string) (t : argty) : arg := mkArg x t VDynamic.
Definition const (x : string) (t : argty) : arg := mkArg x t (VStatic 0).
Definition i64t (r : N) : argty := TensorT (mkTT I64 r None).
Definition c_values (a : arg) : option cval :=
  if String.eqb (aname a) "reps" then Some (mkC [2%N] I64 (Some [1; 2]))
  else if String.eqb (aname a) "axis" then Some (mkC [] I64 (Some [-1]))
  else None.
Definition n_tile := mkNode "Tile" "n1" [var "x" (i64t 2); const "reps" (TensorT (mkTT I64 1 (Some [Some 2%N])))] [var "t" (i64t 2)] [].
Definition n_split := mkNode "Split" "n2" [var "t" (i64t 2)] [var "a" (i64t 2); var "b" (i64t 2)] [("axis", AInt 1); ("num_outputs", AInt 2)].
Definition n_cumsum := mkNode "CumSum" "n3" [var "a" (i64t 2); const "axis" (ScalarNative I64)] [var "c" (i64t 2)] [].
Definition n_gather := mkNode "Gather" "n4" [var "c" (i64t 2); var "i" (ScalarNative I64)] [var "g" (i64t 1)] [].
Definition n_shape := mkNode "Shape" "n5" [var "b" (i64t 2)] [var "s" (ShapeT 2)] [].
Definition n_expand := mkNode "Expand" "n6" [var "g" (i64t 1); var "s" (ShapeT 2)] [var "y" (i64t 2)] [].
Definition example_graph : list rnode := [n_tile; n_split; n_cumsum; n_gather; n_shape; n_expand].
Definition types (x : string) : argty :=
  if String.eqb x "i" then ScalarNative I64 else if String.eqb x "g" then i64t 1 else if String.eqb x "s" then ShapeT 2 else i64t 2.
Definition mat (l : list Z) : tensor elt := mkT [2; 2]%N (map EI l).
Definition inputs : oenv := bind (bind (fun _ => None) "x" (I64, mat [1; 2; 3; 4])) "i" (I64, mkT [] [EI 1]).
Definition start : renv := bind (bind (fun _ => None) "x" (RTensor (mat [1; 2; 3; 4]))) "i" (RNative (EI 1)).

Ltac tensor_arg := split; [reflexivity|]; split; [cbn; unfold i64_max; lia|]; eexists; split; reflexivity.
Ltac integer := do 2 eexists; split; [reflexivity|split; discriminate].

Example C56_runs : exists oe',
  runs_any (constant_of c_values) (fun n ins outs => onnx_any_node n ins outs /\ covered_any (known c_values) n ins outs) example_graph inputs oe' /\
  oe' "y" = Some (I64, mat [3; 7; 3; 7]).
Proof.
  eexists. split.
  - eapply ra_cons; [reflexivity|split| |].
    { eapply (an_tile n_tile I64 (mat [1; 2; 3; 4]) _ [1; 2]); vm_compute; reflexivity. }
    { eapply (ca_tile _ n_tile _ _ _ (mat [1; 2; 3; 4]) _ [1; 2]); try reflexivity; [tensor_arg|discriminate|repeat constructor]. }
    { reflexivity. }
    eapply ra_cons; [reflexivity|split| |].
    { eapply (an_split n_split I64 _ [] 1 [2; 2]%N); [reflexivity|reflexivity| |vm_compute; reflexivity].
      split; [right; reflexivity|]. split; [discriminate|]. left. split; reflexivity. }
    { eapply ca_split; try reflexivity; [tensor_arg|constructor|discriminate|right; reflexivity| | |].
      - split; [reflexivity|discriminate].
      - repeat constructor; unfold i64_max; lia.
      - repeat constructor; discriminate. }
    { reflexivity. }
    eapply ra_cons; [reflexivity|split| |].
    { eapply (an_cumsum n_cumsum I64 (mat [1; 2; 3; 4]) I64 (mkT [] [EI (-1)]) (-1) false false); try reflexivity; left; reflexivity. }
    { eapply (ca_cumsum _ n_cumsum _ _ I64 (mat [1; 2; 3; 4]) _ (-1)); try reflexivity; [tensor_arg|discriminate|].
      intros [] []; eexists; vm_compute; reflexivity. }
    { reflexivity. }
    eapply ra_cons; [reflexivity|split| |].
    { eapply an_one, (on_gather n_gather I64 (mat [1; 3; 3; 7]) I64 (mkT [] [EI 1]) 0); try reflexivity; try (left; reflexivity); vm_compute; reflexivity. }
    { eapply (ca_gather _ n_gather _ _ I64 (mat [1; 3; 3; 7]) I64 (mkT [] [EI 1]) 0); try reflexivity; [tensor_arg|].
      intros z [H|[]]. injection H as <-. cbn. lia. }
    { reflexivity. }
    eapply ra_cons; [reflexivity|split| |].
    { eapply an_one, (on_shape n_shape I64 (mat [1; 2; 3; 4]) 0 2); reflexivity. }
    { eapply ca_shapes; [eapply (on_shape n_shape I64 (mat [1; 2; 3; 4]) 0 2); reflexivity|].
      eapply (cov_shape _ n_shape _ _ _ _ 0 2); try reflexivity; cbn; try lia. repeat constructor; lia. }
    { reflexivity. }
    eapply ra_cons; [reflexivity|split| |].
    { eapply (an_expand n_expand I64 _ _ [2; 2]); vm_compute; reflexivity. }
    { eapply (ca_expand _ n_expand _ _ I64 _ _ [2; 2]); try reflexivity; [tensor_arg|right; split; [reflexivity|eexists; reflexivity]|cbn; lia|discriminate]. }
    { reflexivity. }
    apply ra_nil.
  - vm_compute. reflexivity.
Qed.
Example C56_hypotheses :
  (forall a, In a (flat_map ninputs example_graph) -> run_time a -> aty a = types (aname a)) /\
  (forall o, In o (flat_map noutputs example_graph) -> aty o = types (aname o)) /\
  (forall n, In n example_graph -> infer_any c_values 13 n = IOk (map aty (noutputs n))) /\
  (forall a c, In a (flat_map ninputs example_graph) -> constant_of c_values a = Some c ->
      (twf (snd c) /\ Forall (in_dtype (fst c)) (tdata (snd c))) /\
      (run_time a -> inputs (aname a) = Some c /\ ~ In (aname a) (map aname (flat_map noutputs example_graph)))) /\
  holds types inputs start /\
  exists p e', gen_program c_values 13 example_graph = Some p /\ exec_program p start = Some e' /\ e' "y" = Some (RTensor (mat [3; 7; 3; 7])).
Proof.
  split; [|split; [|split; [|split; [|split]]]].
  - intros a H R. cbn in H. repeat destruct H as [<- | H]; try reflexivity; try contradiction.
  - intros a H. cbn in H. repeat destruct H as [<- | H]; try reflexivity; try contradiction.
  - intros n H. cbn in H. repeat destruct H as [<- | H]; try reflexivity; contradiction.
  - intros a c H Hc. cbn in H. repeat destruct H as [<- | H]; try contradiction; try discriminate Hc; injection Hc as <-.
    all: split; [split; [reflexivity|repeat (apply Forall_cons; [integer|]); apply Forall_nil]|intros []].
  - intros x t H. unfold inputs, start, bind in *. destruct (String.eqb_spec x "i") as [->|].
    + injection H as <-. eexists. split; [reflexivity|]. split; [reflexivity|]. split; [repeat (apply Forall_cons; [integer|]); apply Forall_nil|split; reflexivity].
    + destruct (String.eqb_spec x "x") as [->|]; [|discriminate H]. injection H as <-. eexists. split; [reflexivity|].
      split; [reflexivity|]. split; [repeat (apply Forall_cons; [integer|]); apply Forall_nil|repeat split; discriminate].
  - eexists _, _. split; [reflexivity|]. split; vm_compute; reflexivity.
Qed.

(** ** What [covered_any] leaves out *)

(** The statement without it is false in these two ways; both rest on what is
    assumed of Burn in TensorRun_Model ([reshape] has two generic parameters,
    [split_with_sizes] skips empty parts). *)
Definition fails (n : rnode) (ins outs : list otensor) (e : renv) : Prop :=
  Forall2 (given c_values e) (ninputs n) ins /\ onnx_any_node n ins outs /\ length outs = length (noutputs n) /\
  infer_any c_values 13 n = IOk (map aty (noutputs n)) /\
  ~ exists s vs, gen_any c_values 13 n = Some s /\ texec e s = Some vs /\ all_stand (noutputs n) vs outs.
Ltac ints := repeat (apply Forall_cons; [integer|]); apply Forall_nil.
Ltac given_tensor := split; [discriminate|]; split; [split; [reflexivity|ints]|]; intros _; eexists; split; [reflexivity|]; split; [reflexivity|]; split; [ints|repeat split; discriminate].

(** Flatten at axis 0: the emitted call does not compile. *)
Theorem C55_flatten_refuted : exists n ins outs e, ntype n = "Flatten" /\ fails n ins outs e.
Proof.
  exists (mkNode "Flatten" "n" [var "x" (i64t 2)] [var "y" (TensorT (mkTT I64 2 (Some [None; None])))] [("axis", AInt 0)]), [(I64, mat [1; 2; 3; 4])],
    [(I64, mkT [1; 4]%N (map EI [1; 2; 3; 4]))], (bind (fun _ => None) "x" (RTensor (mat [1; 2; 3; 4]))).
  split; [reflexivity|]. split; [constructor; [given_tensor|constructor]|]. split; [|split; [reflexivity|split; [reflexivity|]]].
  - eapply (an_flatten _ I64 (mat [1; 2; 3; 4]) 0 [1; 4]%N); [reflexivity|reflexivity|]. vm_compute. intuition congruence.
  - intros (s & vs & G & E & _). vm_compute in G. injection G as <-. discriminate E.
Qed.
(** Split with an empty part: the list of parts is too short. *)
Theorem C55_split_refuted : exists n ins outs e, ntype n = "Split" /\ fails n ins outs e.
Proof.
  exists (mkNode "Split" "n" [var "x" (i64t 2)] [var "y" (i64t 2); var "z" (i64t 2)] [("split", AInts [0; 2])]), [(I64, mat [1; 2; 3; 4])],
    [(I64, mkT [0; 2]%N []); (I64, mat [1; 2; 3; 4])], (bind (fun _ => None) "x" (RTensor (mat [1; 2; 3; 4]))).
  split; [reflexivity|]. split; [constructor; [given_tensor|constructor]|]. split; [|split; [reflexivity|split; [reflexivity|]]].
  - eapply (an_split _ I64 (mat [1; 2; 3; 4]) [] 0 [0; 2]%N [mkT [0; 2]%N []; mat [1; 2; 3; 4]]); try reflexivity. split; [repeat constructor; discriminate|reflexivity].
  - intros (s & vs & G & E & _). vm_compute in G. injection G as <-. vm_compute in E. discriminate E.
Qed.
