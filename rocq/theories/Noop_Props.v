(** C29, C31: property theorems only. *)
From Verif Require Import IR_Model IR_Spec IR_Proofs Passes_Spec Noop_Model Noop_Spec Noop_Proofs.

(* ------------------------------------------------------------------ *)
(** * C29 *)

(** Removing no-ops keeps the value of every graph output: whatever the
    operators mean, provided that in this execution the removed nodes copy
    their first input; for every iteration order of the hash maps.  What is
    missing from the full statement are the three side conditions
    [extra_outputs_unread], [no_capture] and "the copied input is a named
    value" (inside [noops_copy]); the theorems ending in _refuted show that
    the first two cannot be dropped. *)
Theorem C29_noop_removal_partial : forall V
  (sem : string -> list (string * attr) -> nat -> list (option V) -> option (list V))
  (static : N -> option V) is_noop nodes outputs onnx_names (inputs ef : string -> option V)
  rewire removed order nodes' outputs',
  ssa inputs nodes -> well_named nodes -> outputs_by_name nodes ->
  run sem static inputs nodes = Some ef ->
  noops_copy is_noop nodes ef ->
  extra_outputs_unread is_noop nodes outputs ->
  no_capture is_noop nodes onnx_names ef ->
  (forall g, In g outputs -> ef (aname g) <> None) ->
  plan_noop_elimination is_noop nodes onnx_names = Some (rewire, removed) ->
  iterates order rewire ->
  apply_noop_elimination nodes outputs rewire order removed = (nodes', outputs') ->
  exists e2, run sem static inputs nodes' = Some e2 /\
    Forall2 (fun o o' => e2 (aname o') = ef (aname o)) outputs outputs'.
Proof.
  exact (fun V sem static is_noop nodes outputs onnx_names inputs ef rewire removed order nodes' outputs'
    h1 h2 h3 h4 h5 h6 h7 h8 h9 h10 h11 =>
    proj1 (noop_main sem static is_noop nodes outputs onnx_names inputs ef rewire removed order
      h1 h2 h3 h4 h5 h6 h7 h8 h9 h10 nodes' outputs' h11)).
Qed.
Print Assumptions C29_noop_removal_partial.

(** No surviving node and no graph output reads a value of a removed node. *)
Theorem C29_removed_values_unread_partial : forall V
  (sem : string -> list (string * attr) -> nat -> list (option V) -> option (list V))
  (static : N -> option V) is_noop nodes outputs onnx_names (inputs ef : string -> option V)
  rewire removed order nodes' outputs',
  ssa inputs nodes -> well_named nodes -> outputs_by_name nodes ->
  run sem static inputs nodes = Some ef ->
  noops_copy is_noop nodes ef ->
  extra_outputs_unread is_noop nodes outputs ->
  no_capture is_noop nodes onnx_names ef ->
  (forall g, In g outputs -> ef (aname g) <> None) ->
  plan_noop_elimination is_noop nodes onnx_names = Some (rewire, removed) ->
  iterates order rewire ->
  apply_noop_elimination nodes outputs rewire order removed = (nodes', outputs') ->
  forall a, (exists n, In n nodes' /\ In a (ninputs n)) \/ In a outputs' ->
  forall r, In r nodes -> is_noop r = true -> ninputs r <> [] -> ~ In (aname a) (map aname (noutputs r)).
Proof.
  exact (fun V sem static is_noop nodes outputs onnx_names inputs ef rewire removed order nodes' outputs'
    h1 h2 h3 h4 h5 h6 h7 h8 h9 h10 h11 =>
    proj1 (proj2 (noop_main sem static is_noop nodes outputs onnx_names inputs ef rewire removed order
      h1 h2 h3 h4 h5 h6 h7 h8 h9 h10 nodes' outputs' h11))).
Qed.
Print Assumptions C29_removed_values_unread_partial.

(** Exactly the no-ops (with at least one input) disappear; the others keep
    their order, name, type, outputs and attributes. *)
Theorem C29_only_noops_removed_partial : forall V
  (sem : string -> list (string * attr) -> nat -> list (option V) -> option (list V))
  (static : N -> option V) is_noop nodes outputs onnx_names (inputs ef : string -> option V)
  rewire removed order nodes' outputs',
  ssa inputs nodes -> well_named nodes -> outputs_by_name nodes ->
  run sem static inputs nodes = Some ef ->
  noops_copy is_noop nodes ef ->
  extra_outputs_unread is_noop nodes outputs ->
  no_capture is_noop nodes onnx_names ef ->
  (forall g, In g outputs -> ef (aname g) <> None) ->
  plan_noop_elimination is_noop nodes onnx_names = Some (rewire, removed) ->
  iterates order rewire ->
  apply_noop_elimination nodes outputs rewire order removed = (nodes', outputs') ->
  map (fun n => (nname n, ntype n, noutputs n, nattrs n)) nodes' =
  map (fun n => (nname n, ntype n, noutputs n, nattrs n))
      (filter (fun n => negb (is_noop n && negb (match ninputs n with [] => true | _ => false end))%bool) nodes).
Proof.
  exact (fun V sem static is_noop nodes outputs onnx_names inputs ef rewire removed order nodes' outputs'
    h1 h2 h3 h4 h5 h6 h7 h8 h9 h10 h11 =>
    proj2 (proj2 (noop_main sem static is_noop nodes outputs onnx_names inputs ef rewire removed order
      h1 h2 h3 h4 h5 h6 h7 h8 h9 h10 nodes' outputs' h11))).
Qed.
Print Assumptions C29_only_noops_removed_partial.

Open Scope string_scope.
Open Scope list_scope.
Definition t1 : argty := TensorT (mkTT I64 1%N None).
Definition dyn x := mkArg x t1 VDynamic.
Definition nd ty nm ins outs := mkNode ty nm (map dyn ins) (map dyn outs) [].
(** A small semantics: Identity and Dropout copy, Neg negates; Dropout's mask is 1. *)
Definition ssem (t : string) (_ : list (string * attr)) (k : nat) (vs : list (option Z)) : option (list Z) :=
  match t, vs with
  | "Identity", [Some v] => Some [v]
  | "Neg", [Some v] => Some [(- v)%Z]
  | "Dropout", [Some v] => Some (match k with 1 => [v] | _ => [v; 1%Z] end)
  | "Add", [Some v; Some w] => Some [(v + w)%Z]
  | _, _ => None
  end.
Definition env1 (v : Z) : string -> option Z := fun n => if String.eqb n "x" then Some v else None.
Definition noop_ty (n : rnode) : bool := mem_str (ntype n) ["Identity"; "Dropout"].

(** A chain of two no-ops with fan-out. *)
Definition chain_example : list rnode :=
  [ nd "Neg" "neg1" ["x"] ["neg1_out1"];
    nd "Identity" "identity1" ["neg1_out1"] ["identity1_out1"];
    nd "Dropout" "dropout1" ["identity1_out1"] ["dropout1_out1"];
    nd "Add" "add1" ["dropout1_out1"; "identity1_out1"] ["add1_out1"] ].
Definition chain_names : output_map :=
  [("a", (0, 0)); ("b", (1, 0)); ("c", (2, 0)); ("d", (3, 0))].
Definition chain_rewire : smap string :=
  [("c", "identity1_out1"); ("dropout1_out1", "identity1_out1"); ("b", "neg1_out1"); ("identity1_out1", "neg1_out1")].
Ltac in_cases := cbn in *; repeat match goal with
  | H : _ \/ _ |- _ => destruct H as [H|H]
  | H : False |- _ => destruct H
  | H : _ = ?x |- _ => is_var x; subst x
  end.
Example C29_hypotheses_met : forall v,
  exists ef, ssa (env1 v) chain_example /\ well_named chain_example /\ outputs_by_name chain_example /\
  run ssem (fun _ => None) (env1 v) chain_example = Some ef /\
  noops_copy noop_ty chain_example ef /\
  extra_outputs_unread noop_ty chain_example [dyn "add1_out1"; dyn "dropout1_out1"] /\
  no_capture noop_ty chain_example chain_names ef /\
  plan_noop_elimination noop_ty chain_example chain_names = Some (chain_rewire, [2; 1]) /\
  iterates chain_rewire chain_rewire /\
  map (fun n => (nname n, map aname (ninputs n)))
    (fst (apply_noop_elimination chain_example [dyn "add1_out1"; dyn "dropout1_out1"] chain_rewire chain_rewire [2; 1]))
    = [("neg1", ["x"]); ("add1", ["neg1_out1"; "neg1_out1"])].
Proof.
  intros v. eexists. split; [|split; [|split; [|split; [reflexivity|split; [|split; [|split; [|split; [|split]]]]]]]].
  - split.
    + repeat constructor; cbn; intuition discriminate.
    + cbn. intros x H. unfold env1. destruct (String.eqb_spec x "x") as [->|]; [|reflexivity].
      exfalso. intuition discriminate.
  - intros n H. in_cases; cbn; split; intros i Hi; in_cases; cbn; discriminate.
  - intros n o H Ho. in_cases; cbn in Ho; in_cases; right; reflexivity.
  - intros n i is o os H Hn Hi Ho. in_cases; try discriminate; cbn in Hi, Ho;
      injection Hi as <- <-; injection Ho as <- <-; split; try (right; reflexivity); reflexivity.
  - intros n o os x H Hn _ Ho Hx. in_cases; try discriminate; cbn in Ho; injection Ho as <- <-; destruct Hx.
  - intros k idx n H Hn Hno. cbn in H.
    repeat (destruct H as [H|H]; [injection H as <- <-; cbn in Hn; injection Hn as <-; try discriminate;
      (split; [discriminate|right; reflexivity])|]). destruct H.
  - reflexivity.
  - split.
    + repeat constructor; cbn; intuition discriminate.
    + intros k w. split.
      * cbn. intros H. repeat (destruct H as [H|H]; [injection H as <- <-; reflexivity|]). destruct H.
      * apply sget_In.
  - reflexivity.
Qed.

(** The mask of a Dropout is dropped although it is read: the graph runs
    before the removal and does not run after it. *)
Definition mask_example : list rnode :=
  [ nd "Dropout" "dropout1" ["x"] ["dropout1_out1"; "dropout1_out2"];
    nd "Add" "add1" ["dropout1_out1"; "dropout1_out2"] ["add1_out1"] ].
Theorem C29_second_output_lost_refuted :
  exists nodes outputs names rewire removed nodes' outputs' ef,
    ssa (env1 5) nodes /\ well_named nodes /\ outputs_by_name nodes /\
    run ssem (fun _ => None) (env1 5) nodes = Some ef /\
    noops_copy noop_ty nodes ef /\ no_capture noop_ty nodes names ef /\
    (forall g, In g outputs -> ef (aname g) <> None) /\
    plan_noop_elimination noop_ty nodes names = Some (rewire, removed) /\ iterates rewire rewire /\
    apply_noop_elimination nodes outputs rewire rewire removed = (nodes', outputs') /\
    run ssem (fun _ => None) (env1 5) nodes' = None.
Proof.
  exists mask_example, [dyn "add1_out1"], [("b", (0, 0)); ("m", (0, 1)); ("c", (1, 0))],
    [("b", "x"); ("dropout1_out1", "x")], [0]. do 3 eexists.
  split; [|split; [|split; [|split; [reflexivity|split; [|split; [|split; [|split; [reflexivity|split; [|split; [reflexivity|reflexivity]]]]]]]]]].
  - split.
    + repeat constructor; cbn; intuition discriminate.
    + cbn. intros x H. unfold env1. destruct (String.eqb_spec x "x") as [->|]; [|reflexivity].
      exfalso. intuition discriminate.
  - intros n H. in_cases; cbn; split; intros i Hi; in_cases; cbn; discriminate.
  - intros n o H Ho. in_cases; cbn in Ho; in_cases; right; reflexivity.
  - intros n i is o os H Hn Hi Ho. in_cases; try discriminate; cbn in Hi, Ho;
      injection Hi as <- <-; injection Ho as <- <-; split; try (right; reflexivity); reflexivity.
  - intros k idx n H Hn Hno. cbn in H.
    repeat (destruct H as [H|H]; [injection H as <- <-; try discriminate; cbn in Hn; injection Hn as <-; try discriminate;
      (split; [discriminate|right; reflexivity])|]). destruct H.
  - intros g H. in_cases. vm_compute. discriminate.
  - split.
    + repeat constructor; cbn; intuition discriminate.
    + intros k w. split.
      * cbn. intros H. repeat (destruct H as [H|H]; [injection H as <- <-; reflexivity|]). destruct H.
      * apply sget_In.
Qed.
Print Assumptions C29_second_output_lost_refuted.

(** The ONNX file calls the result of an Identity "neg1_out1", which is also
    the name that the importer generates for the Neg node: readers of the Neg
    are rewired to the Identity's input, and the graph output changes. *)
Definition capture_example : list rnode :=
  [ nd "Neg" "neg1" ["x"] ["neg1_out1"];
    nd "Identity" "identity1" ["x"] ["identity1_out1"];
    nd "Add" "add1" ["neg1_out1"; "identity1_out1"] ["add1_out1"] ].
Theorem C29_name_capture_refuted :
  exists nodes outputs names rewire removed nodes' outputs' ef e2,
    ssa (env1 5) nodes /\ well_named nodes /\ outputs_by_name nodes /\
    NoDup (map fst names) /\
    run ssem (fun _ => None) (env1 5) nodes = Some ef /\
    noops_copy noop_ty nodes ef /\ extra_outputs_unread noop_ty nodes outputs /\
    plan_noop_elimination noop_ty nodes names = Some (rewire, removed) /\ iterates rewire rewire /\
    apply_noop_elimination nodes outputs rewire rewire removed = (nodes', outputs') /\
    run ssem (fun _ => None) (env1 5) nodes' = Some e2 /\
    map (fun o => ef (aname o)) outputs = [Some 0%Z] /\ map (fun o => e2 (aname o)) outputs' = [Some 10%Z].
Proof.
  exists capture_example, [dyn "add1_out1"], [("a", (0, 0)); ("neg1_out1", (1, 0)); ("c", (2, 0))],
    [("neg1_out1", "x"); ("identity1_out1", "x")], [1]. do 4 eexists.
  split; [|split; [|split; [|split; [|split; [reflexivity|split; [|split; [|split; [reflexivity|split;
    [|split; [reflexivity|split; [reflexivity|split; reflexivity]]]]]]]]]]].
  - split.
    + repeat constructor; cbn; intuition discriminate.
    + cbn. intros x H. unfold env1. destruct (String.eqb_spec x "x") as [->|]; [|reflexivity].
      exfalso. intuition discriminate.
  - intros n H. in_cases; cbn; split; intros i Hi; in_cases; cbn; discriminate.
  - intros n o H Ho. in_cases; cbn in Ho; in_cases; right; reflexivity.
  - repeat constructor; cbn; intuition discriminate.
  - intros n i is o os H Hn Hi Ho. in_cases; try discriminate; cbn in Hi, Ho;
      injection Hi as <- <-; injection Ho as <- <-; split; try (right; reflexivity); reflexivity.
  - intros n o os x H Hn _ Ho Hx. in_cases; try discriminate; cbn in Ho; injection Ho as <- <-; destruct Hx.
  - split.
    + repeat constructor; cbn; intuition discriminate.
    + intros k w. split.
      * cbn. intros H. repeat (destruct H as [H|H]; [injection H as <- <-; reflexivity|]). destruct H.
      * apply sget_In.
Qed.
Print Assumptions C29_name_capture_refuted.

(* ------------------------------------------------------------------ *)
(** * C31 *)

(** First pass, on the flat graph: the survivors are, in their original order,
    the nodes that are not constants and the constants that are read. *)
Theorem C31_unreferenced_exact : forall nodes outputs,
  NoDup (flat_map (fun n => map aname (noutputs n)) nodes) -> constants_have_one_output nodes ->
  exists keep, remove_unreferenced_constants nodes outputs = filter keep nodes /\
    forall n, In n nodes ->
      (keep n = true <->
       (ntype n <> "Constant" \/ exists o, In o (noutputs n) /\ read_in nodes outputs (aname o))).
Proof. exact unreferenced_exact. Qed.
Print Assumptions C31_unreferenced_exact.

(** Every value that is read is still produced. *)
Theorem C31_unreferenced_sound : forall nodes outputs x,
  NoDup (flat_map (fun n => map aname (noutputs n)) nodes) -> constants_have_one_output nodes ->
  read_in nodes outputs x -> In x (flat_map (fun n => map aname (noutputs n)) nodes) ->
  In x (flat_map (fun n => map aname (noutputs n)) (remove_unreferenced_constants nodes outputs)).
Proof. exact unreferenced_sound. Qed.
Print Assumptions C31_unreferenced_sound.

(** The graph still runs and its outputs are unchanged. *)
Theorem C31_unreferenced_preserve : forall V
  (sem : string -> list (string * attr) -> nat -> list (option V) -> option (list V))
  (static : N -> option V) nodes outputs (e e' : string -> option V),
  NoDup (flat_map (fun n => map aname (noutputs n)) nodes) -> constants_have_one_output nodes ->
  run sem static e nodes = Some e' ->
  exists e2, run sem static e (remove_unreferenced_constants nodes outputs) = Some e2 /\
    forall g, In g outputs -> by_name g -> e2 (aname g) = e' (aname g).
Proof. exact @unreferenced_run. Qed.
Print Assumptions C31_unreferenced_preserve.

(** Second pass, on the finished graph with its subgraphs: the survivors are
    the nodes that are not constants and the constants for which some argument
    anywhere in the graph is marked as reading a constant of that name. *)
Theorem C31_dead_constants_exact : forall nodes outputs,
  (forall g, In g nodes -> ntype (gbase g) = "Constant" -> exists o, noutputs (gbase g) = [o]) ->
  exists keep, eliminate_dead_constants nodes outputs = filter keep nodes /\
    forall g, In g nodes ->
      (keep g = true <-> (ntype (gbase g) <> "Constant" \/
        exists o, In o (noutputs (gbase g)) /\
          graph_reads (fun a => asrc a = VConstant /\ aname a <> EmptyString) nodes outputs (aname o))).
Proof. exact dead_constants_exact. Qed.
Print Assumptions C31_dead_constants_exact.

(** A constant that is read is kept, provided that no reader is marked as
    reading a computed value.  Missing from the full statement: that proviso,
    which the next theorem shows to be needed. *)
Theorem C31_read_constants_kept_partial : forall nodes outputs,
  (forall g, In g nodes -> ntype (gbase g) = "Constant" -> exists o, noutputs (gbase g) = [o]) ->
  forall g o, In g nodes -> In o (noutputs (gbase g)) -> aname o <> EmptyString ->
  graph_reads by_name nodes outputs (aname o) ->
  ~ graph_reads (fun a => asrc a = VDynamic) nodes outputs (aname o) ->
  In g (eliminate_dead_constants nodes outputs).
Proof. exact dead_constants_sound. Qed.
Print Assumptions C31_read_constants_kept_partial.

Definition cst nm out := mkNode "Constant" nm [mkArg "" t1 (VStatic 0)] [mkArg out t1 VConstant] [].
Definition const_example : list rnode :=
  [ cst "constant1" "constant1_out1"; cst "constant2" "constant2_out1";
    mkNode "Add" "add1" [dyn "x"; mkArg "constant2_out1" t1 VConstant] [dyn "add1_out1"] [] ].
Example C31_hypotheses_met :
  NoDup (flat_map (fun n => map aname (noutputs n)) const_example) /\ constants_have_one_output const_example /\
  read_in const_example [dyn "add1_out1"] "constant2_out1" /\
  map nname (remove_unreferenced_constants const_example [dyn "add1_out1"]) = ["constant2"; "add1"].
Proof.
  repeat split.
  - repeat constructor; cbn; intuition discriminate.
  - intros n H Ht. in_cases; try discriminate; eexists; reflexivity.
  - left. exists (mkNode "Add" "add1" [dyn "x"; mkArg "constant2_out1" t1 VConstant] [dyn "add1_out1"] []),
      (mkArg "constant2_out1" t1 VConstant). cbn. repeat split; auto. left; reflexivity.
Qed.

(** With a subgraph: the constant is read inside the branch of an If. *)
Definition sub_example : list gnode :=
  [ mkG (cst "constant1" "constant1_out1") 0 [];
    mkG (cst "constant2" "constant2_out1") 0 [];
    mkG (mkNode "If" "if1" [dyn "c"; mkArg "constant1_out1" t1 VConstant; mkArg "constant2_out1" t1 VConstant] [dyn "if1_out1"] []) 2
        [([mkG (mkNode "Neg" "neg1" [mkArg "constant1_out1" t1 VConstant] [dyn "neg1_out1"] []) 0 []], [dyn "neg1_out1"])] ].
Example C31_subgraph_example :
  map (fun g => nname (gbase g)) (eliminate_dead_constants sub_example [dyn "if1_out1"]) = ["constant1"; "if1"] /\
  graph_reads by_name sub_example [dyn "if1_out1"] "constant1_out1".
Proof.
  split; [reflexivity|]. left.
  exists (mkG (mkNode "If" "if1" [dyn "c"; mkArg "constant1_out1" t1 VConstant; mkArg "constant2_out1" t1 VConstant] [dyn "if1_out1"] []) 2
        [([mkG (mkNode "Neg" "neg1" [mkArg "constant1_out1" t1 VConstant] [dyn "neg1_out1"] []) 0 []], [dyn "neg1_out1"])]).
  split; [right; right; left; reflexivity|].
  eapply greads_sub; [left; reflexivity|left; reflexivity|].
  apply (greads_input by_name _ 0 [] (mkArg "constant1_out1" t1 VConstant)); [left; reflexivity|left; reflexivity].
Qed.

(** A reader of a constant that is not marked (as the identity-element pass
    leaves them: it renames the argument and keeps its source) loses it. *)
Definition lost_example : list gnode :=
  [ mkG (cst "constant1" "constant1_out1") 0 []; mkG (nd "Neg" "neg1" ["constant1_out1"] ["neg1_out1"]) 0 [] ].
Theorem C31_unmarked_reader_refuted :
  exists nodes outputs g o, In g nodes /\ noutputs (gbase g) = [o] /\
    graph_reads by_name nodes outputs (aname o) /\
    ~ In g (eliminate_dead_constants nodes outputs) /\
    run (fun t _ _ vs => match t, vs with "Constant", _ => Some [7%Z] | "Neg", [Some v] => Some [(- v)%Z] | _, _ => None end)
        (fun _ => Some 7%Z) (fun _ => None) (map gbase nodes) <> None /\
    run (fun t _ _ vs => match t, vs with "Constant", _ => Some [7%Z] | "Neg", [Some v] => Some [(- v)%Z] | _, _ => None end)
        (fun _ => Some 7%Z) (fun _ => None) (map gbase (eliminate_dead_constants nodes outputs)) = None.
Proof.
  exists lost_example, [dyn "neg1_out1"], (mkG (cst "constant1" "constant1_out1") 0 []), (mkArg "constant1_out1" t1 VConstant).
  split; [left; reflexivity|]. split; [reflexivity|]. split; [|split; [|split]].
  - left. exists (mkG (nd "Neg" "neg1" ["constant1_out1"] ["neg1_out1"]) 0 []). split; [right; left; reflexivity|].
    apply (greads_input by_name _ 0 [] (dyn "constant1_out1")); [left; reflexivity|right; reflexivity].
  - cbn. intros [H|[]]. discriminate.
  - vm_compute. discriminate.
  - reflexivity.
Qed.
Print Assumptions C31_unmarked_reader_refuted.
