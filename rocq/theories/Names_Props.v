(** C09, C10: property theorems only. *)
From Verif Require Import Util Names_Model Names_Proofs.

(** C09: names drawn from one shared registry, starting from any counters and
    for any sequence of the operators known to the importer, are distinct.  An
    interleaving of several graphs sharing the registry is one such sequence
    (next theorem). *)
Theorem C09_registry_names_distinct : forall r ts r' ns,
  Forall (fun t => In t node_types) ts ->
  generate_all r ts = (r', ns) -> NoDup ns.
Proof. exact generate_all_nodup. Qed.
Print Assumptions C09_registry_names_distinct.

Theorem C09_registry_history_composes : forall r ts1 ts2,
  generate_all r (ts1 ++ ts2) =
  let '(r1, n1) := generate_all r ts1 in
  let '(r2, n2) := generate_all r1 ts2 in (r2, n1 ++ n2).
Proof. exact generate_all_app. Qed.
Print Assumptions C09_registry_history_composes.

(** C09: so are the names of their outputs. *)
Theorem C09_output_names_distinct : forall r ts r' ns i j n m k l,
  Forall (fun t => In t node_types) ts -> generate_all r ts = (r', ns) ->
  nth_error ns i = Some n -> nth_error ns j = Some m ->
  output_name n k = output_name m l -> i = j /\ k = l.
Proof. exact output_names_distinct. Qed.
Print Assumptions C09_output_names_distinct.

(** C09: in the root graph, initializer constants and nodes get distinct names. *)
Theorem C09_root_names_distinct : forall n_init ts r' ns,
  Forall (fun t => In t node_types) ts ->
  generate_all (root_counters n_init) ts = (r', ns) ->
  NoDup (initializer_names n_init ++ ns).
Proof. exact root_names_nodup. Qed.
Print Assumptions C09_root_names_distinct.

Example C09_example :
  snd (generate_all (root_counters 2) ["ReduceL1"; "Constant"; "ReduceL1"; "ReduceL2"; "Conv1d"; "Conv2d"]%string)
  = ["reducel11"; "constant3"; "reducel12"; "reducel21"; "conv1d1"; "conv2d1"]%string /\
  Forall (fun t => In t node_types) ["ReduceL1"; "Constant"; "ReduceL1"; "ReduceL2"; "Conv1d"; "Conv2d"]%string.
Proof.
  split; [vm_compute; reflexivity|].
  apply known_types; vm_compute; reflexivity.
Qed.

(** C09, part that holds across the scopes: what a subgraph of a control-flow
    node generates differs from every name the root graph had before that node,
    its initializer constants included, as long as the subgraph has no node of
    that control-flow type itself.  Missing: nodes converted later and sibling
    subgraphs, and nested nodes of the same type; see the findings below. *)
Theorem C09_subgraph_fresh_partial : forall n_init before t sub local names r' subn,
  Forall (fun u => In u node_types) (before ++ sub) -> ~ In t sub ->
  generate_all (root_counters n_init) before = (local, names) ->
  generate_all (subgraph_registry local t) sub = (r', subn) ->
  NoDup (initializer_names n_init ++ names ++ subn).
Proof. exact subgraph_fresh. Qed.
Print Assumptions C09_subgraph_fresh_partial.

Example C09_subgraph_example :
  Forall (fun u => In u node_types) (["Conv2d"; "Constant"; "Conv2d"]%string ++ ["Conv2d"; "Constant"; "Loop"]%string) /\
  ~ In "If"%string ["Conv2d"; "Constant"; "Loop"]%string /\
  snd (generate_all (subgraph_registry (fst (generate_all (root_counters 2) ["Conv2d"; "Constant"; "Conv2d"]%string)) "If")
         ["Conv2d"; "Constant"; "Loop"]%string) = ["conv2d4"; "constant5"; "loop1"]%string.
Proof.
  split; [apply known_types; vm_compute; reflexivity|]. split; [|vm_compute; reflexivity].
  intros [H|[H|[H|[]]]]; discriminate H.
Qed.

(** Finding: the counter of the control-flow type itself is set to 1 whatever
    it was, so an If nested in the third If of the root gets the name of the
    second one. *)
Theorem C09_nested_control_flow_refuted :
  exists before t sub,
    let '(local, root_names) := generate_all [] before in
    let '(_, sub_names) := generate_all (subgraph_registry local t) sub in
    exists n, In n root_names /\ In n sub_names.
Proof.
  exists ["If"; "If"]%string, "If"%string, ["If"]%string. exists "if2"%string.
  split; apply mem_str_In; vm_compute; reflexivity.
Qed.
Print Assumptions C09_nested_control_flow_refuted.

(** Finding: the root graph does not use the registry it hands to the
    subgraphs of its control-flow nodes, so a subgraph node and a root node
    (converted after the If) get the same name: root Conv2d, If, Conv2d, Conv2d
    and one Conv2d in a branch. *)
Theorem C09_subgraph_root_collision_refuted :
  exists before t after sub,
    Forall (fun u => In u node_types) (before ++ t :: after ++ sub) /\
    let '(local, _) := generate_all [] before in
    let '(_, root_names) := generate_all [] (before ++ t :: after) in
    let '(_, sub_names) := generate_all (subgraph_registry local t) sub in
    exists n, In n root_names /\ In n sub_names.
Proof.
  exists ["Conv2d"]%string, "If"%string, ["Conv2d"; "Conv2d"]%string, ["Conv2d"]%string.
  split; [apply known_types; vm_compute; reflexivity|].
  exists "conv2d3"%string. split; apply mem_str_In; vm_compute; reflexivity.
Qed.
Print Assumptions C09_subgraph_root_collision_refuted.

(** Finding: the subgraphs of two sibling control-flow nodes also collide. *)
Theorem C09_sibling_subgraph_collision_refuted :
  exists before t between t' sub1 sub2,
    let '(local1, _) := generate_all [] before in
    let '(local2, _) := generate_all [] (before ++ t :: between) in
    let '(_, names1) := generate_all (subgraph_registry local1 t) sub1 in
    let '(_, names2) := generate_all (subgraph_registry local2 t') sub2 in
    exists n, In n names1 /\ In n names2.
Proof.
  exists [], "If"%string, ["Relu"%string], "If"%string, ["Linear"%string], ["Linear"%string].
  exists "linear1"%string. split; apply mem_str_In; vm_compute; reflexivity.
Qed.
Print Assumptions C09_sibling_subgraph_collision_refuted.

(** C10, part that holds: a graph input whose name is not of the form
    type, number, "_out", number is never captured.  Missing: such names are
    not refused or renamed, see below. *)
Theorem C10_no_capture_partial : forall r ts r' ns input,
  Forall (fun t => In t node_types) ts -> generate_all r ts = (r', ns) ->
  (forall t c k, In t node_types -> input <> (lower t ++ dec c ++ "_out" ++ dec k)%string) ->
  forall n k, In n ns -> output_name n k <> input.
Proof.
  intros r ts r' ns input Hts E Hin n k Hn Eq.
  destruct (generated_output_shape _ _ _ _ n k Hts E Hn) as (t & c & Ht & Es).
  apply (Hin t c k Ht). congruence.
Qed.
Print Assumptions C10_no_capture_partial.

(** Finding: a graph input called "relu1_out1" coincides with the name
    generated for the first Relu's output. *)
Theorem C10_capture_refuted :
  exists input ts, Forall (fun t => In t node_types) ts /\
    In input (map (fun n => output_name n 1) (snd (generate_all [] ts))).
Proof.
  exists "relu1_out1"%string, ["Relu"%string]. split; [apply known_types; vm_compute; reflexivity|].
  apply mem_str_In; vm_compute; reflexivity.
Qed.
Print Assumptions C10_capture_refuted.
