(** Free names of an ONNX graph, by the scoping rules of ONNX: a name used in a
    graph or in a graph nested in it refers to the innermost definition. *)
From Verif Require Import IR_Model OuterRefs_Model.

(** Defined by the graph itself: its inputs, initializers and node outputs. *)
Definition bound (g : gproto) (x : string) : Prop :=
  In x (gp_in g) \/ In x (gp_init g) \/ exists nd, In nd (gp_nodes g) /\ In x (h_out (fst nd)).

(** Used in [g] (as an input of a node, as an output of the graph, or in a
    nested graph) and not defined there. *)
Inductive free : gproto -> string -> Prop :=
| free_input : forall g nd x, In nd (gp_nodes g) -> In x (h_in (fst nd)) -> x <> ""%string -> ~ bound g x -> free g x
| free_output : forall g x, In x (gp_out g) -> x <> ""%string -> ~ bound g x -> free g x
| free_nested : forall g nd sub x, In nd (gp_nodes g) -> In sub (snd nd) -> free (snd sub) x -> ~ bound g x -> free g x.

(** A formal input: an input without initializer that no node produces. *)
Definition formal (g : gproto) (x : string) : Prop :=
  In x (gp_in g) /\ x <> ""%string /\ ~ In x (gp_init g) /\ ~ exists nd, In nd (gp_nodes g) /\ In x (h_out (fst nd)).

(** Names that occur anywhere in a graph. *)
Inductive occurs : gproto -> string -> Prop :=
| occ_in : forall g x, In x (gp_in g) -> occurs g x
| occ_out : forall g x, In x (gp_out g) -> occurs g x
| occ_init : forall g x, In x (gp_init g) -> occurs g x
| occ_node : forall g nd x, In nd (gp_nodes g) -> In x (h_in (fst nd)) \/ In x (h_out (fst nd)) -> occurs g x
| occ_nested : forall g nd sub x, In nd (gp_nodes g) -> In sub (snd nd) -> occurs (snd sub) x -> occurs g x.

(** As ONNX has it: only the body of a Loop or a Scan has formal inputs (the
    branches of an If have none). *)
Definition loop_body (op : string) (a : string * bool) : Prop :=
  (op = "Loop" \/ op = "Scan")%string /\ a = ("body"%string, true).
Inductive scoped : gproto -> Prop :=
| scoped_intro : forall g,
    (forall nd sub, In nd (gp_nodes g) -> In sub (snd nd) ->
       scoped (snd sub) /\ (loop_body (h_op (fst nd)) (fst sub) \/ forall x, ~ formal (snd sub) x)) ->
    scoped g.
