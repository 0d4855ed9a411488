(** Model of the search for names that a subgraph takes from the enclosing
    graph (crates/onnx-ir/src/proto_conversion.rs:626-805) and of what is done
    with them (phases/node_conversion.rs:71-122, processor.rs:481-545). *)
From Verif Require Import IR_Model Names_Model Import_Model.

(** Operator, inputs and outputs of a node. *)
Record nhead := mkNH { h_op : string; h_in : list string; h_out : list string }.

(** [GraphProto] with its names only: inputs, outputs, initializers, nodes with
    the graphs among their attributes.  A graph attribute is the name of the
    attribute, whether it is of type GRAPH (otherwise it is one of the graphs of
    an attribute of type GRAPHS), and the graph. *)
Inductive gproto :=
  GP (ins outs inits : list string) (nodes : list (nhead * list ((string * bool) * gproto))).

Definition gp_in (g : gproto) := let 'GP i _ _ _ := g in i.
Definition gp_out (g : gproto) := let 'GP _ o _ _ := g in o.
Definition gp_init (g : gproto) := let 'GP _ _ t _ := g in t.
Definition gp_nodes (g : gproto) := let 'GP _ _ _ n := g in n.

(** Non-empty names, sanitised. *)
Definition sans (l : list string) : list string :=
  map san (filter (fun x => negb (String.eqb x "")) l).

(** proto_conversion.rs:652-654 [is_outer_scope_input]. *)
Definition outer_input (inits : list string) (x : string) : bool :=
  negb (String.eqb x "") && negb (mem_str (san x) (sans inits)).

(** proto_conversion.rs:656-680: the names defined in a graph. *)
Definition defined_names (ins inits : list string) (heads : list nhead) : list string :=
  map san (filter (fun x => negb (String.eqb x "") && negb (outer_input inits x))%bool ins) ++
  sans inits ++ flat_map (fun h => sans (h_out h)) heads.

(** proto_conversion.rs:705, 720-729: what a Loop or Scan hands to its body. *)
Definition is_body (op attr : string) (single : bool) : bool :=
  single && (String.eqb op "Loop" || String.eqb op "Scan") && String.eqb attr "body".

(** proto_conversion.rs:633-770 [extract_outer_scope_references]; a set as a
    list, possibly with repetitions. *)
Fixpoint extract_refs (g : gproto) : list string :=
  match g with
  | GP ins outs inits nodes =>
      let defined := defined_names ins inits (map fst nodes) in
      let referenced :=
        map san (filter (outer_input inits) ins) ++
        flat_map (fun nd =>
          sans (h_in (fst nd)) ++
          flat_map (fun sub =>
            filter (fun x => negb (mem_str x defined) &&
                negb (is_body (h_op (fst nd)) (fst (fst sub)) (snd (fst sub)) && mem_str x (sans (gp_in (snd sub)))))%bool
              (extract_refs (snd sub))) (snd nd)) nodes ++
        sans outs in
      filter (fun x => negb (mem_str x defined)) referenced
  end.

(** proto_conversion.rs:777-805 [extract_node_outer_scope_references]. *)
Definition extract_node_refs (subs : list ((string * bool) * gproto)) : list string :=
  flat_map (fun sub => extract_refs (snd sub)) subs.

(** node_conversion.rs:93-109: the references in the order [refs] in which the
    set yields them; [init_in] resolves a name in the enclosing graph.  Result:
    the inputs and the names recorded in [__scope_ref_names]. *)
Fixpoint add_refs (resolve : string -> arg) (refs : list string) (inputs : list arg) (names : list string)
    : list arg * list string :=
  match refs with
  | [] => (inputs, names)
  | x :: r =>
      if existsb (fun i => String.eqb (aname i) x) inputs then add_refs resolve r inputs names
      else add_refs resolve r (inputs ++ [resolve x]) (names ++ [x])
  end.

(** node_conversion.rs:84-128: the inputs, [__onnx_input_count] and
    [__scope_ref_names]; without references both attributes are absent, and
    processor.rs:484-494 takes the number of inputs for the count. *)
Definition record_refs (resolve : string -> arg) (refs : list string) (inputs : list arg) : list arg * nat * list string :=
  let '(ins, names) := add_refs resolve refs inputs [] in (ins, length ins - length names, names).

(** processor.rs:508-545 [build_outer_scope_from_inputs]. *)
Fixpoint zip_scope (names : list string) (ins : list arg) (m : smap arg) : smap arg :=
  match ins, names with
  | [], _ => m
  | a :: r, x :: ns => zip_scope ns r (sput m x a)
  | a :: r, [] => zip_scope [] r (sput m (aname a) a)
  end.
Definition outer_scope (rec : list arg * nat * list string) : smap arg :=
  let '(ins, count, names) := rec in zip_scope names (skipn count ins) [].
