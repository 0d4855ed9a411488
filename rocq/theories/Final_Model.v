(** Model of the finalization of graphs: crates/onnx-ir/src/ir/graph.rs:61-184.
    The conversion of raw nodes (lines 69-70) and the removal of unread constants
    (line 91, C31) are left out.  Warnings are not modelled. *)
From Verif Require Import IR_Model Final_Spec.

Section Model.
Context {D : Type}.

(** ir/argument.rs:351-397 [value]. *)
Definition value (a : farg D) : option D :=
  match fstore a with
  | None => None
  | Some s =>
      match fsrc a with
      | VStatic id => tensors s id
      | VConstant => match constants s (fname a) with None => None | Some id => tensors s id end
      | VDynamic | VOptional => None
      end
  end.

(** ir/argument.rs:400-402 [set_value_store]. *)
Definition set_store (vs : vstore D) (a : farg D) : farg D := mkFarg (fname a) (fsrc a) (Some vs).

(** ir/graph.rs:104-121 and 163-176: the store of an input is replaced unless
    the input is numbered data that the store it has contains. *)
Definition attach (vs : vstore D) (a : farg D) : farg D :=
  let should_preserve :=
    match fsrc a with
    | VStatic id => match fstore a with
                    | Some s => match tensors s id with Some _ => true | None => false end
                    | None => false
                    end
    | _ => false
    end in
  if should_preserve then a else set_store vs a.

(** ir/graph.rs:158-184 [finalize_subgraph], with 101-131
    [finalize_arguments_in_nodes] and 134-148 [finalize_subgraphs_in_node];
    the graphs of a node are the branches of If and the bodies of Loop and
    Scan. *)
Fixpoint finalize_subgraph (g : fgraph D) : fgraph D :=
  match g with
  | FGraph ns ins outs None => FGraph ns ins outs None
  | FGraph ns ins outs (Some vs) =>
      FGraph (map (finalize_node vs) ns) (map (attach vs) ins) (map (set_store vs) outs) (Some vs)
  end
with finalize_node (vs : vstore D) (n : fnode D) : fnode D :=
  match n with
  | FNode ins outs subs => FNode (map (attach vs) ins) (map (set_store vs) outs) (map finalize_subgraph subs)
  end.

(** ir/graph.rs:61-94 [convert_to_graph]; the builder is given as a graph, its
    store being the one built from the graph state. *)
Definition convert_to_graph (g : fgraph D) : fgraph D :=
  match g with
  | FGraph ns ins outs None => FGraph ns ins outs None
  | FGraph ns ins outs (Some vs) =>
      FGraph (map (finalize_node vs) ns) (map (set_store vs) ins) (map (set_store vs) outs) (Some vs)
  end.
End Model.
