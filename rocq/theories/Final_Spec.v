(** Constant data of an imported model: who holds it, and what an argument that
    refers to it should yield.  Nothing here refers to the importer. *)
From Verif Require Import IR_Model.

(** The data of one graph: tensors by number, and the numbers of the constants
    by name. *)
Record vstore (D : Type) := mkStore { tensors : N -> option D; constants : string -> option N }.
Arguments tensors {D}. Arguments constants {D}. Arguments mkStore {D}.

(** An argument with a handle on some store, and graphs whose nodes may hold
    graphs. *)
Record farg (D : Type) := mkFarg { fname : string; fsrc : vsource; fstore : option (vstore D) }.
Arguments fname {D}. Arguments fsrc {D}. Arguments fstore {D}. Arguments mkFarg {D}.

Inductive fgraph (D : Type) :=
| FGraph (nodes : list (fnode D)) (ins outs : list (farg D)) (own : option (vstore D))
with fnode (D : Type) :=
| FNode (ins outs : list (farg D)) (subs : list (fgraph D)).
Arguments FGraph {D}. Arguments FNode {D}.

(** The data a store has for a constant. *)
Definition constant_in {D} (s : vstore D) (x : string) : option D :=
  match constants s x with Some id => tensors s id | None => None end.

(** What reading an argument yields: numbered data, or the constant it names, in
    the store it has a handle on. *)
Definition reading {D} (a : farg D) : option D :=
  match fstore a with
  | None => None
  | Some s => match fsrc a with
              | VStatic id => tensors s id
              | VConstant => constant_in s (fname a)
              | VDynamic | VOptional => None
              end
  end.

(** The constant a name stands for, seen from a graph: the innermost of the
    enclosing graphs that has it. *)
Fixpoint visible {D} (chain : list (option (vstore D))) (x : string) : option D :=
  match chain with
  | [] => None
  | Some s :: r => match constants s x with Some id => tensors s id | None => visible r x end
  | None :: r => visible r x
  end.

(** All arguments that nodes read, in order and at any depth, each with the
    stores of the graphs around it, the innermost first. *)
Fixpoint places {D} (chain : list (option (vstore D))) (g : fgraph D) : list (farg D * list (option (vstore D))) :=
  match g with FGraph ns _ _ own => flat_map (node_places (own :: chain)) ns end
with node_places {D} (chain : list (option (vstore D))) (n : fnode D) : list (farg D * list (option (vstore D))) :=
  match n with FNode ins _ subs => map (fun a => (a, chain)) ins ++ flat_map (places chain) subs end.

(** Every graph, at any depth, has a store. *)
Fixpoint stored {D} (g : fgraph D) : Prop :=
  match g with FGraph ns _ _ own => own <> None /\ fold_right (fun n p => node_stored n /\ p) True ns end
with node_stored {D} (n : fnode D) : Prop :=
  match n with FNode _ _ subs => fold_right (fun g p => stored g /\ p) True subs end.

(** All arguments that nodes and graphs give, and all that graphs take, in order
    and at any depth, with the store of the graph they belong to. *)
Fixpoint ends {D} (g : fgraph D) : list (farg D * option (vstore D)) :=
  match g with
  | FGraph ns ins outs own =>
      map (fun a => (a, own)) ins ++ flat_map (node_ends own) ns ++ map (fun a => (a, own)) outs
  end
with node_ends {D} (own : option (vstore D)) (n : fnode D) : list (farg D * option (vstore D)) :=
  match n with FNode _ outs subs => map (fun a => (a, own)) outs ++ flat_map ends subs end.
