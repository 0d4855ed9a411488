(** What the fields of a generated model must look like. *)
From Verif Require Export Util.

(** Nodes as the code generator sees them: a name, an identity ([id], which no
    generated code contains), whether it has parameters, and the graphs in it. *)
Inductive fnode := FNode (name : string) (id : N) (params : bool) (k : fkind)
with fkind := Leaf | IfK (thn els : fnodes) | LoopK (body : fnodes) | ScanK (body : fnodes)
with fnodes := FNil | FCons (n : fnode) (l : fnodes).

(** The nodes with parameters, at any depth. *)
Fixpoint with_params (n : fnode) : list (string * N) :=
  match n with FNode x i p k => (if p then [(x, i)] else []) ++ with_params_k k end
with with_params_k (k : fkind) : list (string * N) :=
  match k with
  | Leaf => []
  | IfK a b => with_params_l a ++ with_params_l b
  | LoopK b | ScanK b => with_params_l b
  end
with with_params_l (l : fnodes) : list (string * N) :=
  match l with FNil => [] | FCons n r => with_params n ++ with_params_l r end.

(** A Rust struct cannot have two fields of one name. *)
Definition struct_ok (fields : list string) : Prop := NoDup fields.
(** [self.x] in the code of a node with parameters means the field made for that
    node: there is one, and the code of node [i], which says [self.x] for the
    name [x] of the node, finds it. *)
Definition refers_to_own (fields : list (string * N)) (nodes : list (string * N)) : Prop :=
  forall x i, In (x, i) nodes -> In (x, i) fields /\ forall j, In (x, j) fields -> j = i.

Definition nodes_with_params (g : list fnode) : list (string * N) := flat_map with_params g.

(** No parameters below a Scan node. *)
Fixpoint no_scan (n : fnode) : bool := match n with FNode _ _ _ k => no_scan_k k end
with no_scan_k (k : fkind) : bool :=
  match k with
  | Leaf => true
  | IfK a b => (no_scan_l a && no_scan_l b)%bool
  | LoopK b => no_scan_l b
  | ScanK b => match with_params_l b with [] => true | _ => false end
  end
with no_scan_l (l : fnodes) : bool := match l with FNil => true | FCons n r => (no_scan n && no_scan_l r)%bool end.

(** The nodes with parameters in the graphs inside the nodes of a graph. *)
Definition kind_of (n : fnode) : fkind := match n with FNode _ _ _ k => k end.
Definition inner_with_params (g : list fnode) : list (string * N) := flat_map (fun n => with_params_k (kind_of n)) g.
Definition own_with_params (g : list fnode) : list (string * N) :=
  flat_map (fun n => match n with FNode x i p _ => if p then [(x, i)] else [] end) g.

Definition no_underscore (x : string) : bool := string_forall (fun c => negb (Ascii.eqb c "_")) x.
