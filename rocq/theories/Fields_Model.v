(** Model of the fields of the generated struct:
    crates/burn-onnx/src/burn/graph.rs. *)
From Verif Require Import Util IR_Model Fields_Spec.

(** The map [field_name_counts]. *)
Definition counts := smap nat.
Definition count_of (c : counts) (x : string) : nat := match sget c x with Some n => n | None => 0 end.

(** graph.rs:342-349, 370 (and 81-91): the name of the next field for base name
    [x].  Every [NodeCodegen::field] gives the name of the node as base name
    (for example node/linear.rs:46, node/constant.rs:144).  The rewriting of the
    initialisation code that follows in graph.rs:351-369 is not modelled. *)
Definition next_name (c : counts) (x : string) : counts * string :=
  let n := S (count_of c x) in
  (sput c x n, if (1 <? n)%nat then (x ++ "_" ++ dec (N.of_nat n))%string else x).

(** graph.rs:333-397 [collect_subgraph_fields_recursive]; Scan bodies are not visited. *)
Fixpoint sub_fields (n : fnode) (c : counts) : counts * list (string * N) :=
  match n with
  | FNode x i p k =>
      let (c1, f1) := if p then let (c', y) := next_name c x in (c', [(y, i)]) else (c, []) in
      let (c2, f2) := sub_fields_k k c1 in (c2, f1 ++ f2)
  end
with sub_fields_k (k : fkind) (c : counts) : counts * list (string * N) :=
  match k with
  | IfK a b => let (c1, f1) := sub_fields_l a c in let (c2, f2) := sub_fields_l b c1 in (c2, f1 ++ f2)
  | LoopK b => sub_fields_l b c
  | Leaf | ScanK _ => (c, [])
  end
with sub_fields_l (l : fnodes) (c : counts) : counts * list (string * N) :=
  match l with
  | FNil => (c, [])
  | FCons n r => let (c1, f1) := sub_fields n c in let (c2, f2) := sub_fields_l r c1 in (c2, f1 ++ f2)
  end.

(** graph.rs:399-446 [collect_all_fields]: the fields of the graph's own nodes
    are not counted. *)
Fixpoint root_fields (l : list fnode) (c : counts) : list (string * N) :=
  match l with
  | [] => []
  | FNode x i p k :: r =>
      let (c2, f2) := sub_fields_k k c in (if p then [(x, i)] else []) ++ f2 ++ root_fields r c2
  end.
Definition collect_all_fields (g : list fnode) : list (string * N) := root_fields g [].

(** graph.rs:448-473 [codegen_struct]. *)
Definition struct_fields (g : list fnode) : list string := map fst (collect_all_fields g) ++ ["phantom"; "device"]%string.

(** graph.rs:69-147 [collect_all_snapshots]: the prefix given to the parameters of every node. *)
Fixpoint sub_snapshots (n : fnode) (c : counts) : counts * list (string * N) :=
  match n with
  | FNode x i p k =>
      let '(c1, f1) :=
        if p then
          let m := S (count_of c x) in
          (sput c x m, [((if (1 <? m)%nat then (x ++ "_" ++ dec (N.of_nat m))%string else x), i)])
        else (c, []) in
      let (c2, f2) := sub_snapshots_k k c1 in (c2, f1 ++ f2)
  end
with sub_snapshots_k (k : fkind) (c : counts) : counts * list (string * N) :=
  match k with
  | IfK a b => let (c1, f1) := sub_snapshots_l a c in let (c2, f2) := sub_snapshots_l b c1 in (c2, f1 ++ f2)
  | LoopK b => sub_snapshots_l b c
  | Leaf | ScanK _ => (c, [])
  end
with sub_snapshots_l (l : fnodes) (c : counts) : counts * list (string * N) :=
  match l with
  | FNil => (c, [])
  | FCons n r => let (c1, f1) := sub_snapshots n c in let (c2, f2) := sub_snapshots_l r c1 in (c2, f1 ++ f2)
  end.
Fixpoint root_snapshots (l : list fnode) (c : counts) : list (string * N) :=
  match l with
  | [] => []
  | FNode x i p k :: r =>
      let (c2, f2) := sub_snapshots_k k c in (if p then [(x, i)] else []) ++ f2 ++ root_snapshots r c2
  end.
Definition collect_all_snapshots (g : list fnode) : list (string * N) := root_snapshots g [].
