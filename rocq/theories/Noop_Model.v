(** No-op elimination: crates/onnx-ir/src/phases/post_processing.rs:28-196,
    and the removal of unreferenced constants,
    crates/onnx-ir/src/phases/finalization.rs:37-87 and
    crates/onnx-ir/src/ir/graph.rs:212-296. *)
From Verif Require Import IR_Model.

(** HashMap [node_output_map]: ONNX name to (node index, output index), in
    the order in which the map happens to be iterated. *)
Definition output_map := list (string * (nat * nat)).

Section Plan.
  (** [processor.is_noop(node)] with [simplify], or "the node is an Identity"
      without (lines 66-71). *)
  Variable is_noop : rnode -> bool.

  (** Lines 107-116: the first entry of the map for output 0 of node [idx]. *)
  Fixpoint original_name (m : output_map) (idx : nat) : option string :=
    match m with
    | [] => None
    | (k, (ni, oi)) :: r => if (Nat.eqb ni idx && Nat.eqb oi 0)%bool then Some k else original_name r idx
    end.

  (** Lines 87-119 for one node index; [None] is the panic of
      [node.outputs[0]] on a node without outputs. *)
  Definition plan_one (m : output_map) (acc : smap string * list nat) (ix : nat * rnode)
    : option (smap string * list nat) :=
    let (idx, n) := ix in
    if is_noop n then
      match ninputs n with
      | [] => Some acc
      | i :: _ =>
          match noutputs n with
          | [] => None
          | o :: _ =>
              let r1 := sput (fst acc) (aname o) (aname i) in
              let r2 := match original_name m idx with
                        | Some k => if String.eqb k (aname o) then r1 else sput r1 k (aname i)
                        | None => r1
                        end in
              Some (r2, idx :: snd acc)
          end
      end
    else Some acc.

  Fixpoint plan_fold (m : output_map) (acc : smap string * list nat) (l : list (nat * rnode))
    : option (smap string * list nat) :=
    match l with
    | [] => Some acc
    | x :: r => match plan_one m acc x with
                | None => None
                | Some acc' => plan_fold m acc' r
                end
    end.

  Definition plan_noop_elimination (nodes : list rnode) (m : output_map)
    : option (smap string * list nat) := plan_fold m ([], []) (enumerate nodes).
End Plan.

(** Lines 162-174: follow the chain from [current]; the fuel is the number of
    entries plus one, which [follow_terminal] in Noop_Proofs.v shows to be
    enough. *)
Fixpoint follow (fuel : nat) (m : smap string) (visited : list string) (current : string) : string :=
  match fuel with
  | O => current
  | S f =>
      match sget m current with
      | None => current
      | Some next => if mem_str next visited then current
                     else follow f m (current :: visited) next
      end
  end.

(** Lines 158-177: [order] is the order in which the map is iterated. *)
Definition resolve (rewire : smap string) (order : list (string * string)) : smap string :=
  fold_left (fun m kv => sput m (fst kv) (follow (S (length order)) m [fst kv] (snd kv))) order rewire.

(** Lines 148-154. *)
Definition output_args (nodes : list rnode) : smap arg :=
  fold_left (fun m n => fold_left (fun m o => sput m (aname o) o) (noutputs n) m) nodes [].

(** Lines 28-43 ([value_store] left out). *)
Definition rewire_argument (rm : smap string) (om : smap arg) (a : arg) : arg :=
  match sget rm (aname a) with
  | None => a
  | Some new =>
      match sget om new with
      | Some src => mkArg new (aty src) (asrc src)
      | None => mkArg new (aty a) (asrc a)
      end
  end.

Definition rewire_node rm om (n : rnode) : rnode :=
  mkNode (ntype n) (nname n) (map (rewire_argument rm om) (ninputs n)) (noutputs n) (nattrs n).

(** Lines 130-196. *)
Definition apply_noop_elimination (nodes : list rnode) (outputs : list arg)
    (rewire : smap string) (order : list (string * string)) (removed : list nat)
  : list rnode * list arg :=
  match removed with
  | [] => (nodes, outputs)
  | _ =>
      let om := output_args nodes in
      let rm := resolve rewire order in
      (map snd (filter (fun ix => negb (existsb (Nat.eqb (fst ix)) removed))
                       (enumerate (map (rewire_node rm om) nodes))),
       map (rewire_argument rm om) outputs)
  end.

(* ------------------------------------------------------------------ *)
(** ** Unreferenced constants: finalization.rs:37-87 *)

(** Lines 39-47. *)
Definition constant_outputs (nodes : list rnode) : smap nat :=
  fold_left (fun m ix =>
     if String.eqb (ntype (snd ix)) "Constant" then
       fold_left (fun m o => sput m (aname o) (fst ix)) (noutputs (snd ix)) m
     else m) (enumerate nodes) [].

(** Lines 49-70: the reference counts; only whether they are zero matters. *)
Definition counts (a : arg) : bool := (is_constant a || is_dynamic a)%bool.
Definition referenced (nodes : list rnode) (outputs : list arg) : list string :=
  map aname (filter counts (flat_map ninputs nodes ++ outputs)).

(** Lines 72-87. *)
Definition remove_unreferenced_constants (nodes : list rnode) (outputs : list arg) : list rnode :=
  let cm := constant_outputs nodes in
  let dead := map snd (filter (fun kv => match sget cm (fst kv) with
                                         | Some i => Nat.eqb i (snd kv)
                                         | None => false
                                         end && negb (mem_str (fst kv) (referenced nodes outputs)))%bool cm) in
  map snd (filter (fun ix => negb (existsb (Nat.eqb (fst ix)) dead)) (enumerate nodes)).

(* ------------------------------------------------------------------ *)
(** ** Dead constants of the finished graph: ir/graph.rs:212-300 *)

(** A finished node: the raw node, the number of outer-scope inputs at the end
    of its inputs ([scope_ref_names.len()], 0 for ordinary nodes) and its
    subgraphs (nodes and outputs). *)
Inductive gnode := mkG (base : rnode) (scope_refs : nat) (subs : list (list gnode * list arg)).
Definition gbase (g : gnode) : rnode := let (b, _, _) := g in b.

Definition const_ref_names (l : list arg) : list string :=
  map aname (filter (fun a => is_constant a && negb (String.eqb (aname a) ""))%bool l).

(** Lines 212-253. *)
Fixpoint node_const_refs (g : gnode) : list string :=
  match g with
  | mkG b k subs =>
      const_ref_names (firstn (length (ninputs b) - k) (ninputs b)) ++
      flat_map (fun s => flat_map node_const_refs (fst s) ++ const_ref_names (snd s)) subs
  end.
Definition collect_constant_refs (nodes : list gnode) (outputs : list arg) : list string :=
  flat_map node_const_refs nodes ++ const_ref_names outputs.

(** Lines 260-296. *)
Definition eliminate_dead_constants (nodes : list gnode) (outputs : list arg) : list gnode :=
  filter (fun g =>
    if String.eqb (ntype (gbase g)) "Constant" then
      mem_str (match noutputs (gbase g) with o :: _ => aname o | [] => "" end)
              (collect_constant_refs nodes outputs)
    else true) nodes.
