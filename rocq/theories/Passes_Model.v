(** The graph passes of the simplifier and of post-processing that only
    rename inputs or drop nodes. *)
From Verif Require Import IR_Model.

(* ------------------------------------------------------------------ *)
(** * Dead nodes: crates/onnx-ir/src/simplify/dead_nodes.rs:10-50 *)

(** Lines 16-24: names consumed by the graph outputs or by any node. *)
Definition live_names (nodes : list rnode) (outputs : list arg) : list string :=
  map aname outputs ++ flat_map (fun n => map aname (ninputs n)) nodes.

(** Lines 28-41: one [retain]. *)
Definition dead_step (outputs : list arg) (nodes : list rnode) : list rnode :=
  let live := live_names nodes outputs in
  filter (fun n => existsb (fun o => mem_str (aname o) live) (noutputs n)) nodes.

(** Lines 14-47: the loop; the fuel is the number of nodes plus one, and
    [dead_loop_fixpoint] in Passes_Proofs.v shows that it is never exhausted. *)
Fixpoint dead_loop (fuel : nat) (outputs : list arg) (nodes : list rnode) : list rnode :=
  match fuel with
  | O => nodes
  | S f =>
      let nodes' := dead_step outputs nodes in
      if Nat.eqb (length nodes') (length nodes) then nodes' else dead_loop f outputs nodes'
  end.
Definition eliminate_dead_nodes (nodes : list rnode) (outputs : list arg) : list rnode :=
  dead_loop (S (length nodes)) outputs nodes.

(* ------------------------------------------------------------------ *)
(** * Renaming of inputs, common to the three passes below
    (idempotent.rs:67-73, identity_element.rs:86-92, redundant_nodes.rs:45-51) *)
Definition rename_arg (r : smap string) (a : arg) : arg :=
  match sget r (aname a) with
  | Some y => mkArg y (aty a) (asrc a)
  | None => a
  end.
Definition rename_node (r : smap string) (n : rnode) : rnode :=
  mkNode (ntype n) (nname n) (map (rename_arg r) (ninputs n)) (noutputs n) (nattrs n).
(** The early return for an empty map is the same function: an empty map
    renames nothing. *)
Definition rename_inputs (r : smap string) (nodes : list rnode) : list rnode :=
  match r with
  | [] => nodes
  | _ => map (rename_node r) nodes
  end.

(* ------------------------------------------------------------------ *)
(** * Idempotent operators: crates/onnx-ir/src/simplify/idempotent.rs:6-76 *)
Definition idempotent_ops : list string :=
  ["Relu"; "Ceil"; "Floor"; "Round"; "Sign"; "Abs"]%string.

(** Lines 22-28: output name to producing node type (last insertion wins). *)
Definition producer_types (nodes : list rnode) : smap string :=
  fold_left (fun m n => fold_left (fun m o => sput m (aname o) (ntype n)) (noutputs n) m) nodes [].

(** Lines 34-59. *)
Definition idempotent_entry (prod : smap string) (n : rnode) : option (string * string) :=
  if mem_str (ntype n) idempotent_ops then
    match ninputs n, noutputs n with
    | [i], [o] =>
        match sget prod (aname i) with
        | Some t => if String.eqb t (ntype n) then Some (aname o, aname i) else None
        | None => None
        end
    | _, _ => None
    end
  else None.

Definition idempotent_renames (nodes : list rnode) : smap string :=
  fold_left (fun r n => match idempotent_entry (producer_types nodes) n with
                        | Some (x, y) => sput r x y
                        | None => r
                        end) nodes [].

Definition eliminate_idempotent_ops (nodes : list rnode) : list rnode :=
  rename_inputs (idempotent_renames nodes) nodes.

(* ------------------------------------------------------------------ *)
(** * Identity elements: crates/onnx-ir/src/simplify/identity_element.rs:16-118 *)
Section Identity.
  (** [arg.value()] followed by [to_f64_vec().ok()]; the scalar type and the
      comparisons with 0.0 and 1.0 are parameters. *)
  Context {F : Type}.
  Variable arg_f64 : arg -> option (list F).
  Variable eq0 eq1 : F -> bool.

  (** Lines 101-118. *)
  Definition is_constant_value (eqt : F -> bool) (a : arg) : bool :=
    match arg_f64 a with
    | None => false
    | Some [] => false
    | Some vs => forallb eqt vs
    end.

  (** Lines 19-75.  [node.inputs.len() == 2 && node.outputs.len() == 1]. *)
  Definition identity_entry (n : rnode) : option (string * string) :=
    match ninputs n, noutputs n with
    | [a; b], [o] =>
        let t := ntype n in
        let keep :=
          if (String.eqb t "Add" || String.eqb t "Sub")%bool then
            if is_constant_value eq0 b then Some a
            else if (String.eqb t "Add" && is_constant_value eq0 a)%bool then Some b
            else None
          else if String.eqb t "Mul" then
            if is_constant_value eq1 b then Some a
            else if is_constant_value eq1 a then Some b
            else None
          else if String.eqb t "Div" then
            if is_constant_value eq1 b then Some a else None
          else if String.eqb t "Pow" then
            if is_constant_value eq1 b then Some a else None
          else None in
        match keep with
        | Some k => Some (aname o, aname k)
        | None => None
        end
    | _, _ => None
    end.

  Definition identity_renames (nodes : list rnode) : smap string :=
    fold_left (fun r n => match identity_entry n with
                          | Some (x, y) => sput r x y
                          | None => r
                          end) nodes [].

  Definition eliminate_identity_elements (nodes : list rnode) : list rnode :=
    rename_inputs (identity_renames nodes) nodes.
End Identity.

(* ------------------------------------------------------------------ *)
(** * Common subexpressions: crates/onnx-ir/src/simplify/redundant_nodes.rs:11-94 *)

(** The key of a node: the printed text of lines 63-94.  Two texts are equal
    exactly when these keys are: [KUnique] is the text ["__unique__:name"],
    [KShape] the text of type, input names and attributes, the attributes being
    printed by [dbg] (Rust's [Debug] of a non-graph [AttributeValue]). *)
Inductive cse_key_t :=
| KUnique (name : string)
| KShape (ty : string) (inputs : list string) (attrs : list (string * string)).

Definition is_graph_attr (v : attr) : bool :=
  match v with
  | ADeferredGraph _ | ADeferredGraphs _ | AGraph _ => true
  | _ => false
  end.

Section Cse.
  Variable dbg : attr -> string.

  Definition cse_key (n : rnode) : cse_key_t :=
    if existsb (fun kv => is_graph_attr (snd kv)) (nattrs n) then KUnique (nname n)
    else if existsb (fun i => is_constant i || is_static i)%bool (ninputs n) then KUnique (nname n)
    else KShape (ntype n) (map aname (ninputs n)) (map (fun kv => (fst kv, dbg (snd kv))) (nattrs n)).

  Fixpoint list_eqb {A} (eqb : A -> A -> bool) (x y : list A) : bool :=
    match x, y with
    | [], [] => true
    | a :: x', b :: y' => eqb a b && list_eqb eqb x' y'
    | _, _ => false
    end%bool.

  Definition key_eqb (a b : cse_key_t) : bool :=
    match a, b with
    | KUnique x, KUnique y => String.eqb x y
    | KShape t i s, KShape t' i' s' =>
        String.eqb t t' && list_eqb String.eqb i i' &&
        list_eqb (fun p q => String.eqb (fst p) (fst q) && String.eqb (snd p) (snd q)) s s'
    | _, _ => false
    end%bool.

  (** [seen]: the first node of each key, in order of appearance (lines 13, 17-20, 36). *)
  Fixpoint seen_get (seen : list (cse_key_t * rnode)) (k : cse_key_t) : option rnode :=
    match seen with
    | [] => None
    | (k', n) :: r => if key_eqb k' k then Some n else seen_get r k
    end.

  (** Lines 21-33: the entries of one duplicate, inserted left to right. *)
  Definition cse_entries (orig dup : rnode) (r : smap string) : smap string :=
    if Nat.eqb (length (noutputs orig)) (length (noutputs dup)) then
      fold_left (fun r od => sput r (aname (snd od)) (aname (fst od)))
                (combine (noutputs orig) (noutputs dup)) r
    else r.

  Fixpoint cse_scan (seen : list (cse_key_t * rnode)) (r : smap string) (nodes : list rnode)
    : smap string :=
    match nodes with
    | [] => r
    | n :: rest =>
        match seen_get seen (cse_key n) with
        | Some orig => cse_scan seen (cse_entries orig n r) rest
        | None => cse_scan ((cse_key n, n) :: seen) r rest
        end
    end.

  Definition eliminate_redundant_nodes (nodes : list rnode) : list rnode :=
    rename_inputs (cse_scan [] [] nodes) nodes.
End Cse.
