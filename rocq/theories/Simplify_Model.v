(** The simplifier as a whole: crates/onnx-ir/src/simplify/mod.rs:57-117. *)
From Flocq Require Import BinarySingleNaN.
From Verif Require Export IR_Model Passes_Model Fold_Model.
From Verif Require Attention_Model Permute_Model.

(** [arg.value()] followed by [scalar_f64] (ir/tensor_data_ext.rs:48-66), as the
    attention pass reads constants. *)
Definition reading_of (s : store) (a : arg) : Attention_Model.reading :=
  match st_value s a with
  | None => Attention_Model.NoValue
  | Some d => match to_f64_vec d with
              | None => Attention_Model.NotNumber
              | Some [] => Attention_Model.EmptyData
              | Some (v :: _) => Attention_Model.Number v
              end
  end.

(** [arg.value()] followed by [scalar_i64], as the permute-reshape pass reads
    indices.  An empty constant, on which the code panics, is no index here. *)
Definition index_of (s : store) (a : arg) : option Z :=
  match st_value s a with
  | Some d => match scalar_i64 d with Done z => Some z | _ => None end
  | None => None
  end.

(** [arg.value()] followed by [to_f64_vec] and the comparisons of
    identity_element.rs:101-118. *)
Definition floats_of (s : store) (a : arg) : option (list f64) :=
  match st_value s a with Some d => to_f64_vec d | None => None end.
Definition eq_zero (v : f64) : bool := Beqb v (f64_of_Z 0).
Definition eq_one (v : f64) : bool := Beqb v (f64_of_Z 1).

(** What the loop works on: the tensor store, the nodes and the graph outputs. *)
Record graph_state := mkGS { gs_store : store; gs_nodes : list rnode; gs_outputs : list arg }.

Section Simplify.
  (** Rust's [Debug] print of attributes, see Passes_Model.v. *)
  Variable dbg : attr -> string.

  (** Lines 74-98: one round, the passes in their order. *)
  Definition round (g : graph_state) : ev graph_state :=
    ebind (Attention_Model.coalesce_attention (reading_of (gs_store g)) (gs_nodes g)) (fun n1 =>
    match Permute_Model.simplify_permute_reshape (index_of (gs_store g)) n1 with
    | None => Panic
    | Some n2 =>
        ebind (simplify_constant_shape (gs_store g) n2 (gs_outputs g)) (fun p =>
          let '(s1, n3, o1) := p in
        ebind (fold_constants s1 n3 o1) (fun q =>
          let '(s2, n4, o2) := q in
          let n5 := eliminate_idempotent_ops n4 in
          let n6 := eliminate_identity_elements (floats_of s2) eq_zero eq_one n5 in
          let n7 := eliminate_redundant_nodes dbg n6 in
          Done (mkGS s2 (eliminate_dead_nodes n7 o2) o2)))
    end).

  (** Lines 71-114: the loop.  The subtraction of line 100 overflows (a panic
      in a debug build) if the round added nodes. *)
  Fixpoint rounds (fuel : nat) (g : graph_state) : ev graph_state :=
    match fuel with
    | O => Done g
    | S f =>
        ebind (round g) (fun g' =>
          if Nat.ltb (length (gs_nodes g)) (length (gs_nodes g')) then Panic
          else if Nat.eqb (length (gs_nodes g) - length (gs_nodes g')) 0 then Done g'
          else rounds f g')
    end.

  (** Lines 57-58 and 65-117; the graph inputs are handed through. *)
  Definition max_iterations : nat := 10.
  Definition simplify_graph (inputs : list arg) (g : graph_state) : ev (graph_state * list arg) :=
    emap (fun g' => (g', inputs)) (rounds max_iterations g).
End Simplify.
