(** Model of the acceptance test on node order and of opset selection. *)
From Verif Require Import Util.

(** NodeProto restricted to its input and output name lists
    (crates/onnx-ir/src/protos; fields [input], [output]). Simplification:
    all other fields are irrelevant to the functions below. *)
Record node_io := { nio_in : list string; nio_out : list string }.

(** pipeline.rs:387-415 [TopologicalSortable::is_top_sorted].  The nested
    loops with early [return false] are the nested [forallb]. *)
Definition is_top_sorted (ns : list node_io) : bool :=
  forallb (fun '(node_position, node) =>
    forallb (fun output =>
      if String.eqb output "" then true else
      forallb (fun '(other_node_position, other_node) =>
        if mem_str output (nio_in other_node)
        then negb (other_node_position <? node_position)
        else true) (enumerate ns))
    (nio_out node)) (enumerate ns).

(** OperatorSetIdProto: (domain, version); version is an i64. *)
Definition opset_import := (string * Z)%type.

(** pipeline.rs:371-378 [extract_opset_version]: [find] on empty domain, then
    the cast [version as usize] (64-bit two's complement), [None] is
    [Error::MissingOpsetVersion]. *)
Fixpoint extract_opset_version (l : list opset_import) : option Z :=
  match l with
  | [] => None
  | (d, v) :: r =>
      if String.eqb d "" then Some (v mod 2 ^ 64)%Z else extract_opset_version r
  end.
