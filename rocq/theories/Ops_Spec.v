(** What a user expects of operator names. *)
From Verif Require Import IR_Model.
Local Open Scope string_scope.

(** A node of an ONNX file names its operator by a domain and a type; the empty
    domain and "ai.onnx" are ONNX's own. *)
Record node_proto := mkProto { np_domain : string; np_op : string }.
Definition onnx_domain (d : string) : Prop := d = "" \/ d = "ai.onnx".

(** Same spelling up to the case of letters. *)
Definition same_name (a b : string) : Prop := lower a = lower b.

(** The code [v] is for operator [op]: it has its name or, for the four
    operators on images of several dimensions, its name and the dimensions. *)
Definition code_for (op v : string) : Prop :=
  same_name op v
  \/ exists b k, In b ["Conv"; "ConvTranspose"; "MaxPool"; "AveragePool"] /\ In k ["1d"; "2d"; "3d"]
       /\ same_name op b /\ v = b ++ k.
