(** The raw intermediate representation shared by the import phases and the
    simplification passes. *)
From Verif Require Export Util.

(** [burn_tensor::DType] as used by onnx-ir (crates/onnx-ir/src/proto_conversion.rs:105-128);
    quantised types are left out. *)
Inductive dtype := F64 | F32 | F16 | BF16 | I64 | I32 | I16 | I8 | U64 | U32 | U16 | U8 | BoolT.

Scheme Equality for dtype.

(** crates/onnx-ir/src/ir/argument.rs:145-157, [TensorType]. *)
Record tensor_type := mkTT {
  tt_dtype : dtype;
  tt_rank : N;
  tt_shape : option (list (option N))
}.

(** crates/onnx-ir/src/ir/argument.rs:133-143, [ArgType]. *)
Inductive argty :=
| ScalarTensor (d : dtype)
| ScalarNative (d : dtype)
| ShapeT (rank : N)
| TensorT (t : tensor_type).

(** crates/onnx-ir/src/ir/argument.rs:22-31, [ValueSource]. *)
Inductive vsource := VStatic (id : N) | VConstant | VDynamic | VOptional.

(** crates/onnx-ir/src/ir/argument.rs:34-50, [Argument].  The [value_store]
    field (a shared handle on the tensor store) is not a field here: the store
    is passed separately to the functions that read it. *)
Record arg := mkArg { aname : string; aty : argty; asrc : vsource }.

(** crates/onnx-ir/src/ir/attribute.rs:106-129, [AttributeValue].  Floats are
    given by their bit patterns; a tensor or a graph is an opaque payload. *)
Inductive attr :=
| AFloat (bits : N)
| AFloats (bits : list N)
| AInt (z : Z)
| AInts (zs : list Z)
| AString (s : string)
| AStrings (ss : list string)
| ATensor (payload : N)
| ATensors (payload : list N)
| ADeferredGraph (payload : N)
| ADeferredGraphs (payload : list N)
| AGraph (payload : N)
| AGraphs (payload : list N).

(** crates/onnx-ir/src/ir/node.rs, [RawNode].  The node type is its name
    (the variants of [NodeType]); [attrs], a [HashMap], is represented by its
    entries in the order of the keys, so that equal maps are equal lists. *)
Record rnode := mkNode {
  ntype : string;
  nname : string;
  ninputs : list arg;
  noutputs : list arg;
  nattrs : list (string * attr)
}.

Definition out_names (n : rnode) : list string := map aname (noutputs n).
Definition in_names (n : rnode) : list string := map aname (ninputs n).

(** crates/onnx-ir/src/ir/argument.rs:405-425. *)
Definition is_static (a : arg) : bool := match asrc a with VStatic _ => true | _ => false end.
Definition is_constant (a : arg) : bool := match asrc a with VConstant => true | _ => false end.
Definition is_dynamic (a : arg) : bool := match asrc a with VDynamic => true | _ => false end.
Definition is_optional (a : arg) : bool := match asrc a with VOptional => true | _ => false end.

(** HashMap as an association list: [insert] puts in front, [get] finds the
    last insertion. *)
Definition smap A := list (string * A).
Fixpoint sget {A} (m : smap A) (k : string) : option A :=
  match m with
  | [] => None
  | (k', v) :: r => if String.eqb k' k then Some v else sget r k
  end.
Definition sput {A} (m : smap A) (k : string) (v : A) : smap A := (k, v) :: m.

(** Lookup of an attribute. *)
Definition get_attr (n : rnode) (k : string) : option attr := sget (nattrs n) k.
