(** Specification for C45: what the ONNX format says the contents of a tensor
    message are.  Nothing here refers to the importer. *)
From Verif Require Import Util IR_Model ExtData_Spec.
Open Scope N_scope.
Open Scope list_scope.

(** The fields of an ONNX [TensorProto] that carry a tensor.  Bytes are
    numbers below 256; floating point values are given by their bit patterns. *)
Record tensor_proto := mkTP {
  tp_dims : list Z;
  tp_type : Z;
  tp_external : bool;
  tp_entries : list (string * string);
  tp_raw : list N;
  tp_float : list N;
  tp_double : list N;
  tp_int32 : list Z;
  tp_int64 : list Z;
  tp_uint64 : list N;
  tp_strings : N
}.

(** Number of bytes of one element. *)
Definition elem_bytes (d : dtype) : N :=
  match d with
  | F64 | I64 | U64 => 8
  | F32 | I32 | U32 => 4
  | F16 | BF16 | I16 | U16 => 2
  | I8 | U8 | BoolT => 1
  end.

Definition is_signed (d : dtype) : bool :=
  match d with I64 | I32 | I16 | I8 => true | _ => false end.
Definition is_int (d : dtype) : bool :=
  match d with I64 | I32 | I16 | I8 | U64 | U32 | U16 | U8 => true | _ => false end.

(** The integers an element type can represent. *)
Definition representable (d : dtype) (z : Z) : Prop :=
  let bits := Z.of_N (8 * elem_bytes d) in
  if is_signed d then (- 2 ^ (bits - 1) <= z < 2 ^ (bits - 1))%Z
  else match d with BoolT => z = 0%Z \/ z = 1%Z | _ => (0 <= z < 2 ^ bits)%Z end.

(** The number written by a list of bytes, the least significant one first. *)
Fixpoint little_endian (bs : list N) : N :=
  match bs with
  | [] => 0
  | b :: r => b + 256 * little_endian r
  end.

(** [z] is the integer of type [d] whose bit pattern is [bits]: for signed
    types in two's complement. *)
Definition pattern_of (d : dtype) (bits : N) (z : Z) : Prop :=
  representable d z /\ (z mod 2 ^ Z.of_N (8 * elem_bytes d))%Z = Z.of_N bits.

(** [vs] is what the bytes [bs] hold when read as consecutive elements. *)
Definition bytes_hold (d : dtype) (bs : list N) (vs : list Z) : Prop :=
  N.of_nat (length bs) = elem_bytes d * N.of_nat (length vs) /\
  forall k z, nth_error vs k = Some z ->
    pattern_of d (little_endian
      (firstn (N.to_nat (elem_bytes d)) (skipn (k * N.to_nat (elem_bytes d)) bs))) z.

Definition element_count (dims : list Z) : Z := fold_right Z.mul 1%Z dims.

(** The number of an element type in the format ([TensorProto.DataType]). *)
Definition type_code (d : dtype) : Z :=
  match d with
  | F32 => 1 | U8 => 2 | I8 => 3 | U16 => 4 | I16 => 5 | I32 => 6 | I64 => 7
  | BoolT => 9 | F16 => 10 | F64 => 11 | U32 => 12 | U64 => 13 | BF16 => 16
  end%Z.

(** The field that carries the elements of an integer type when they are not
    given as raw bytes. *)
Definition typed_values (d : dtype) (t : tensor_proto) : list Z :=
  match d with
  | I64 => tp_int64 t
  | U64 | U32 => map Z.of_N (tp_uint64 t)
  | _ => tp_int32 t
  end.

(** [holds files base t d vs]: the message [t] of the model in directory
    [base] is a tensor of integers (or booleans) of type [d] with elements
    [vs]: its payload, wherever it is, has exactly as many elements as the
    shape says. *)
Inductive holds (file_at : string -> option (list N)) (resolved : string -> string -> Prop)
    (t : tensor_proto) (d : dtype) (vs : list Z) : Prop :=
| holds_raw :
    tp_external t = false -> tp_raw t <> [] -> bytes_hold d (tp_raw t) vs ->
    holds file_at resolved t d vs
| holds_typed :
    tp_external t = false -> tp_raw t = [] -> typed_values d t = vs ->
    Forall (representable d) vs -> holds file_at resolved t d vs
| holds_external : forall loc off n sum path content bs,
    tp_external t = true ->
    entries_describe (tp_entries t) loc off n sum ->
    resolved loc path -> file_at path = Some content ->
    (n = None \/ n = Some (N.of_nat (length bs))) ->
    is_range content off (N.of_nat (length bs)) bs ->
    bytes_hold d bs vs -> holds file_at resolved t d vs.

(** What it means to be a message the protobuf reader can deliver. *)
Definition byte (b : N) : Prop := b < 256.
Definition well_typed (t : tensor_proto) : Prop :=
  Forall (fun z => (- 2 ^ 63 <= z < 2 ^ 63)%Z) (tp_dims t) /\
  Forall byte (tp_raw t) /\
  Forall (fun b => b < 2 ^ 32) (tp_float t) /\
  Forall (fun b => b < 2 ^ 64) (tp_double t) /\
  Forall (fun z => (- 2 ^ 31 <= z < 2 ^ 31)%Z) (tp_int32 t) /\
  Forall (fun z => (- 2 ^ 63 <= z < 2 ^ 63)%Z) (tp_int64 t) /\
  Forall (fun b => b < 2 ^ 64) (tp_uint64 t).

(** The size of a tensor a machine can hold. *)
Definition addressable (d : dtype) (dims : list Z) : Prop :=
  Forall (fun z => (0 <= z)%Z) dims /\
  (forall k, element_count (firstn k dims) * Z.of_N (elem_bytes d) < 2 ^ 63)%Z.
