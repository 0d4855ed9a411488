(** Model of the decoding of tensor messages: initializers, typed fields, raw
    bytes and external data, up to the values the rest of the importer reads. *)
From Verif Require Import Util IR_Model ExtData_Model Payload_Spec.
Open Scope N_scope.
Open Scope list_scope.

(** crates/onnx-ir/src/proto_conversion.rs:105-128 [element_type_from_proto]
    ([None]: error); the numbers are those of protos/onnx.proto:605-640. *)
Definition element_type_from_proto (c : Z) : option dtype :=
  match c with
  | 1 => Some F32 | 11 => Some F64 | 10 => Some F16 | 16 => Some BF16
  | 7 => Some I64 | 6 => Some I32 | 5 => Some I16 | 3 => Some I8
  | 13 => Some U64 | 12 => Some U32 | 4 => Some U16 | 2 => Some U8
  | 9 => Some BoolT
  | _ => None
  end%Z.

(** burn_tensor [DType::size] *)
Definition dsize (d : dtype) : N :=
  match d with
  | F64 | I64 | U64 => 8
  | F32 | I32 | U32 => 4
  | F16 | BF16 | I16 | U16 => 2
  | I8 | U8 | BoolT => 1
  end.

(** Rust [z as uN] for a number of [bytes] bytes: the low bits. *)
Definition as_unsigned (bytes : N) (z : Z) : N := Z.to_N (z mod 2 ^ Z.of_N (8 * bytes)).

(** The bytes of a number in memory on a little endian machine. *)
Fixpoint to_le (n : nat) (x : N) : list N :=
  match n with
  | O => []
  | S m => x mod 256 :: to_le m (x / 256)
  end.
(** proto_conversion.rs:498-501 [vec_to_bytes] of values given by their bit
    patterns of [w] bytes, on a little endian machine. *)
Definition vec_to_bytes (w : N) (xs : list N) : list N := flat_map (to_le (N.to_nat w)) xs.

(** crates/onnx-ir/src/tensor_store.rs:20-36 [TensorDataSource] and 46-54 [TensorDataRef] *)
Inductive data_source :=
| Embedded (bytes : list N)
| External (path : string) (off length_ : N).
Record data_ref := mkRef { dr_shape : list N; dr_dtype : dtype; dr_source : data_source }.

(** proto_conversion.rs:626-628 [convert_shape]: [as usize] *)
Definition convert_shape (dims : list Z) : list N := map (as_unsigned 8) dims.

(** [Iterator::product] over usize and a final factor: [None] is the panic of
    builds with overflow checks ([checks]); other builds wrap. *)
Fixpoint usize_product (checks : bool) (acc : N) (l : list N) : option N :=
  match l with
  | [] => Some acc
  | x :: r => if checks && (2 ^ 64 <=? acc * x) then None
              else usize_product checks ((acc * x) mod 2 ^ 64) r
  end.

(** A step of the conversion: a value, a [ParseError], or a panic. *)
Inductive outcome (A : Type) := Done (a : A) | Failed | Panic.
Arguments Done {A} a.
Arguments Failed {A}.
Arguments Panic {A}.

Section Import.
  (** The operating system's [canonicalize], and whether arithmetic overflow
      is checked. *)
  Variable canonicalize : string -> option string.
  Variable checks : bool.

  (** proto_conversion.rs:438-496 [create_external_data_ref] *)
  Definition create_external_data_ref (t : tensor_proto) (base : option string)
      (shape : list N) (d : dtype) : outcome data_ref :=
    match from_proto_entries (tp_entries t) with
    | inr _ => Failed
    | inl info =>
        match base with
        | None => Failed
        | Some b =>
            match resolve_path canonicalize b (location info) with
            | inr _ => Failed
            | inl path =>
                match len info with
                | Some n => Done (mkRef shape d (External path (offset info) n))
                | None =>
                    match usize_product checks 1 (shape ++ [dsize d]) with
                    | None => Panic
                    | Some n => Done (mkRef shape d (External path (offset info) n))
                    end
                end
            end
        end
    end.

  (** proto_conversion.rs:377-424: the bytes of the typed fields *)
  Definition typed_bytes (d : dtype) (t : tensor_proto) : list N :=
    match d with
    | F32 => vec_to_bytes 4 (tp_float t)
    | F64 => vec_to_bytes 8 (tp_double t)
    | I64 => vec_to_bytes 8 (map (as_unsigned 8) (tp_int64 t))
    | I32 => vec_to_bytes 4 (map (as_unsigned 4) (tp_int32 t))
    | I16 => vec_to_bytes 2 (map (as_unsigned 2) (tp_int32 t))
    | I8 => vec_to_bytes 1 (map (as_unsigned 1) (tp_int32 t))
    | U64 => vec_to_bytes 8 (tp_uint64 t)
    | U32 => vec_to_bytes 4 (map (fun x => as_unsigned 4 (Z.of_N x)) (tp_uint64 t))
    | U16 => vec_to_bytes 2 (map (as_unsigned 2) (tp_int32 t))
    | U8 => map (as_unsigned 1) (tp_int32 t)
    | BoolT => map (fun x => if (x =? 0)%Z then 0 else 1) (tp_int32 t)
    | F16 => vec_to_bytes 2 (map (as_unsigned 2) (tp_int32 t))
    | BF16 => vec_to_bytes 2 (map (as_unsigned 2) (tp_int32 t))
    end.

  (** proto_conversion.rs:340-430 [tensor_data_ref_from_proto] *)
  Definition tensor_data_ref_from_proto (t : tensor_proto) (base : option string) : outcome data_ref :=
    let shape := convert_shape (tp_dims t) in
    match element_type_from_proto (tp_type t) with
    | None => Failed
    | Some d =>
        if tp_external t then create_external_data_ref t base shape d
        else match tp_raw t with
             | _ :: _ => Done (mkRef shape d (Embedded (tp_raw t)))
             | [] => Done (mkRef shape d (Embedded (typed_bytes d t)))
             end
    end.

  (** The type given to an initializer (proto_conversion.rs:298-315, and the
      same code at 141-161). *)
  Definition initializer_type (shape : list N) (d : dtype) : argty :=
    match shape with
    | [] => ScalarNative d
    | _ :: _ => TensorT (mkTT d (N.of_nat (length shape)) (Some (map Some shape)))
    end.

  (** proto_conversion.rs:286-318 [argument_from_initializer_lazy_with_context] *)
  Definition lazy_initializer (t : tensor_proto) (base : option string) : outcome (argty * data_ref) :=
    match tensor_data_ref_from_proto t base with
    | Done r => Done (initializer_type (dr_shape r) (dr_dtype r), r)
    | Failed => Failed
    | Panic => Panic
    end.

  (** tensor_store.rs:104-114 [to_tensor_data] of an embedded reference: the
      bytes are copied; [TensorData::from_bytes_vec] does not look at their
      number.  A tensor as the importer sees it: shape, type, bytes. *)
  Record tensor_data := mkTD { td_shape : list N; td_dtype : dtype; td_bytes : list N }.

  (** proto_conversion.rs:165-196, the payload length across typed fields *)
  Definition payload_len (t : tensor_proto) (dim_elems : N) : N :=
    let typed := N.max (N.of_nat (length (tp_int32 t)))
                (N.max (N.of_nat (length (tp_int64 t)))
                (N.max (N.of_nat (length (tp_float t)))
                (N.max (N.of_nat (length (tp_double t))) (tp_strings t)))) in
    if 0 <? typed then typed
    else match tp_raw t with
         | _ :: _ => if dim_elems =? 1 then 1 else 0
         | [] => 0
         end.

  (** proto_conversion.rs:131-276 [argument_from_initializer].  The first
      attempt is [TensorData::try_from] (proto_conversion.rs:505-512), that is
      the conversion without a base directory.  When it fails, the second
      attempt at lines 199-215 is the same call and fails again (a panic). *)
  Definition eager_initializer (t : tensor_proto) : outcome (argty * data_ref) :=
    match tensor_data_ref_from_proto t None with
    | Panic => Panic
    | Done r => Done (initializer_type (dr_shape r) (dr_dtype r), r)
    | Failed =>
        if existsb (fun d => (d <? 0)%Z) (tp_dims t) then Panic else
        let shape := convert_shape (tp_dims t) in
        match (match tp_dims t with [] => Some 1 | _ => usize_product checks 1 shape end) with
        | None => Panic
        | Some dim_elems =>
            let looks_scalar := match tp_dims t with
                                | [] => true
                                | [x] => (x =? 1)%Z
                                | _ => false
                                end in
            if looks_scalar && (payload_len t dim_elems =? 1) then Panic
            else if (dim_elems =? 0) && (payload_len t dim_elems =? 0)
                    && match tp_dims t with [] => false | _ => true end then
              match element_type_from_proto (tp_type t) with
              | None => Panic
              | Some d => Done (TensorT (mkTT d (N.of_nat (length shape)) (Some (map Some shape))),
                                mkRef shape d (Embedded []))
              end
            else Panic
        end
    end.

  (** crates/onnx-ir/src/graph_state.rs:569-577: one initializer *)
  Definition convert_initializer (t : tensor_proto) (base : option string) : outcome (argty * data_ref) :=
    match lazy_initializer t base with
    | Done r => Done r
    | Failed => eager_initializer t
    | Panic => Panic
    end.

  (** graph_state.rs:523-546 [create_constant_node] *)
  Definition create_constant_node (node_name output_name : string) (ty : argty) (id : N) : rnode :=
    mkNode "Constant" node_name [mkArg "" ty (VStatic id)] [mkArg output_name ty VConstant] [].

  (** graph_state.rs:554-592 [process_initializers]; [names] are the node names
      drawn from the registry (or "constant1", "constant2", ...).  [None] is a panic. *)
  Fixpoint process_initializers (ts : list tensor_proto) (names : list string)
      (st : tensor_store data_ref) (cmap : list (string * N)) (base : option string)
      : option (list rnode * tensor_store data_ref * list (string * N)) :=
    match ts, names with
    | t :: ts', name :: names' =>
        match convert_initializer t base with
        | Done (ty, r) =>
            let '(st1, id) := store st r in
            let output_name := (name ++ "_out1")%string in
            match process_initializers ts' names' st1 (sput cmap output_name id) base with
            | Some (ns, st2, cm2) => Some (create_constant_node name output_name ty id :: ns, st2, cm2)
            | None => None
            end
        | _ => None
        end
    | _, _ => Some ([], st, cmap)
    end.

  (** The file system when a value is read, and how it is read (see
      ExtData_Model). *)
  Variable file_at : string -> option (list N).
  Variables mmap can_map : bool.

  (** tensor_store.rs:104-114 [to_tensor_data] ([None]: panic) *)
  Definition to_tensor_data (r : data_ref) : option tensor_data :=
    match dr_source r with
    | Embedded bs => Some (mkTD (dr_shape r) (dr_dtype r) bs)
    | External path off n =>
        match load_external_data mmap checks (file_at path) can_map off n with
        | Loaded bs => Some (mkTD (dr_shape r) (dr_dtype r) bs)
        | Panicked => None
        end
    end.

  (** crates/onnx-ir/src/ir/argument.rs:352-397 [value], for an argument that
      has its value store; [None] of the outer option is a panic. *)
  Definition value (st : tensor_store data_ref) (cmap : list (string * N)) (a : arg)
      : option (option tensor_data) :=
    let fetch id := match get st id with
                    | None => Some None
                    | Some r => match to_tensor_data r with
                                | None => None
                                | Some td => Some (Some td)
                                end
                    end in
    match asrc a with
    | VStatic id => fetch id
    | VConstant => match sget cmap (aname a) with None => Some None | Some id => fetch id end
    | VDynamic | VOptional => Some None
    end.
End Import.

(** burn_tensor [TensorData::as_slice]: the bytes are viewed as consecutive
    elements of the type; an error ([None]) if their number is not a multiple
    of the element size. *)
Fixpoint from_le (bs : list N) (acc scale : N) : N :=
  match bs with
  | [] => acc
  | b :: r => from_le r (acc + b * scale) (scale * 256)
  end.
Fixpoint chunks (count : nat) (w : nat) (bs : list N) : list (list N) :=
  match count with
  | O => []
  | S m => firstn w bs :: chunks m w (skipn w bs)
  end.
Definition as_bits (td : tensor_data) : option (list N) :=
  let w := dsize (td_dtype td) in
  let n := N.of_nat (length (td_bytes td)) in
  if n mod w =? 0
  then Some (map (fun c => from_le c 0 1) (chunks (N.to_nat (n / w)) (N.to_nat w) (td_bytes td)))
  else None.

(** The integer with a bit pattern: Rust's [iN] or [uN] from its bits. *)
Definition int_of_bits (d : dtype) (b : N) : Z :=
  let full := (2 ^ Z.of_N (8 * dsize d))%Z in
  match d with
  | I64 | I32 | I16 | I8 => if (Z.of_N b <? full / 2)%Z then Z.of_N b else (Z.of_N b - full)%Z
  | _ => Z.of_N b
  end.
Definition as_ints (td : tensor_data) : option (list Z) :=
  match as_bits td with
  | Some bs => Some (map (int_of_bits (td_dtype td)) bs)
  | None => None
  end.

(** crates/onnx-ir/src/ir/tensor_data_ext.rs:70-86 [scalar_i64], integer types
    only; [Panic]: indexing an empty slice. *)
Definition scalar_i64 (td : tensor_data) : outcome Z :=
  match td_dtype td with
  | I64 | I32 | I8 | U8 | U16 =>
      match as_ints td with
      | None => Failed
      | Some [] => Panic
      | Some (z :: _) => Done z
      end
  | _ => Failed
  end.

(** tensor_data_ext.rs:88-97 [to_i64_vec] *)
Definition to_i64_vec (td : tensor_data) : option (list Z) :=
  match td_dtype td with
  | I64 | I32 => as_ints td
  | _ => None
  end.
