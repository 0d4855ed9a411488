(** The public face of a generated model: Rust types, how a reader of the
    source takes the header of [forward] apart, and the values a caller passes
    and receives.  Nothing here refers to the code generator. *)
From Coq Require Import DecimalString.
From Verif Require Import IR_Model.

(** Types that a header can mention.  A path such as [half::f16] is the list of
    its segments. *)
Inductive tkind := KFloat | KInt | KBool.
Inductive rty :=
| RTensor (rank : N) (k : tkind)
| RPrim (path : list string)
| RArray (n : N)
| RTuple (l : list rty).

Definition kind_of_dtype (d : dtype) : tkind :=
  match d with F64 | F32 | F16 | BF16 => KFloat | BoolT => KBool | _ => KInt end.

(** The Rust type of one native number. *)
Definition native (d : dtype) : list string :=
  match d with
  | F64 => ["f64"] | F32 => ["f32"] | F16 => ["half"; "f16"] | BF16 => ["half"; "bf16"]
  | I64 => ["i64"] | I32 => ["i32"] | I16 => ["i16"] | I8 => ["i8"]
  | U64 => ["u64"] | U32 => ["u32"] | U16 => ["u16"] | U8 => ["u8"]
  | BoolT => ["bool"]
  end%string.

(** What a user expects to pass for, or get from, a value of an ONNX type:
    tensors of the right rank and kind, native numbers for scalars, and arrays
    of [i64] for shapes. *)
Definition public_type (t : argty) : rty :=
  match t with
  | TensorT ty => RTensor (tt_rank ty) (kind_of_dtype (tt_dtype ty))
  | ScalarTensor d | ScalarNative d => RPrim (native d)
  | ShapeT n => RArray n
  end.

(** One result is returned as it is, none or several as a tuple. *)
Definition result_type (l : list rty) : rty := match l with [t] => t | _ => RTuple l end.

(** Names made of letters, digits and underscores. *)
Definition ident_char (c : ascii) : bool :=
  let n := N_of_ascii c in
  ((48 <=? n) && (n <=? 57) || (65 <=? n) && (n <=? 90) || (97 <=? n) && (n <=? 122) || (n =? 95))%N%bool.
Definition ident (x : string) : Prop := string_forall ident_char x = true.

(** ** Reading Rust *)
Notation token := string (only parsing).
Notation "a =? b" := (String.eqb a b) : string_scope.

Definition read_number (t : token) : option N :=
  match t with
  | EmptyString => None
  | _ => match NilEmpty.uint_of_string t with Some d => Some (N.of_uint d) | None => None end
  end.

Definition read_kind (t : token) : option tkind :=
  if (t =? "Int")%string then Some KInt else if (t =? "Bool")%string then Some KBool
  else if (t =? "Float")%string then Some KFloat else None.

(** A type other than a tuple, and what is left: [Tensor<B, n>],
    [Tensor<B, n, Kind>], [[i64; n]], [path::name], [name].  The kind of a
    tensor is [Float] unless it is given. *)
Definition read_type (ts : list token) : option (rty * list token) :=
  match ts with
  | [] => None
  | t :: r =>
      if (t =? "Tensor")%string then
        match r with
        | a :: b :: c :: n :: d :: r1 =>
            if ((a =? "<") && (b =? "B") && (c =? ","))%string then
              match read_number n with
              | None => None
              | Some k =>
                  if (d =? ">")%string then Some (RTensor k KFloat, r1)
                  else if (d =? ",")%string then
                    match r1 with
                    | q :: e :: r2 => if (e =? ">")%string then match read_kind q with Some kd => Some (RTensor k kd, r2) | None => None end else None
                    | _ => None
                    end
                  else None
              end
            else None
        | _ => None
        end
      else if (t =? "[")%string then
        match r with
        | a :: b :: n :: c :: r1 =>
            if ((a =? "i64") && (b =? ";") && (c =? "]"))%string
            then match read_number n with Some k => Some (RArray k, r1) | None => None end else None
        | _ => None
        end
      else if ((t =? "(") || (t =? ")") || (t =? ",") || (t =? "{"))%string then None
      else match r with
           | a :: q :: r1 => if (a =? "::")%string then Some (RPrim [t; q], r1) else Some (RPrim [t], r)
           | _ => Some (RPrim [t], r)
           end
  end.

(** Items separated by commas and closed by a parenthesis; a comma before the
    parenthesis is allowed.  The boolean says whether the list ended with one. *)
Fixpoint read_list {A} (fuel : nat) (item : list token -> option (A * list token)) (ts : list token)
  : option (list A * bool * list token) :=
  match fuel with
  | O => None
  | S f =>
      match ts with
      | [] => None
      | t :: r =>
          if (t =? ")")%string then Some ([], true, r)
          else match item ts with
               | Some (x, c :: r1) =>
                   if (c =? ",")%string then match read_list f item r1 with Some (l, b, r2) => Some (x :: l, b, r2) | None => None end
                   else if (c =? ")")%string then Some ([x], false, r1) else None
               | _ => None
               end
      end
  end.

(** A parameter: [name: Type]. *)
Definition read_param (ts : list token) : option ((string * rty) * list token) :=
  match ts with
  | x :: c :: r => if (c =? ":")%string then match read_type r with Some (t, r1) => Some ((x, t), r1) | None => None end else None
  | _ => None
  end.

Definition read_name (ts : list token) : option (string * list token) :=
  match ts with [] => None | x :: r => Some (x, r) end.

(** A type: [(T)] is [T], [(T,)] and longer lists are tuples. *)
Definition read_result (ts : list token) : option (rty * list token) :=
  match ts with
  | t :: r =>
      if (t =? "(")%string then
        match read_list (S (length r)) read_type r with
        | Some ([x], false, r1) => Some (x, r1)
        | Some (l, _, r1) => Some (RTuple l, r1)
        | None => None
        end
      else read_type ts
  | [] => None
  end.

(** [pub fn forward(&self, a: A, ...) -> R {]: the parameters after [self], the
    type returned, and the rest of the text. *)
Definition read_header (ts : list token) : option (list (string * rty) * rty * list token) :=
  match ts with
  | a :: b :: c :: d :: e :: f :: g :: r =>
      if ((a =? "pub") && (b =? "fn") && (c =? "forward") && (d =? "(") && (e =? "&") && (f =? "self") && (g =? ","))%string then
        match read_list (S (length r)) read_param r with
        | Some (ps, _, x :: y) =>
            if (x =? "->")%string then
              match read_result y with
              | Some (t, z :: rest) => if (z =? "{")%string then Some (ps, t, rest) else None
              | _ => None
              end
            else None
        | _ => None
        end
      else None
  | _ => None
  end.

(** The expression at the end of a function, up to the closing brace: the names
    of the values returned. *)
Definition read_return (ts : list token) : option (list string) :=
  match ts with
  | t :: r =>
      if (t =? "(")%string then
        match read_list (S (length r)) read_name r with
        | Some (l, _, [z]) => if (z =? "}")%string then Some l else None
        | _ => None
        end
      else match r with [z] => if (z =? "}")%string then Some [t] else None | _ => None end
  | [] => None
  end.

(** ** Values.  A native number of some element type, a tensor of one element on
    the device, or anything else (a tensor or an array). *)
Inductive rval (V W : Type) :=
| Native (d : dtype) (v : V)
| OnDevice (d : dtype) (v : V)
| Whole (w : W).
Arguments Native {V W}. Arguments OnDevice {V W}. Arguments Whole {V W}.

Section Values.
  Variables V W : Type.
  (** the number a device holds after a native one is sent to it, and back *)
  Variables up down : dtype -> V -> V.

  (** The caller passes native numbers for scalars and tensors or arrays for the
      rest. *)
  Definition passes (t : argty) (v : rval V W) : Prop :=
    match t, v with
    | (ScalarTensor d | ScalarNative d), Native d' _ => d = d'
    | (TensorT _ | ShapeT _), Whole _ => True
    | _, _ => False
    end.

  (** The nodes read a scalar that the graph keeps on the device from there. *)
  Definition inside (t : argty) (v : rval V W) : rval V W :=
    match t, v with ScalarTensor d, Native _ x => OnDevice d (up d x) | _, _ => v end.

  (** What the caller gets for a value the nodes computed. *)
  Definition outside (t : argty) (v : rval V W) : rval V W :=
    match t, v with ScalarTensor d, OnDevice _ x => Native d (down d x) | _, _ => v end.

  (** The nodes left a value of the type of the graph. *)
  Definition computes (t : argty) (v : rval V W) : Prop :=
    match t, v with
    | ScalarTensor d, OnDevice d' _ => d = d'
    | ScalarNative d, Native d' _ => d = d'
    | (TensorT _ | ShapeT _), Whole _ => True
    | _, _ => False
    end.
End Values.
Arguments passes {V W}. Arguments inside {V W}. Arguments outside {V W}. Arguments computes {V W}.
