(** What ONNX prescribes for its two-operand element-wise operators, and which
    run-time values of the generated program stand for which ONNX tensors.
    Nothing here mentions the generated code. *)
From Coq Require Import SpecFloat.
From Verif Require Export IR_Model Tensor_Spec.
Local Open Scope Z_scope.

(** ** Elements *)
Inductive elt := EI (z : Z) | EB (b : bool) | EF (x : spec_float).

(** The integers and the floating-point formats of a data type. *)
Definition int_range (d : dtype) : option (Z * Z) :=
  match d with
  | I64 => Some (-9223372036854775808, 9223372036854775807)
  | I32 => Some (-2147483648, 2147483647)
  | I16 => Some (-32768, 32767)
  | I8 => Some (-128, 127)
  | U64 => Some (0, 18446744073709551615)
  | U32 => Some (0, 4294967295)
  | U16 => Some (0, 65535)
  | U8 => Some (0, 255)
  | _ => None
  end.
Definition float_format (d : dtype) : option (Z * Z) :=
  match d with
  | F64 => Some (53, 1024) | F32 => Some (24, 128) | F16 => Some (11, 16) | BF16 => Some (8, 128)
  | _ => None
  end.
Definition in_dtype (d : dtype) (x : elt) : Prop :=
  match x with
  | EI z => exists lo hi, int_range d = Some (lo, hi) /\ lo <= z <= hi
  | EF _ => exists f, float_format d = Some f
  | EB _ => d = BoolT
  end.

(** ** The operators *)
Inductive bop :=
| OAdd | OSub | OMul | ODiv | OMod
| OEqual | OGreater | OGreaterOrEqual | OLess | OLessOrEqual
| OAnd | OOr | OXor | OMax | OMin | OBitAnd | OBitOr | OBitXor | OShiftLeft | OShiftRight.

Definition is_compare (op : bop) : bool :=
  match op with OEqual | OGreater | OGreaterOrEqual | OLess | OLessOrEqual => true | _ => false end.

(** The exact integer result, where the operator defines one: division
    truncates and, like [Mod], is undefined on zero; [Mod] without the [fmod]
    attribute takes the sign of the divisor; shifts are for unsigned types. *)
Definition int_op (op : bop) (a b : Z) : option elt :=
  match op with
  | OAdd => Some (EI (a + b)) | OSub => Some (EI (a - b)) | OMul => Some (EI (a * b))
  | ODiv => if b =? 0 then None else Some (EI (Z.quot a b))
  | OMod => if b =? 0 then None else Some (EI (a mod b))
  | OEqual => Some (EB (a =? b)) | OGreater => Some (EB (b <? a)) | OGreaterOrEqual => Some (EB (b <=? a))
  | OLess => Some (EB (a <? b)) | OLessOrEqual => Some (EB (a <=? b))
  | OMax => Some (EI (Z.max a b)) | OMin => Some (EI (Z.min a b))
  | OBitAnd => Some (EI (Z.land a b)) | OBitOr => Some (EI (Z.lor a b)) | OBitXor => Some (EI (Z.lxor a b))
  | OShiftLeft => if (a <? 0) || (b <? 0) then None else Some (EI (Z.shiftl a b))
  | OShiftRight => if (a <? 0) || (b <? 0) then None else Some (EI (Z.shiftr a b))
  | OAnd | OOr | OXor => None
  end.
Definition bool_op (op : bop) (a b : bool) : option elt :=
  match op with
  | OAnd => Some (EB (a && b)) | OOr => Some (EB (a || b)) | OXor => Some (EB (xorb a b))
  | OEqual => Some (EB (Bool.eqb a b))
  | _ => None
  end%bool.
(** IEEE 754 arithmetic, rounding to nearest; [Max] and [Min] are left open on
    NaNs and between the two zeros; [Mod] of floats is left out. *)
Definition same_float (a b : spec_float) : {a = b} + {a <> b}.
Proof. decide equality; try apply Bool.bool_dec; try apply Z.eq_dec; apply Pos.eq_dec. Defined.
Definition float_op (f : Z * Z) (op : bop) (a b : spec_float) : option elt :=
  let (p, e) := f in
  match op with
  | OAdd => Some (EF (SFadd p e a b)) | OSub => Some (EF (SFsub p e a b))
  | OMul => Some (EF (SFmul p e a b)) | ODiv => Some (EF (SFdiv p e a b))
  | OEqual => Some (EB (SFeqb a b)) | OGreater => Some (EB (SFltb b a)) | OGreaterOrEqual => Some (EB (SFleb b a))
  | OLess => Some (EB (SFltb a b)) | OLessOrEqual => Some (EB (SFleb a b))
  | OMax => match SFcompare a b with Some Lt => Some (EF b) | Some Gt => Some (EF a)
            | Some Eq => if same_float a b then Some (EF a) else None | None => None end
  | OMin => match SFcompare a b with Some Lt => Some (EF a) | Some Gt => Some (EF b)
            | Some Eq => if same_float a b then Some (EF a) else None | None => None end
  | _ => None
  end.

(** An integer result must be a number of the type: ONNX does not say what
    happens otherwise. *)
Definition fits (d : dtype) (x : elt) : bool :=
  match x with
  | EI z => match int_range d with Some (lo, hi) => (lo <=? z) && (z <=? hi) | None => false end
  | _ => true
  end.
Definition onnx_elt (d : dtype) (op : bop) (x y : elt) : option elt :=
  match (match x, y with
         | EI a, EI b => int_op op a b
         | EB a, EB b => bool_op op a b
         | EF a, EF b => match float_format d with Some f => float_op f op a b | None => None end
         | _, _ => None
         end) with
  | Some r => if fits d r then Some r else None
  | None => None
  end.

(** Multidirectional broadcasting of an operation that may be undefined. *)
Definition broadcast2 {A B} (op : A -> A -> option B) (x y : tensor A) : option (tensor B) :=
  match bshape (tshape x) (tshape y) with
  | None => None
  | Some s => tab s (fun idx => match get x (bproj (tshape x) idx), get y (bproj (tshape y) idx) with
                                | Some a, Some b => op a b
                                | _, _ => None end)
  end.
Definition onnx_binary (d : dtype) (op : bop) (x y : tensor elt) : option (tensor elt) :=
  broadcast2 (onnx_elt d op) x y.

(** ** Run-time values: a tensor on the device, a native scalar, or an
    [i64; N] array. *)
Inductive rv := RTensor (t : tensor elt) | RNative (x : elt) | RShape (l : list Z).

(** A value of the type recorded for an argument stands for an ONNX tensor of
    element type [d]: a device scalar is kept in a tensor of shape [1]; an
    array holds the elements of a one-dimensional int64 tensor or, with 0 for
    false and 1 for true, of a boolean one. *)
Definition stands_for (d : dtype) (ty : argty) (v : rv) (t : tensor elt) : Prop :=
  twf t /\ Forall (in_dtype d) (tdata t) /\
  match ty, v with
  | TensorT y, RTensor t' => t' = t /\ tt_dtype y = d /\ N.of_nat (length (tshape t)) = tt_rank y /\ tt_rank y <> 0%N
  | ScalarTensor d', RTensor t' => d' = d /\ tshape t = [] /\ t' = mkT [1%N] (tdata t)
  | ScalarNative d', RNative x => d' = d /\ t = mkT [] [x]
  | ShapeT n, RShape l =>
      N.of_nat (length l) = n /\
      (d = I64 /\ t = mkT [n] (map EI l) \/
       d = BoolT /\ t = mkT [n] (map (fun z => EB (z =? 1)) l) /\ Forall (fun z => z = 0 \/ z = 1) l)
  | _, _ => False
  end.

(** ** The combinations of operand types the theorem is about.  Left out, with
    a counterexample or a refusal for each in BinOps_Props: [Max] and [Min]
    with a native scalar; a native scalar divided by a device value; [Mod] of two native
    scalars; shifts of operands of different ranks; an array with an array of
    another length, with a tensor of another rank, or compared with a scalar;
    arrays under [Mod], [Max], [Min], the bitwise operators and the shifts. *)
Definition is_arith (op : bop) : bool := match op with OAdd | OSub | OMul | ODiv => true | _ => false end.
Definition is_logic (op : bop) : bool := match op with OAnd | OOr | OXor => true | _ => false end.
Definition is_shift (op : bop) : bool := match op with OShiftLeft | OShiftRight => true | _ => false end.
Definition is_extremum (op : bop) : bool := match op with OMax | OMin => true | _ => false end.
Definition combination (op : bop) (lty rty : argty) : Prop :=
  match lty, rty with
  | TensorT a, TensorT b => is_shift op = true -> tt_rank a = tt_rank b
  | TensorT a, ScalarTensor _ | ScalarTensor _, TensorT a => is_shift op = true -> tt_rank a = 1%N
  | ScalarTensor _, ScalarTensor _ => True
  | (TensorT _ | ScalarTensor _), ScalarNative d => is_extremum op = false /\ (is_logic op = true -> d = BoolT)
  | ScalarNative d, (TensorT _ | ScalarTensor _) => is_extremum op = false /\ (is_logic op = true -> d = BoolT) /\ op <> ODiv
  | ScalarNative _, ScalarNative _ => is_extremum op = false /\ op <> OMod
  | ShapeT n, ShapeT m => n = m /\ is_arith op || is_compare op || is_logic op = true
  | ShapeT _, (ScalarTensor d | ScalarNative d) | (ScalarTensor d | ScalarNative d), ShapeT _ =>
      d = I64 /\ is_arith op = true
  | ShapeT _, TensorT y | TensorT y, ShapeT _ =>
      tt_dtype y = I64 /\ tt_rank y = 1%N /\ is_arith op || is_compare op = true
  end%bool.
