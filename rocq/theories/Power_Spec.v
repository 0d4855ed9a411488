(** What ONNX prescribes for Pow, Sum, Mean, Not and BitwiseNot.  Nothing here
    mentions the generated code. *)
From Coq Require Import SpecFloat.
From Verif Require Export BinOps_Spec.
Import Tensor_Spec.
Local Open Scope Z_scope.

Definition floating (d : dtype) : bool := match d with F64 | F32 | F16 | BF16 => true | _ => false end.
Definition signed (d : dtype) : bool := match d with I64 | I32 | I16 | I8 => true | _ => false end.

(** ** Pow.  The power of two floating-point numbers, and of one by a whole
    number, in the format of the base, are parameters: ONNX does not say how they
    are rounded.  Whole numbers have a power when the exponent is not negative;
    a whole number to a power that is not one is left out. *)
Section Pow.
  Variables (powf : dtype -> spec_float -> spec_float -> spec_float) (powi : dtype -> spec_float -> Z -> spec_float).
  Definition pow_elt (d : dtype) (x y : elt) : option elt :=
    match x, y with
    | EI a, EI b => if b <? 0 then None else if fits d (EI (a ^ b)) then Some (EI (a ^ b)) else None
    | EF a, EF b => Some (EF (powf d a b))
    | EF a, EI b => Some (EF (powi d a b))
    | _, _ => None
    end.
  Definition onnx_pow (d : dtype) (x y : tensor elt) : option (tensor elt) := broadcast2 (pow_elt d) x y.
End Pow.

(** ** Sum and Mean of any number of tensors. *)
Fixpoint add_all (d : dtype) (acc : tensor elt) (l : list (tensor elt)) : option (tensor elt) :=
  match l with
  | [] => Some acc
  | t :: r => match onnx_binary d OAdd acc t with Some s => add_all d s r | None => None end
  end.
Definition onnx_sum (d : dtype) (l : list (tensor elt)) : option (tensor elt) :=
  match l with [] => None | t :: r => add_all d t r end.
(** The number of inputs, in the type of the elements. *)
Definition count (d : dtype) (n : nat) : elt :=
  match float_format d with Some (p, e) => EF (binary_normalize p e (Z.of_nat n) 0 false) | None => EI (Z.of_nat n) end.
Definition onnx_mean (d : dtype) (l : list (tensor elt)) : option (tensor elt) :=
  match onnx_sum d l with
  | Some s => onnx_binary d ODiv s (mkT [] [count d (length l)])
  | None => None
  end.

(** ** Not and BitwiseNot: the greatest and the least number of a type change places. *)
Definition not_elt (x : elt) : option elt := match x with EB b => Some (EB (negb b)) | _ => None end.
Definition bitnot_elt (d : dtype) (x : elt) : option elt :=
  match x, int_range d with EI z, Some (lo, hi) => Some (EI (lo + hi - z)) | _, _ => None end.
Definition each (f : elt -> option elt) (t : tensor elt) : option (tensor elt) := option_map (mkT (tshape t)) (mapo f (tdata t)).

(** ** The operands the theorems are about. *)
Definition device (ty : argty) : Prop := match ty with TensorT _ | ScalarTensor _ => True | _ => False end.
Definition native (ty : argty) : Prop := match ty with ScalarNative _ => True | _ => False end.
(** A native power converts its exponent to 32 bits. *)
Definition small_exponent (d : dtype) (v : rv) : Prop :=
  forall b, v = RNative (EI b) -> if floating d then -2147483648 <= b < 2147483648 else b < 4294967296.
Definition pow_operands (d d' : dtype) (lty rty : argty) (vr : rv) : Prop :=
  (floating d' = true \/ signed d' = true) /\
  (device lty /\ device rty /\ d' = d \/
   device lty /\ native rty /\ (d' = d \/ floating d = true /\ signed d' = true) \/
   native lty /\ native rty /\ (d' = d \/ floating d = true /\ signed d' = true) /\ small_exponent d vr \/
   native lty /\ floating d = true /\ device rty /\ d' = d).
(** The ranks the program works with: a scalar on the device is a tensor of one dimension. *)
Definition device_rank (ty : argty) : N := match ty with TensorT t => tt_rank t | ScalarTensor _ => 1%N | _ => 0%N end.
(** An operand: the type recorded for it, the value it has in the program, and
    the tensor that value stands for. *)
Record operand := Op { oty : argty; oval : rv; oten : tensor elt }.
Definition element_of (ty : argty) : dtype :=
  match ty with TensorT t => tt_dtype t | ScalarTensor d | ScalarNative d => d | ShapeT _ => I64 end.
