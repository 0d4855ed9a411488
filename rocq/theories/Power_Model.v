(** The code emitted for Pow, Sum, Mean, Not and BitwiseNot:
    crates/burn-onnx/src/burn/node/{pow,sum,mean,not,bitwisenot}.rs and
    crates/onnx-ir/src/node/{pow,sum,mean,not,bitwisenot}.rs. *)
From Coq Require Import SpecFloat.
From Verif Require Export BinOps_Model Infer_Model ShapeOps_Model Power_Spec.
Import BinOps_Spec Power_Spec Tensor_Spec BinOps_Model.
Local Open Scope Z_scope.

(** ** Pow *)
Inductive pcode :=
| PDevice (int : bool) (a b : dexp)   (* a.powi(b), a.powf(b) *)
| PByScalar (int : bool)                (* lhs.powi_scalar(rhs), lhs.powf_scalar(rhs) *)
| PNativeF                            (* lhs.powf(rhs) *)
| PNativeFI                           (* lhs.powi(rhs as i32) *)
| PNativeI.                           (* lhs.pow(rhs as u32) *)

(** The element type of the exponent; arrays are a panic. *)
Definition exp_dtype (ty : argty) : option dtype :=
  match ty with TensorT t => Some (tt_dtype t) | ScalarTensor d | ScalarNative d => Some d | ShapeT _ => None end.
(** pow.rs:31-49: [true] is [PowerType::Int]. *)
Definition power_type (rty : argty) : option bool :=
  match exp_dtype rty with
  | Some d => if signed d then Some true else if floating d then Some false else None
  | None => None
  end.
(** pow.rs:52-66 and 68-83. *)
Definition pow_pair (int : bool) (lty rty : argty) : pcode :=
  let l := rank_of lty in let r := rank_of rty in
  if N.eqb l r then PDevice int (DVar L) (DVar R)
  else if N.ltb r l then PDevice int (DVar L) (DUnsqueeze (N.to_nat (l - r)) (DVar R))
  else PDevice int (DUnsqueeze (N.to_nat (r - l)) (DVar L)) (DVar R).
(** pow.rs:98-144. *)
Definition pow_base (rty : argty) : dexp :=
  if N.ltb 1 (rank_of rty) then DUnsqueeze (N.to_nat (rank_of rty - 1)) (DFromNative L) else DFromNative L.
(** pow.rs:21-156. *)
Definition gen_pow (lty rty : argty) : option pcode :=
  match power_type rty with
  | None => None
  | Some int =>
      if on_device lty && on_device rty then Some (pow_pair int lty rty)
      else match int, lty, rty with
           | false, ScalarNative _, ScalarNative _ => Some PNativeF
           | true, ScalarNative d, ScalarNative _ => Some (if floating d then PNativeFI else PNativeI)
           | false, ScalarNative _, _ => if on_device rty then Some (PDevice false (pow_base rty) (DVar R)) else None
           | true, ScalarNative d, _ => if on_device rty && floating d then Some (PDevice true (pow_base rty) (DVar R)) else None
           | _, _, ScalarNative _ => Some (PByScalar int)
           | _, _, _ => None
           end
  end.
(** onnx-ir pow.rs:48-56. *)
Definition infer_pow (lty rty : argty) : option argty := broadcast_output_type [lty; rty] None.

Section RunPow.
  Variables (powf : dtype -> spec_float -> spec_float -> spec_float) (powi : dtype -> spec_float -> Z -> spec_float).
  (** Burn's methods: of two tensors of the same kind; a scalar exponent may be a
      whole number although the base is not.  Arrays have none of them. *)
  Definition burn_pow (d : dtype) (int : bool) (x y : elt) : option elt :=
    match int, x, y with
    | true, EI a, EI b => if b <? 0 then None else if fits d (EI (a ^ b)) then Some (EI (a ^ b)) else None
    | false, EF a, EF b => Some (EF (powf d a b))
    | _, _, _ => None
    end.
  Definition burn_pow_scalar (d : dtype) (int : bool) (x y : elt) : option elt :=
    match int, x, y with true, EF a, EI b => Some (EF (powi d a b)) | _, _, _ => burn_pow d int x y end.
  (** [as i32] and [as u32] wrap around; an overflow of [pow] is a panic. *)
  Definition as_i32 (z : Z) : Z := (z + 2147483648) mod 4294967296 - 2147483648.
  Definition as_u32 (z : Z) : Z := z mod 4294967296.
  Definition run_pow (d : dtype) (lhs rhs : rv) (c : pcode) : option rv :=
    match c with
    | PDevice int a b =>
        match deval lhs rhs a, deval lhs rhs b with
        | Some x, Some y =>
            if Nat.eqb (length (tshape x)) (length (tshape y)) then option_map RTensor (broadcast2 (burn_pow d int) x y) else None
        | _, _ => None
        end
    | PByScalar int =>
        match lhs, rhs with RTensor t, RNative y => option_map RTensor (tmapo (fun x => burn_pow_scalar d int x y) t) | _, _ => None end
    | PNativeF => match lhs, rhs with RNative (EF a), RNative (EF b) => Some (RNative (EF (powf d a b))) | _, _ => None end
    | PNativeFI => match lhs, rhs with RNative (EF a), RNative (EI b) => Some (RNative (EF (powi d a (as_i32 b)))) | _, _ => None end
    | PNativeI =>
        match lhs, rhs with
        | RNative (EI a), RNative (EI b) => if fits d (EI (a ^ as_u32 b)) then Some (RNative (EI (a ^ as_u32 b))) else None
        | _, _ => None
        end
    end.
End RunPow.

(** ** Sum and Mean *)
(** onnx-ir sum.rs:59-84: all element types are the same and numeric; booleans are not. *)
Definition type_elem (ty : argty) : dtype :=
  match ty with TensorT t => tt_dtype t | ScalarTensor d | ScalarNative d => d | ShapeT _ => I64 end.
Fixpoint sum_types (expected : option dtype) (tys : list argty) : bool :=
  match tys with
  | [] => true
  | ty :: r =>
      let d := type_elem ty in
      if dtype_beq d BoolT then false
      else match expected with
           | Some x => if dtype_beq d x then sum_types expected r else false
           | None => sum_types (Some d) r
           end
  end.
Definition infer_sum (tys : list argty) : ires argty :=
  if sum_types None tys then match broadcast_output_type tys None with Some ty => IOk ty | None => IPanic end else IErr.
(** onnx-ir mean.rs:46-54. *)
Definition infer_mean (tys : list argty) : ires argty := match broadcast_output_type tys None with Some ty => IOk ty | None => IPanic end.

(** The Rust expression [a + b]: tensors of one number of dimensions, a tensor and
    a scalar, or two scalars; not arrays. *)
Definition rust_add (d : dtype) (v w : rv) : option rv :=
  match v, w with
  | RTensor x, RTensor y =>
      if Nat.eqb (length (tshape x)) (length (tshape y)) then option_map RTensor (broadcast2 (burn_elt d MAdd) x y) else None
  | RTensor x, RNative b => option_map RTensor (tmapo (fun a => burn_elt d MAdd a b) x)
  | RNative a, RTensor y => option_map RTensor (tmapo (fun b => infix_tensor_elt d IPlus a b) y)
  | RNative a, RNative b => option_map RNative (native_elt d IPlus a b)
  | _, _ => None
  end.
(** burn/node/sum.rs:12-20: [i1 + i2 + ...], from the left. *)
Fixpoint sum_from (d : dtype) (acc : rv) (l : list rv) : option rv :=
  match l with [] => Some acc | v :: r => match rust_add d acc v with Some s => sum_from d s r | None => None end end.
Definition run_sum (d : dtype) (l : list rv) : option rv := match l with [] => None | v :: r => sum_from d v r end.
(** burn/node/mean.rs:12-21: [(i1 + i2 + ...) / n] with [n] of type [u32], which
    only a tensor can be divided by; Burn converts it to the element type, which
    is taken to round once. *)
Definition run_mean (d : dtype) (l : list rv) : option rv :=
  match run_sum d l with
  | Some (RTensor s) => option_map RTensor (tmapo (fun a => burn_elt d MDiv a (count d (length l))) s)
  | _ => None
  end.

(** ** Not and BitwiseNot: burn/node/not.rs:12-19, bitwisenot.rs:12-19; a native
    [bool] or integer has neither method. *)
Definition run_not (v : rv) : option rv :=
  match v with RTensor t => option_map RTensor (tmapo (fun x => match x with EB b => Some (EB (negb b)) | _ => None end) t) | _ => None end.
(** [!x] on the bits of the type. *)
Definition flip_bits (d : dtype) (z : Z) : Z :=
  match d with U64 | U32 | U16 | U8 => match int_range d with Some (_, hi) => Z.lxor z hi | None => z end | _ => Z.lnot z end.
Definition run_bitnot (d : dtype) (v : rv) : option rv :=
  match v with RTensor t => option_map RTensor (tmapo (fun x => match x with EI z => Some (EI (flip_bits d z)) | _ => None end) t) | _ => None end.
(** onnx-ir not.rs, bitwisenot.rs [infer_types]: the type of the input. *)
Definition infer_not (ty : argty) : ires argty := IOk ty.
Definition infer_bitnot (opset : N) (ty : argty) : ires argty := if N.ltb opset 18 then IErr else IOk ty.
