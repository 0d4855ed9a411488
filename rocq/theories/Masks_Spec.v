(** NonZero, Trilu, EyeLike and ConstantOfShape as ONNX defines them.  Nothing
    here mentions the generated code. *)
From Coq Require Import SpecFloat.
From Verif Require Export BinOps_Spec Tensor_Spec IR_Model.
From Verif Require Import Payload_Spec.
Import Tensor_Spec.
Local Open Scope N_scope.

Definition is_float (d : dtype) : bool := match d with F64 | F32 | F16 | BF16 => true | _ => false end.
(** Zero and one of a data type. *)
Definition zero_of (d : dtype) : elt := if dtype_eq_dec d BoolT then EB false else if is_float d then EF (S754_zero false) else EI 0.
Definition one_of (d : dtype) : elt :=
  match d with
  | BoolT => EB true
  | F64 => EF (S754_finite false 4503599627370496 (-52)) | F32 => EF (S754_finite false 8388608 (-23))
  | F16 => EF (S754_finite false 1024 (-10)) | BF16 => EF (S754_finite false 128 (-7))
  | _ => EI 1
  end.
Definition nonzero (v : elt) : Prop :=
  match v with EI z => z <> 0%Z | EB b => b = true | EF x => match x with S754_zero _ => False | _ => True end end.

(** NonZero: [places] are the places of the non-zero elements, each once, in
    row-major order; column [c] of the result is the [c]-th of them. *)
Definition nonzero_places (x : tensor elt) (places : list (list N)) : Prop :=
  (forall p, In p places <-> valid_idx (tshape x) p /\ exists v, get x p = Some v /\ nonzero v) /\
  (forall c c' p p', (c < c')%nat -> nth_error places c = Some p -> nth_error places c' = Some p' -> offset (tshape x) p < offset (tshape x) p').
Definition nonzero_result (x : tensor elt) (z : tensor Z) : Prop :=
  twf z /\ exists places, nonzero_places x places /\ tshape z = [N.of_nat (length (tshape x)); N.of_nat (length places)] /\
    forall k c p i, nth_error places c = Some p -> nth_error p k = Some i -> get z [N.of_nat k; N.of_nat c] = Some (Z.of_N i).

(** Trilu: the elements on or above (on or below) the [k]-th diagonal stay. *)
Definition kept (upper : bool) (k : Z) (i j : N) : bool :=
  if upper then (k <=? Z.of_N j - Z.of_N i)%Z else (Z.of_N j - Z.of_N i <=? k)%Z.
Definition triangle (zero : elt) (upper : bool) (k : Z) (x z : tensor elt) : Prop :=
  twf z /\ tshape z = tshape x /\
  forall p i j, valid_idx (tshape x) (p ++ [i; j]) -> get z (p ++ [i; j]) = if kept upper k i j then get x (p ++ [i; j]) else Some zero.
(** EyeLike: ones on the [k]-th diagonal. *)
Definition eye (zero one : elt) (k : Z) (s : list N) (z : tensor elt) : Prop :=
  twf z /\ tshape z = s /\
  forall i j, valid_idx s [i; j] -> get z [i; j] = Some (if (Z.of_N j - Z.of_N i =? k)%Z then one else zero).
(** ConstantOfShape. *)
Definition filled (v : elt) (dims : list Z) (z : tensor elt) : Prop :=
  twf z /\ Forall2 (fun d m => d = Z.of_N m) dims (tshape z) /\ forall p, valid_idx (tshape z) p -> get z p = Some v.

(** ** The variables of the program: tensors, native scalars, shapes. *)
Inductive mval := MTens (d : dtype) (t : tensor elt) | MInts (t : tensor Z) | MScalar (d : dtype) (v : elt) | MShape (l : list Z).
Definition menv := string -> option mval.
(** The variable stands for the tensor [z] of data type [d]: a native scalar for
    one of rank 0, a shape for a list of integers. *)
Definition stands (d : dtype) (z : tensor elt) (m : mval) : Prop :=
  match m with
  | MTens d' t => d' = d /\ t = z /\ tshape z <> []
  | MScalar d' v => d' = d /\ z = mkT [] [v]
  | MShape l => d = I64 /\ z = mkT [N.of_nat (length l)] (map EI l)
  | MInts _ => False
  end.
Definition mtyped (ty : argty) (m : mval) : Prop :=
  match ty, m with
  | TensorT t, MTens d x => tt_dtype t = d /\ tt_rank t = N.of_nat (length (tshape x))
  | TensorT t, MInts x => tt_dtype t = I64 /\ tt_rank t = N.of_nat (length (tshape x)) /\
      (forall s, tt_shape t = Some s -> Forall2 (fun o d => o = None \/ o = Some d) s (tshape x))
  | ScalarNative d', MScalar d _ => d' = d
  | ShapeT n, MShape l => n = N.of_nat (length l)
  | _, _ => False
  end.
(** An input that holds a tensor, and its type. *)
Definition mholds (e : menv) (a : arg) (d : dtype) (x : tensor elt) : Prop :=
  twf x /\ (forall v, In v (tdata x) -> in_dtype d v) /\ e (aname a) = Some (MTens d x) /\ exists t, aty a = TensorT t /\ tt_dtype t = d /\ tt_rank t = N.of_nat (length (tshape x)).
(** The attributes. *)
Definition int_attr (n : rnode) (k : string) (default v : Z) : Prop :=
  match get_attr n k with None => v = default | Some (AInt z) => v = z | Some _ => False end.
(** The data type EyeLike asks for: the attribute, a number of the ONNX
    enumeration, or that of the input. *)
Definition eye_dtype (n : rnode) (d d' : dtype) : Prop :=
  match get_attr n "dtype" with None => d' = d | Some (AInt z) => z = type_code d' | Some _ => False end.
(** The fill value of ConstantOfShape, [load] giving the tensor of the attribute. *)
Definition fill_of (load : N -> dtype * option elt) (n : rnode) (d : dtype) (v : elt) : Prop :=
  match get_attr n "value" with
  | None => d = F32 /\ v = zero_of F32
  | Some (ATensor p) => load p = (d, Some v) /\ in_dtype d v
  | Some _ => False
  end.
