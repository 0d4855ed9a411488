(** Element-wise operators with one input as ONNX defines them, on real numbers.  Nothing here
    mentions the generated code. *)
From Verif Require Export Conv_Spec.
From Coq Require Import Reals.
From Flocq Require Import Core BinarySingleNaN.
Import Conv_Spec Tensor_Spec.
Local Open Scope R_scope.

(** Each element of the result is [f] of the element at its place. *)
Definition each_element {A B} (f : A -> B) (X : tensor A) (Y : tensor B) : Prop :=
  twf Y /\ tshape Y = tshape X /\ forall idx a, valid_idx (tshape X) idx -> get X idx = Some a -> get Y idx = Some (f a).

(** Round: the nearest integer, of two the even one. *)
Definition rounds (x : R) (k : Z) : Prop := Rabs (IZR k - x) <= / 2 /\ (Rabs (IZR k - x) = / 2 -> Z.even k = true).
(** Ceil and Floor. *)
Definition least_above (x : R) (k : Z) : Prop := x <= IZR k /\ IZR k < x + 1.
Definition greatest_below (x : R) (k : Z) : Prop := IZR k <= x /\ x < IZR k + 1.
Definition sign_of (x : R) : R := if Rlt_dec x 0 then -1 else if Rlt_dec 0 x then 1 else 0.
Definition logistic (x : R) : R := 1 / (1 + exp (- x)).

Section Functions.
  (** The Gauss error function. *)
  Context (erf : R -> R).
  (** [a key d] is the attribute [key], or [d] when it is left out. *)
  Context (a : string -> R -> R).
  Inductive onnx_fn : string -> R -> R -> Prop :=
  | F_abs x : onnx_fn "Abs" x (if Rlt_dec x 0 then - x else x)
  | F_acos x : onnx_fn "Acos" x (acos x)
  | F_asin x : onnx_fn "Asin" x (asin x)
  | F_atan x : onnx_fn "Atan" x (atan x)
  | F_acosh x : onnx_fn "Acosh" x (ln (x + sqrt (x * x - 1)))
  | F_asinh x : onnx_fn "Asinh" x (ln (x + sqrt (x * x + 1)))
  | F_atanh x : onnx_fn "Atanh" x (/ 2 * ln ((1 + x) / (1 - x)))
  | F_cos x : onnx_fn "Cos" x (cos x)
  | F_sin x : onnx_fn "Sin" x (sin x)
  | F_tan x : onnx_fn "Tan" x (sin x / cos x)
  | F_cosh x : onnx_fn "Cosh" x ((exp x + exp (- x)) / 2)
  | F_sinh x : onnx_fn "Sinh" x ((exp x - exp (- x)) / 2)
  | F_tanh x : onnx_fn "Tanh" x ((exp x - exp (- x)) / (exp x + exp (- x)))
  | F_exp x : onnx_fn "Exp" x (exp x)
  | F_log x : 0 < x -> onnx_fn "Log" x (ln x)
  | F_sqrt x : 0 <= x -> onnx_fn "Sqrt" x (sqrt x)
  | F_erf x : onnx_fn "Erf" x (erf x)
  | F_recip x : x <> 0 -> onnx_fn "Reciprocal" x (1 / x)
  | F_neg x : onnx_fn "Neg" x (- x)
  | F_identity x : onnx_fn "Identity" x x
  | F_sign x : onnx_fn "Sign" x (sign_of x)
  | F_ceil x k : least_above x k -> onnx_fn "Ceil" x (IZR k)
  | F_floor x k : greatest_below x k -> onnx_fn "Floor" x (IZR k)
  | F_round x k : rounds x k -> onnx_fn "Round" x (IZR k)
  | F_relu x : onnx_fn "Relu" x (Rmax 0 x)
  | F_sigmoid x : onnx_fn "Sigmoid" x (logistic x)
  | F_softplus x : onnx_fn "Softplus" x (ln (exp x + 1))
  | F_softsign x : onnx_fn "Softsign" x (x / (1 + Rabs x))
  | F_mish x : onnx_fn "Mish" x (x * tanh (ln (1 + exp x)))
  | F_hard_swish x : onnx_fn "HardSwish" x (x * Rmax 0 (Rmin 1 (x / 6 + / 2)))
  | F_hard_sigmoid x : onnx_fn "HardSigmoid" x (Rmax 0 (Rmin 1 (a "alpha"%string (/ 5) * x + a "beta"%string (/ 2))))
  | F_leaky x : onnx_fn "LeakyRelu" x (if Rlt_dec x 0 then a "alpha"%string (/ 100) * x else x)
  | F_elu x : onnx_fn "Elu" x (if Rlt_dec x 0 then a "alpha"%string 1 * (exp x - 1) else x)
  | F_celu x : a "alpha"%string 1 <> 0 -> onnx_fn "Celu" x (Rmax 0 x + Rmin 0 (a "alpha"%string 1 * (exp (x / a "alpha"%string 1) - 1)))
  | F_thresholded x : onnx_fn "ThresholdedRelu" x (if Rlt_dec (a "alpha"%string 1) x then x else 0)
  | F_swish x : onnx_fn "Swish" x (x * logistic (a "alpha"%string 1 * x))
  (** Gelu with [approximate] left out or "none" *)
  | F_gelu x : onnx_fn "Gelu" x (/ 2 * x * (1 + erf (x / sqrt 2))).
  (** .. and with "tanh" *)
  Definition gelu_tanh (x : R) : R := / 2 * x * (1 + tanh (sqrt (2 / PI) * (x + 44715 / 1000000 * (x * x * x)))).
  Definition selu (alpha gamma x : R) : R := if Rle_dec x 0 then gamma * (alpha * exp x - alpha) else gamma * x.
End Functions.
Definition selu_alpha : R := 16732631921768188 / 10000000000000000.
Definition selu_gamma : R := 10507010221481323 / 10000000000000000.

(** Attributes are float32 numbers, [num] of their bits. *)
Definition given (num : N -> R) (n : rnode) (key : string) (default : R) : R := match get_attr n key with Some (AFloat b) => num b | _ => default end.
(** Each attribute is a float and one of these. *)
Definition floats_in (n : rnode) (keys : list string) : Prop := forall key v, In (key, v) (nattrs n) -> In key keys /\ exists b, v = AFloat b.
(** What attributes an operator has. *)
Definition float_attrs (op : string) : list string :=
  if mem_str op ["Elu"; "Celu"; "LeakyRelu"; "ThresholdedRelu"; "Swish"]%string then ["alpha"%string]
  else if String.eqb op "HardSigmoid" then ["alpha"; "beta"]%string
  else if String.eqb op "Selu" then ["alpha"; "gamma"]%string else [].

(** Clip: values below [lo] become [lo], then values above [hi] become [hi]. *)
Definition onnx_clip (lo hi : option R) (x : R) : R :=
  let y := match lo with Some l => if Rlt_dec x l then l else x | None => x end in
  match hi with Some h => if Rlt_dec h y then h else y | None => y end.

(** PRelu: the slope is broadcast to the input. *)
Definition onnx_prelu (X S : tensor R) : option (tensor R) :=
  match bshape (tshape X) (tshape S) with
  | Some s => if list_eq_dec N.eq_dec s (tshape X) then
      tab (tshape X) (fun idx => Some (let x := elem 0 X idx in if Rlt_dec x 0 then elem 0 S (bproj (tshape S) idx) * x else x)) else None
  | None => None
  end.

(** IsInf and IsNaN, on float32 numbers. *)
Definition is_inf_of (neg pos : bool) (x : binary_float 24 128) : bool := match x with B754_infinity s => if s then neg else pos | _ => false end.
Definition is_nan_of (x : binary_float 24 128) : bool := match x with B754_nan => true | _ => false end.
