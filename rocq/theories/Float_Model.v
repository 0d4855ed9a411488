(** IEEE 754 numbers of the two widths constant folding works with.  NaN
    payloads are not distinguished. *)
From Coq Require Import ZArith Reals.
From Flocq Require Import Core BinarySingleNaN.

Definition f32 := binary_float 24 128.
Definition f64 := binary_float 53 1024.

#[global] Instance prec24 : Prec_gt_0 24 := eq_refl.
#[global] Instance prec53 : Prec_gt_0 53 := eq_refl.
#[global] Instance emax128 : Prec_lt_emax 24 128 := eq_refl.
#[global] Instance emax1024 : Prec_lt_emax 53 1024 := eq_refl.

(** [x as f32] and [x as f64] of Rust: round to nearest, ties to even; infinities
    and NaN are kept. *)
Definition as_f32 (x : f64) : f32 :=
  match x with
  | B754_zero s => B754_zero s
  | B754_infinity s => B754_infinity s
  | B754_nan => B754_nan
  | B754_finite s m e _ => binary_normalize 24 128 _ _ mode_NE (cond_Zopp s (Zpos m)) e s
  end.
Definition as_f64 (x : f32) : f64 :=
  match x with
  | B754_zero s => B754_zero s
  | B754_infinity s => B754_infinity s
  | B754_nan => B754_nan
  | B754_finite s m e _ => binary_normalize 53 1024 _ _ mode_NE (cond_Zopp s (Zpos m)) e s
  end.

(** Arithmetic of each width, rounding to nearest, ties to even. *)
Definition add32 : f32 -> f32 -> f32 := Bplus mode_NE.
Definition sub32 : f32 -> f32 -> f32 := Bminus mode_NE.
Definition mul32 : f32 -> f32 -> f32 := Bmult mode_NE.
Definition div32 : f32 -> f32 -> f32 := Bdiv mode_NE.
Definition sqrt32 : f32 -> f32 := Bsqrt mode_NE.
Definition neg32 : f32 -> f32 := Bopp.
Definition add64 : f64 -> f64 -> f64 := Bplus mode_NE.
Definition sub64 : f64 -> f64 -> f64 := Bminus mode_NE.
Definition mul64 : f64 -> f64 -> f64 := Bmult mode_NE.
Definition div64 : f64 -> f64 -> f64 := Bdiv mode_NE.
Definition sqrt64 : f64 -> f64 := Bsqrt mode_NE.
Definition neg64 : f64 -> f64 := Bopp.

(** [z as f32], [z as f64] of an integer. *)
Definition f32_of_Z (z : Z) : f32 := binary_normalize 24 128 _ _ mode_NE z 0 false.
Definition f64_of_Z (z : Z) : f64 := binary_normalize 53 1024 _ _ mode_NE z 0 false.

(** [x == 0.0]. *)
Definition is_zero {p e} (x : binary_float p e) : bool := match x with B754_zero _ => true | _ => false end.
