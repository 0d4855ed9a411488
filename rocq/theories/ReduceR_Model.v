(** The expressions of Reduce_Model on real numbers: rounding, infinities and
    the casts between floating-point types (reduce.rs:216-345) are left out. *)
From Verif Require Export ReduceR_Spec Reduce_Model.
Local Open Scope R_scope.

(** Burn's [sum], [prod], [max], [min], [mean], [abs], [square], [sqrt], [log]
    and [exp], and their [_dim] forms (not part of this code base). *)
Definition real_fold (m : meth) (l : list real) : option real :=
  match m, l with
  | MSum, _ => Some (fold_left Rplus l 0)
  | MProd, _ => Some (fold_left Rmult l 1)
  | MMax, v :: r => Some (fold_left Rmax r v)
  | MMin, v :: r => Some (fold_left Rmin r v)
  | MMean, _ :: _ => Some (fold_left Rplus l 0 / INR (length l))
  | _, _ => None
  end.
Definition real_map (f : fn) (v : real) : option real :=
  match f with
  | FAbs => Some (Rabs v)
  | FSquare => Some (Rsqr v)
  | FSqrt => Some (sqrt v)
  | FLog => logarithm v
  | FExp => Some (exp v)
  end.
Definition reals : algebra real := mkAlg real real_fold real_map (fun a b => Some (a + b)) (fun a b => Some (a - b)).
