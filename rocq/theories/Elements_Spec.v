(** GatherElements and ScatterElements as ONNX defines them, element by element.
    Nothing here mentions the generated code. *)
From Verif Require Export Lines_Spec Index_Spec.
From Verif Require Import ShapeOps_Spec.
Import Index_Spec Lines_Spec Tensor_Spec.
Local Open Scope N_scope.

(** The place of the data that position [j] of the indices names: [j] with its
    coordinate along the axis replaced by the index there, counted from either end. *)
Definition named_place (s : list N) (a : nat) (ix : tensor Z) (j : list N) : option (list N) :=
  match get ix j, nth_error s a with
  | Some i, Some d => option_map (fun k => firstn a j ++ k :: skipn (S a) j) (one_index d i)
  | _, _ => None
  end.
(** One rank; away from the axis the indices are no larger than the data; every
    index is within bounds. *)
Definition indices_fit (s : list N) (a : nat) (ix : tensor Z) : Prop :=
  twf ix /\ length (tshape ix) = length s /\ (a < length s)%nat /\
  (forall k m d, k <> a -> nth_error (tshape ix) k = Some m -> nth_error s k = Some d -> m <= d) /\
  (forall j, valid_idx (tshape ix) j -> exists t, named_place s a ix j = Some t).
Definition gathered {T} (a : nat) (x : tensor T) (ix : tensor Z) (z : tensor T) : Prop :=
  twf z /\ tshape z = tshape ix /\ forall j, valid_idx (tshape ix) j -> exists t, named_place (tshape x) a ix j = Some t /\ get z j = get x t.
(** The updates whose index names [t], in the order of their positions. *)
Definition updates_of {T} (s : list N) (a : nat) (ix : tensor Z) (u : tensor T) (t : list N) : list T :=
  flat_map (fun j => match named_place s a ix j, get u j with
                     | Some t', Some v => if list_eq_dec N.eq_dec t' t then [v] else []
                     | _, _ => [] end) (indices (tshape ix)).
Definition scattered {T} (f : T -> T -> T) (a : nat) (x : tensor T) (ix : tensor Z) (u z : tensor T) : Prop :=
  twf z /\ tshape z = tshape x /\
  forall t, valid_idx (tshape x) t -> exists w, get x t = Some w /\ get z t = Some (fold_left f (updates_of (tshape x) a ix u t) w).
(** No place is named twice: required by ONNX when there is no reduction. *)
Definition distinct (s : list N) (a : nat) (ix : tensor Z) : Prop :=
  forall j j' t, valid_idx (tshape ix) j -> valid_idx (tshape ix) j' -> named_place s a ix j = Some t -> named_place s a ix j' = Some t -> j = j'.
Definition reduce_by {T} (add mul : T -> T -> T) (le : T -> T -> bool) (red : reduction) (old new : T) : T :=
  match red with
  | RedNone => new
  | RedAdd => add old new
  | RedMul => mul old new
  | RedMax => if le new old then old else new
  | RedMin => if le old new then old else new
  end.
Definition element_axis {A} (n : rnode) (x : tensor A) : nat := position (length (tshape x)) (axis_or n 0).
(** A variable with indices. *)
Definition iholds {T} (e : lenv T) (a : arg) (x : tensor Z) : Prop := twf x /\ e (aname a) = Some (LI x).
(** What the code for GatherElements, and for ScatterElements of numbers without
    reduction or with addition, takes for granted. *)
Definition plain_indices (s : list N) (a : nat) (ix : tensor Z) : Prop :=
  (forall i, In i (tdata ix) -> (0 <= i)%Z) /\ (forall k, k <> a -> nth_error (tshape ix) k = nth_error s k).
Definition attrs_among (n : rnode) (ks : list string) : Prop := forall k a, In (k, a) (nattrs n) -> In k ks.
(** A type and the rank of a value of it. *)
Definition ranked {T} (ty : argty) (z : tensor T) : Prop := exists t, ty = TensorT t /\ tt_rank t = N.of_nat (length (tshape z)).
