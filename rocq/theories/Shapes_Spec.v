(** What the types of the importer say about the shapes of run-time values. *)
From Verif Require Import IR_Model.
Local Open Scope N_scope.

(** Known dimensions agree with the shape; unknown ones say nothing. *)
Definition fits_dims (l : list (option N)) (s : list N) : Prop :=
  Forall2 (fun o d => o = None \/ o = Some d) l s.

Definition fits_tt (t : tensor_type) (s : list N) : Prop :=
  N.of_nat (length s) = tt_rank t /\ forall l, tt_shape t = Some l -> fits_dims l s.

(** The value of a shape-typed argument is a vector; scalars have rank 0. *)
Definition fits (ty : argty) (s : list N) : Prop :=
  match ty with
  | ScalarTensor _ | ScalarNative _ => s = []
  | ShapeT n => s = [n]
  | TensorT t => fits_tt t s
  end.

(** [out] is the result of broadcasting all of [ss] (ONNX multidirectional
    broadcasting): dimensions are aligned at the right; in each position every
    operand has the size of the result or 1 (or no such dimension), and the
    size of the result is 1 or that of some operand. *)
Definition bcast_of (ss : list (list N)) (out : list N) : Prop :=
  (forall s, In s ss -> (length s <= length out)%nat) /\
  (out = [] \/ exists s, In s ss /\ length s = length out) /\
  forall k, (k < length out)%nat ->
    (forall s, In s ss -> nth k (rev s) 1 = 1 \/ nth k (rev s) 1 = nth k (rev out) 0) /\
    (nth k (rev out) 0 = 1 \/ exists s, In s ss /\ nth k (rev s) 1 = nth k (rev out) 0).
