(** When two types of a value agree, and which types stand for nothing. *)
From Verif Require Import IR_Model.
Local Open Scope N_scope.

(** A tensor of rank zero: such values are scalars and have scalar types. *)
Definition rank_zero (ty : argty) : Prop := exists t, ty = TensorT t /\ tt_rank t = 0.

(** The same kind of value with the same element type and rank; what is known of
    the dimensions may differ. *)
Definition agree (a b : argty) : Prop :=
  match a, b with
  | ScalarTensor d, ScalarTensor e | ScalarNative d, ScalarNative e => d = e
  | ShapeT n, ShapeT m => n = m
  | TensorT t, TensorT u => tt_dtype t = tt_dtype u /\ tt_rank t = tt_rank u
  | _, _ => False
  end.
(** [b] knows every dimension that [a] knows. *)
Definition knows (a b : argty) : Prop :=
  forall t l i d, a = TensorT t -> tt_shape t = Some l -> nth_error l i = Some (Some d) ->
    exists u l', b = TensorT u /\ tt_shape u = Some l' /\ nth_error l' i = Some (Some d).
