(** What Unsqueeze makes of a scalar. *)
From Verif Require Import IR_Model Tensor_Spec BinOps_Spec.
Local Open Scope N_scope.

(** ONNX Unsqueeze with [k] axes: a tensor of rank [k], every dimension one, with
    the scalar as its only element (wherever the axes stand). *)
Definition unsqueezed (k : nat) (v : elt) : tensor elt := mkT (repeat 1 k) [v].

(** The tensor a variable of the generated program stands for: a tensor, or an
    array of integers. *)
Definition held (v : rv) : option (tensor elt) :=
  match v with
  | RTensor t => Some t
  | RShape l => Some (mkT [N.of_nat (length l)] (map EI l))
  | RNative _ => None
  end.

(** ONNX Expand of a scalar: the tensor of the shape asked for, the scalar
    everywhere. *)
Definition filled_with (s : list N) (v : elt) (t : tensor elt) : Prop :=
  twf t /\ tshape t = s /\ forall p, valid_idx s p -> get t p = Some v.
