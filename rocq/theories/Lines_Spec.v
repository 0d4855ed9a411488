(** What ONNX prescribes for operators that work on the lines of a tensor along
    one axis: ArgMax, ArgMin, Hardmax, Softmax and LogSoftmax.  Nothing here
    mentions the generated code. *)
From Coq Require Export Reals Rtrigo_def Rpower.
From Verif Require Export Tensor_Spec IR_Model.
From Verif Require Import ShapeOps_Spec.
Import Tensor_Spec.
Local Open Scope N_scope.
Notation real := Rdefinitions.R.

(** The elements of [x] at [p], any index along the axis, [q]. *)
Definition line {A} (x : tensor A) (d : N) (p q : list N) : option (list A) := mapo (fun k => get x (p ++ k :: q)) (upto d).
(** [z] is [x] with every line along [axis] replaced by one that [f] relates to it. *)
Definition by_lines {A B} (f : list A -> list B -> Prop) (axis : Z) (x : tensor A) (z : tensor B) : Prop :=
  let r := length (tshape x) in
  twf z /\ (- Z.of_nat r <= axis < Z.of_nat r)%Z /\
  exists P d Q d', tshape x = P ++ d :: Q /\ length P = position r axis /\ tshape z = P ++ d' :: Q /\
    forall p q, valid_idx P p -> valid_idx Q q -> exists l m, line x d p q = Some l /\ line z d' p q = Some m /\ f l m.
(** Versions before 13 of Softmax, LogSoftmax and Hardmax: [x] is coerced into a
    matrix, the dimensions before the axis by those from the axis on. *)
Definition by_rows {A B} (f : list A -> list B -> Prop) (axis : Z) (x : tensor A) (z : tensor B) : Prop :=
  let r := length (tshape x) in
  let a := position r axis in
  let matrix {C} (t : tensor C) := mkT [prodN (firstn a (tshape x)); prodN (skipn a (tshape x))] (tdata t) in
  twf z /\ (- Z.of_nat r <= axis < Z.of_nat r)%Z /\ tshape z = tshape x /\ by_lines f 1 (matrix x) (matrix z).
Definition line_operator {A B} (opset : N) (f : list A -> list B -> Prop) (axis : Z) (x : tensor A) (z : tensor B) : Prop :=
  if opset <? 13 then by_rows f axis x z else by_lines f axis x z.

(** The attribute, or its default. *)
Definition axis_or (n : rnode) (default : Z) : Z := match get_attr n "axis" with Some (AInt a) => a | _ => default end.
Definition softmax_axis (n : rnode) (opset : N) : Z := axis_or n (if opset <? 13 then 1%Z else (-1)%Z).

Section Order.
  Context {T : Type} (le : T -> T -> bool).
  (** [i] is the first place of a line that has an element no other is beyond. *)
  Definition first_best (l : list T) (i : nat) : Prop :=
    exists v, nth_error l i = Some v /\ (forall j w, nth_error l j = Some w -> le w v = true) /\
      (forall j w, (j < i)%nat -> nth_error l j = Some w -> le v w = false).
  Definition arg_line (l : list T) (m : list Z) : Prop := exists i, m = [Z.of_nat i] /\ first_best l i.
  (** One at the first greatest element, zero elsewhere. *)
  Definition hard_line (zero one : T) (l m : list T) : Prop :=
    exists i, first_best l i /\ m = map (fun j => if Nat.eqb j i then one else zero) (seq 0 (length l)).
End Order.
(** ArgMax and ArgMin: the axis stays with size one, or is dropped. *)
Definition arg_result {T} (le : T -> T -> bool) (axis : Z) (keep : bool) (x : tensor T) (z : tensor Z) : Prop :=
  if keep then by_lines (arg_line le) axis x z
  else exists k P Q, by_lines (arg_line le) axis x k /\ tshape k = P ++ 1 :: Q /\ length P = position (length (tshape x)) axis /\ z = mkT (P ++ Q) (tdata k).
Definition flipped {T} (le : T -> T -> bool) (a b : T) : bool := le b a.

(** Real numbers. *)
Definition exps (l : list real) : real := fold_right Rplus 0%R (map exp l).
Definition soft_line (l m : list real) : Prop := m = map (fun v => (exp v / exps l)%R) l.
Definition log_soft_line (l m : list real) : Prop := m = map (fun v => ln (exp v / exps l)%R) l.

(** ** The variables of the program: tensors, tensors of integers, native integers. *)
Inductive lval (T : Type) := LT (t : tensor T) | LI (t : tensor Z) | LNative (v : Z).
Arguments LT {T}. Arguments LI {T}. Arguments LNative {T}.
Definition lenv (T : Type) := string -> option (lval T).
Definition lholds {T} (e : lenv T) (a : arg) (x : tensor T) : Prop :=
  twf x /\ exists t, aty a = TensorT t /\ e (aname a) = Some (LT x) /\ tt_rank t = N.of_nat (length (tshape x)) /\ tt_rank t < 2 ^ 63.
(** The representation of indices in a variable of type [ty]. *)
Definition index_form {T} (ty : argty) (z : tensor Z) (v : lval T) : Prop :=
  match ty with
  | TensorT t => v = LI z /\ tt_rank t = N.of_nat (length (tshape z)) /\ (0 < length (tshape z))%nat
  | ScalarTensor _ => tshape z = [] /\ v = LI (mkT [1] (tdata z))
  | ScalarNative _ => tshape z = [] /\ exists w, tdata z = [w] /\ v = LNative w
  | ShapeT _ => False
  end.
(** A scalar result may have been turned into a native one. *)
Definition chosen (ty ty' : argty) : Prop := ty' = ty \/ exists d, ty = ScalarTensor d /\ ty' = ScalarNative d.
(** The size along the axis is not zero. *)
Definition not_empty {A} (axis : Z) (x : tensor A) : Prop :=
  forall d, nth_error (tshape x) (position (length (tshape x)) axis) = Some d -> 0 < d.
(** Attributes of the node. *)
Definition keeps (n : rnode) : bool := match get_attr n "keepdims" with Some (AInt k) => negb (Z.eqb k 0) | _ => true end.
Definition int_axis (n : rnode) : Prop := forall a, get_attr n "axis" = Some a -> exists i, a = AInt i.
Definition axis_ok {A} (axis : Z) (x : tensor A) : Prop := (- Z.of_nat (length (tshape x)) <= axis < Z.of_nat (length (tshape x)))%Z.
(** The dimensions after the axis hold one element: for example the last axis. *)
Definition ends_at {A} (axis : Z) (x : tensor A) : Prop := prodN (skipn (S (position (length (tshape x)) axis)) (tshape x)) = 1.
