(** What ONNX prescribes for TopK, OneHot and Range.  Nothing here mentions the
    generated code. *)
From Coq Require Export Sorting.Sorted Sorting.Permutation.
From Verif Require Export Tensor_Spec IR_Model Lines_Spec.
From Verif Require Import ShapeOps_Spec.
Import Lines_Spec Tensor_Spec.
Local Open Scope N_scope.

(** ** TopK *)
Section Top.
  Context {T : Type} (le : T -> T -> bool).
  (** The [k] greatest elements of a line, the greatest first. *)
  Definition top_values (k : nat) (l vs : list T) : Prop :=
    (k <= length l)%nat /\ exists s, Permutation s l /\ StronglySorted (fun v w => le w v = true) s /\ vs = firstn k s.
  (** The places of the line where the values are, all different. *)
  Definition places (l vs : list T) (js : list Z) : Prop :=
    NoDup js /\ Forall2 (fun j v => (0 <= j)%Z /\ nth_error l (Z.to_nat j) = Some v) js vs.
  (** Place [i] comes before place [j]: its element is greater, or they are equal
      and [i] is the lower place. *)
  Definition comes_before (l : list T) (i j : nat) : Prop :=
    exists v w, nth_error l i = Some v /\ nth_error l j = Some w /\ (le v w = false \/ (le w v = true /\ (i < j)%nat)).
  Definition first_places (k : nat) (l : list T) (js : list Z) : Prop :=
    exists order, Permutation order (seq 0 (length l)) /\ StronglySorted (comes_before l) order /\ js = map Z.of_nat (firstn k order).
End Top.
(** The lines of two results, along the same axis. *)
Definition by_lines2 {A B C} (f : list A -> list B -> list C -> Prop) (axis : Z) (x : tensor A) (z : tensor B) (y : tensor C) : Prop :=
  let r := length (tshape x) in
  twf z /\ twf y /\ (- Z.of_nat r <= axis < Z.of_nat r)%Z /\
  exists P d Q d', tshape x = P ++ d :: Q /\ length P = position r axis /\ tshape z = P ++ d' :: Q /\ tshape y = P ++ d' :: Q /\
    forall p q, valid_idx P p -> valid_idx Q q -> exists l m w, line x d p q = Some l /\ line z d' p q = Some m /\ line y d' p q = Some w /\ f l m w.
(** No line along the axis has two elements that compare equal. *)
Definition no_ties {T} (le : T -> T -> bool) (l : list T) : Prop :=
  forall i j v w, nth_error l i = Some v -> nth_error l j = Some w -> i <> j -> le v w = false \/ le w v = false.
Definition lines_have {T} (P : list T -> Prop) (axis : Z) (x : tensor T) : Prop :=
  forall A d Q p q l, tshape x = A ++ d :: Q -> length A = position (length (tshape x)) axis ->
    valid_idx A p -> valid_idx Q q -> line x d p q = Some l -> P l.

(** ** OneHot: a new dimension of size [depth] at [axis]. *)
Definition class_of (depth : N) (i : Z) : Z := if (i <? 0)%Z then (i + Z.of_N depth)%Z else i.
Definition one_hot_result {A} (depth : N) (off on : A) (axis : Z) (x : tensor Z) (z : tensor A) : Prop :=
  twf z /\ exists P Q, tshape x = P ++ Q /\ length P = position (S (length (tshape x))) axis /\ tshape z = P ++ depth :: Q /\
    forall p q k, valid_idx P p -> valid_idx Q q -> k < depth ->
      exists i, get x (p ++ q) = Some i /\ get z (p ++ k :: q) = Some (if Z.eqb (class_of depth i) (Z.of_N k) then on else off).

(** ** Range: [max(ceil((limit - start) / delta), 0)] elements. *)
Definition range_size (start limit delta : Z) : Z := Z.max 0 (- ((start - limit) / delta)).
Definition range_result (start limit delta : Z) : tensor Z :=
  let n := Z.to_nat (range_size start limit delta) in
  mkT [N.of_nat n] (map (fun i => (start + Z.of_nat i * delta)%Z) (seq 0 n)).

(** ** Constants of the model: integers of 64 bits, other integers, floating-point
    numbers, booleans. *)
Inductive cval := CI64 (l : list Z) | CInt (l : list Z) | CF (l : list real) | CBool (l : list bool).
