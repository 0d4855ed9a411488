(** What ONNX says about the output shapes of Reshape, Transpose, Squeeze,
    Unsqueeze and Flatten. *)
From Coq Require Export Permutation.
From Verif Require Export IR_Model Tensor_Spec Shapes_Spec.
Local Open Scope Z_scope.

(** Reshape: a positive entry is the size; 0 copies the input dimension (or
    is the size 0 if [allowzero]); at most one entry is -1 and is whatever
    makes the element counts equal. *)
Definition reshape_of (allowzero : bool) (s : list N) (req : list Z) (out : list N) : Prop :=
  length out = length req /\ prodN out = prodN s /\
  (forall i j, nth_error req i = Some (-1) -> nth_error req j = Some (-1) -> i = j) /\
  (allowzero = true -> In 0 req -> ~ In (-1) req) /\
  forall i v d, nth_error req i = Some v -> nth_error out i = Some d ->
    (v > 0 /\ Z.of_N d = v) \/
    (v = 0 /\ allowzero = true /\ d = 0%N) \/
    (v = 0 /\ allowzero = false /\ nth_error s i = Some d) \/
    v = -1.

(** Transpose: output dimension [k] is input dimension [perm k]. *)
Definition transpose_of (perm : list Z) (s out : list N) : Prop :=
  Permutation perm (map Z.of_nat (seq 0 (length s))) /\
  length out = length s /\
  forall k p, nth_error perm k = Some p -> nth_error out k = nth_error s (Z.to_nat p).

(** Axes of a shape of rank [r]: from [-r] to [r-1], negative ones count from
    the end, no position twice. *)
Definition position (r : nat) (a : Z) : nat := Z.to_nat (a mod Z.of_nat r).
Definition valid_axes (r : nat) (axes : list Z) : Prop :=
  (forall a, In a axes -> - Z.of_nat r <= a < Z.of_nat r) /\ NoDup (map (position r) axes).
Definition named (r : nat) (axes : list Z) (i : nat) : Prop := exists a, In a axes /\ position r a = i.

(** [out] is [s] without the positions in [P] (counted from [i]). *)
Inductive deleted (P : nat -> Prop) : nat -> list N -> list N -> Prop :=
| del_nil i : deleted P i [] []
| del_drop i d s out : P i -> deleted P (S i) s out -> deleted P i (d :: s) out
| del_keep i d s out : ~ P i -> deleted P (S i) s out -> deleted P i (d :: s) (d :: out).

Definition ones_at (P : nat -> Prop) (s : list N) : Prop := forall i d, P i -> nth_error s i = Some d -> d = 1%N.

Definition squeeze_of (axes : list Z) (s out : list N) : Prop :=
  valid_axes (length s) axes /\ ones_at (named (length s) axes) s /\ deleted (named (length s) axes) 0 s out.
Definition squeeze_all_of (s out : list N) : Prop := deleted (fun i => nth_error s i = Some 1%N) 0 s out.
Definition unsqueeze_of (axes : list Z) (s out : list N) : Prop :=
  length out = (length s + length axes)%nat /\
  valid_axes (length out) axes /\ ones_at (named (length out) axes) out /\
  deleted (named (length out) axes) 0 out s.

(** Flatten into a matrix: dimensions before the axis, dimensions from it on. *)
Definition flatten_of (axis : Z) (s out : list N) : Prop :=
  - Z.of_nat (length s) <= axis <= Z.of_nat (length s) /\
  let a := Z.to_nat (if axis <? 0 then axis + Z.of_nat (length s) else axis) in
  out = [prodN (firstn a s); prodN (skipn a s)].

(** How a node carries a list of integers: as the attribute [k], or as its
    second input when that input is a constant. *)
Definition as_attribute (n : rnode) (k : string) (l : list Z) : Prop := get_attr n k = Some (AInts l).
Definition as_constant {V} (value : arg -> option V) (ints : V -> option (list Z)) (n : rnode) (l : list Z) : Prop :=
  exists i0 i1 rest v, ninputs n = i0 :: i1 :: rest /\ value i1 = Some v /\ ints v = Some l.
