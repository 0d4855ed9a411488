(** What ONNX says about reductions, MatMul, Gather, Shape, Conv and MaxPool. *)
From Verif Require Export AxisOps_Spec.
Local Open Scope N_scope.

(** Reduction: no axes means all of them. *)
Definition reduced (r : nat) (axes : list Z) (k : nat) : Prop := axes = [] \/ named r axes k.
Definition reduce_of (axes : list Z) (keep : bool) (s out : list N) : Prop :=
  valid_axes (length s) axes /\
  if keep then
    length out = length s /\
    forall k d, nth_error s k = Some d ->
      (reduced (length s) axes k -> nth_error out k = Some 1) /\ (~ reduced (length s) axes k -> nth_error out k = Some d)
  else deleted (reduced (length s) axes) 0 s out.

Definition topk_of (axis : Z) (k : N) (s out : list N) : Prop :=
  (- Z.of_nat (length s) <= axis < Z.of_nat (length s))%Z /\ replaced (position (length s) axis) k s out.

(** MatMul as numpy.matmul: matrices at the end, batch axes broadcast, a vector
    becomes a row (left) or a column (right) and the extra axis is dropped. *)
Definition matmul_of (a b out : list N) : Prop :=
  exists ba bb batch m k n,
    (a = ba ++ [m; k] \/ (a = [k] /\ ba = [])) /\
    (b = bb ++ [k; n] \/ (b = [k] /\ bb = [])) /\
    bcast_of [ba; bb] batch /\
    out = batch ++ (if Nat.eqb (length a) 1 then [] else [m]) ++ (if Nat.eqb (length b) 1 then [] else [n]).

(** Gather: the indices' shape replaces the axis. *)
Definition gather_of (axis : Z) (s idx out : list N) : Prop :=
  (- Z.of_nat (length s) <= axis < Z.of_nat (length s))%Z /\
  out = firstn (position (length s) axis) s ++ idx ++ skipn (S (position (length s) axis)) s.

(** Shape with [start] and [end]: negative ones count from the end, both are
    clamped to [0, r], the dimensions in between are returned. *)
Definition shape_bounds (r : nat) (start stop : Z) : Z * Z :=
  (clamp 0 (Z.of_nat r) (from_end (Z.of_nat r) start), clamp 0 (Z.of_nat r) (from_end (Z.of_nat r) stop)).
Definition shape_value (s : list N) (start stop : Z) : list N :=
  let (a, b) := shape_bounds (length s) start stop in
  firstn (Z.to_nat (b - a)) (skipn (Z.to_nat a) s).

(** The positions, a multiple of the stride each, at which a kernel of [kernel]
    taps spread by [dilation] fits into a padded axis. *)
Definition kernel_positions (padded kernel stride dilation : N) : list nat :=
  filter (fun i => (Nat.modulo i (N.to_nat stride) =? 0)%nat && (N.of_nat i + dilation * (kernel - 1) <? padded)) (seq 0 (N.to_nat padded)).
Definition window_size (padded kernel stride dilation : N) : N := N.of_nat (length (kernel_positions padded kernel stride dilation)).

(** Convolution of [x] with kernels [w]; begins and ends are given axis by axis. *)
Definition conv_of (k : nat) (strides dilations begins ends : list N) (x w out : list N) : Prop :=
  length x = (k + 2)%nat /\ length w = (k + 2)%nat /\ length out = (k + 2)%nat /\
  nth_error out 0 = nth_error x 0 /\ nth_error out 1 = nth_error w 0 /\
  forall i, (i < k)%nat ->
    nth_error out (2 + i) = Some (window_size (nth (2 + i) x 0 + nth i begins 0 + nth i ends 0)
                                   (nth (2 + i) w 0) (nth i strides 0) (nth i dilations 0)).
