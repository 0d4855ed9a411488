(** What ONNX says about Split, Concat, Slice, Tile, Pad and Expand. *)
From Verif Require Export ShapeOps_Spec.
Local Open Scope N_scope.

Definition total (l : list N) : N := fold_right N.add 0 l.

(** [out] is [s] with the size [d] at position [axis]. *)
Definition replaced (axis : nat) (d : N) (s out : list N) : Prop :=
  length out = length s /\ nth_error out axis = Some d /\
  forall k, k <> axis -> nth_error out k = nth_error s k.

(** Split without sizes: equal chunks, the rest in the last one
    (ONNX reference implementation); it makes no sense when the other chunks
    already exceed the dimension. *)
Definition onnx_even (d n : N) (sizes : list N) : Prop :=
  (d mod n = 0 /\ sizes = repeat (d / n) (N.to_nat n)) \/
  (d mod n <> 0 /\ (n - 1) * (d / n + 1) <= d /\
   sizes = repeat (d / n + 1) (N.to_nat (n - 1)) ++ [d - (n - 1) * (d / n + 1)]).
(** A partition into [n] chunks: equal ones first (as small as [n] chunks can
    be), then at most one smaller, then empty ones. *)
Definition even_chunks (d n : N) (sizes : list N) : Prop :=
  N.of_nat (length sizes) = n /\ total sizes = d /\
  exists c full rest, d <= n * c /\ (forall c', d <= n * c' -> c <= c') /\
    sizes = repeat c full ++ rest /\
    (rest = [] \/ exists last empties, rest = last :: repeat 0 empties /\ last <= c).

Definition split_of (axis : nat) (sizes : list N) (s : list N) (outs : list (list N)) : Prop :=
  nth_error s axis = Some (total sizes) /\ Forall2 (fun d o => replaced axis d s o) sizes outs.

(** Concat: equal shapes except along the axis, where sizes add up. *)
Definition concat_of (axis : nat) (ss : list (list N)) (out : list N) : Prop :=
  ss <> [] /\ (axis < length out)%nat /\
  (forall s, In s ss -> length s = length out /\ forall k, k <> axis -> nth_error s k = nth_error out k) /\
  nth_error out axis = Some (total (map (fun s => nth axis s 0) ss)).

(** Slice of one dimension of size [d]: negative starts and ends count from the
    end; they are clamped; the elements taken are those reached from the
    (clamped) start by steps of [step] before the (clamped) end. *)
Local Open Scope Z_scope.
Definition clamp (lo hi x : Z) : Z := Z.max lo (Z.min hi x).
Definition from_end (d x : Z) : Z := if x <? 0 then x + d else x.
Definition taken (d start stop step i : Z) : bool :=
  if 0 <? step then
    let a := clamp 0 d (from_end d start) in let b := clamp 0 d (from_end d stop) in
    (a <=? i) && (i <? b) && ((i - a) mod step =? 0)
  else
    let a := clamp 0 (d - 1) (from_end d start) in let b := clamp (-1) (d - 1) (from_end d stop) in
    (i <=? a) && (b <? i) && ((a - i) mod (- step) =? 0).
Definition slice_size (d : N) (start stop step : Z) : N :=
  N.of_nat (length (filter (fun i => taken (Z.of_N d) start stop step (Z.of_nat i)) (seq 0 (N.to_nat d)))).

Record cut := mkCut { c_axis : Z; c_start : Z; c_stop : Z; c_step : Z }.
Definition slice_of (cuts : list cut) (s out : list N) : Prop :=
  valid_axes (length s) (map c_axis cuts) /\ (forall c, In c cuts -> c_step c <> 0) /\ length out = length s /\
  forall k d, nth_error s k = Some d ->
    (forall c, In c cuts -> position (length s) (c_axis c) = k -> nth_error out k = Some (slice_size d (c_start c) (c_stop c) (c_step c))) /\
    (~ named (length s) (map c_axis cuts) k -> nth_error out k = Some d).

Definition tile_of (reps : list N) (s out : list N) : Prop :=
  length reps = length s /\ length out = length s /\
  forall k d r, nth_error s k = Some d -> nth_error reps k = Some r -> nth_error out k = Some (d * r)%N.

(** Pads: all begins, then all ends; negative ones crop. *)
Definition pad_of (pads : list Z) (s out : list N) : Prop :=
  length pads = (2 * length s)%nat /\ length out = length s /\
  forall k d, nth_error s k = Some d ->
    exists o, nth_error out k = Some o /\
      Z.of_N o = Z.of_N d + nth k pads 0 + nth (k + length s) pads 0.
