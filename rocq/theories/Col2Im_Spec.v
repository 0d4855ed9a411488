(** What ONNX prescribes for Col2Im.  Nothing here mentions the generated code. *)
From Verif Require Export Conv_Spec.
Import Tensor_Spec.
Local Open Scope N_scope.

(** An image, a block, and how the blocks lie on the image padded by [g_begin]
    and [g_end]. *)
Record geometry := mkG { g_image : list N; g_block : list N; g_stride : list N; g_dilation : list N; g_begin : list N; g_end : list N }.
Fixpoint add_lists (a b : list N) : list N := match a, b with x :: a, y :: b => x + y :: add_lists a b | _, _ => [] end.
Definition padded (g : geometry) : list N := add_lists (add_lists (g_image g) (g_begin g)) (g_end g).
(** How many blocks there are along each axis. *)
Fixpoint block_counts (ps ks ss dl : list N) : list N :=
  match ps, ks, ss, dl with
  | p :: ps, k :: ks, s :: ss, d :: dl => (p - extent k d) / s + 1 :: block_counts ps ks ss dl
  | _, _, _, _ => []
  end.
Definition counts_of (g : geometry) : list N := block_counts (padded g) (g_block g) (g_stride g) (g_dilation g).
(** Where, on the padded image, element [b] of block [q] lies. *)
Fixpoint place_of (ss dl q b : list N) : list N :=
  match ss, dl, q, b with
  | s :: ss, d :: dl, i :: q, j :: b => i * s + j * d :: place_of ss dl q b
  | _, _, _, _ => []
  end.
(** Each pixel of the image is the sum of the block elements that lie on it: in the
    columns, the elements of the block of channel [c] follow each other from
    [c * |block|] on, and the blocks are numbered row by row. *)
Section Col2Im.
  Context {T : Type} (add : T -> T -> T) (zero : T).
  Definition lying_on (g : geometry) (y : list N) : list (list N * list N) :=
    filter (fun bq => if list_eq_dec N.eq_dec (place_of (g_stride g) (g_dilation g) (snd bq) (fst bq)) (add_lists y (g_begin g)) then true else false)
           (list_prod (indices (g_block g)) (indices (counts_of g))).
  Definition onnx_col2im (g : geometry) (N C : N) (X : tensor T) : option (tensor T) :=
    tab (N :: C :: g_image g) (fun i =>
      match i with
      | n :: c :: y =>
          option_map (fun l => fold_left add l zero)
            (mapo (fun bq => get X [n; c * prodN (g_block g) + offset (g_block g) (fst bq); offset (counts_of g) (snd bq)]) (lying_on g y))
      | _ => None
      end).
End Col2Im.

Fixpoint block_extents (ks dl : list N) : list N := match ks, dl with k :: ks, d :: dl => extent k d :: block_extents ks dl | _, _ => [] end.
(** What ONNX requires: [k] spatial axes, blocks that fit on the padded image, and
    one column for each block. *)
Definition geometry_ok (k : nat) (g : geometry) : Prop :=
  length (g_image g) = k /\ length (g_block g) = k /\ length (g_stride g) = k /\ length (g_dilation g) = k /\
  length (g_begin g) = k /\ length (g_end g) = k /\
  all_positive (g_block g) /\ all_positive (g_stride g) /\
  Forall2 N.le (block_extents (g_block g) (g_dilation g)) (padded g).
Definition columns {T} (g : geometry) (N C : N) (X : tensor T) : Prop := tshape X = [N; C * prodN (g_block g); prodN (counts_of g)].

(** ** Nodes *)
Section Nodes.
  Context (value : arg -> option (list Z)).
  (** The sizes are constants of the model, the rest attributes. *)
  Definition col2im_node (k : nat) (n : rnode) (g : geometry) : Prop :=
    (exists x i b, ninputs n = [x; i; b] /\ value i = Some (map Z.of_N (g_image g)) /\ value b = Some (map Z.of_N (g_block g))) /\
    ints_attr n "strides" (repeat 1 k) (g_stride g) /\ ints_attr n "dilations" (repeat 1 k) (g_dilation g) /\
    ints_attr n "pads" (repeat 0 (2 * k)) (g_begin g ++ g_end g) /\
    i64_nats (g_image g) /\ i64_nats (g_block g) /\ i64_nats (g_stride g) /\ i64_nats (g_dilation g) /\ i64_nats (g_begin g) /\ i64_nats (g_end g).
End Nodes.
