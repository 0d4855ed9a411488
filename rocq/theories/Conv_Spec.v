(** Conv, ConvTranspose, MaxPool, AveragePool and GlobalAveragePool as ONNX defines them,
    for any number of spatial axes.  Nothing here mentions the generated code.  Numbers are
    any type with the operations named below. *)
From Verif Require Export Tensor_Spec IR_Model Shapes_Spec.
Import Tensor_Spec.
Local Open Scope N_scope.

(** What the attributes [pads] and [auto_pad] ask for. *)
Inductive padding := Pads (b e : list N) | SameUp | SameLow | Unpadded.
(** One entry per spatial axis. *)
Record window := mkWin { w_kernel : list N; w_stride : list N; w_dilation : list N; w_pad : padding }.

(** What a dilated kernel spans; [a / b] rounded up. *)
Definition extent (k dl : N) : N := (k - 1) * dl + 1.
Definition ceil_div (a b : N) : N := (a + b - 1) / b.
(** SAME_*: the padding that makes [ceil (d / s)] outputs out of [d] inputs (none if the
    windows fit anyway). *)
Definition same_total (k s dl d : N) : N := (ceil_div d s - 1) * s + extent k dl - d.
Fixpoint each4 (f : N -> N -> N -> N -> N) (a b c d : list N) : list N :=
  match a, b, c, d with x :: a, y :: b, z :: c, w :: d => f x y z w :: each4 f a b c d | _, _, _, _ => [] end.
(** The padding in front of and behind each axis. *)
Definition pads_of (w : window) (ds : list N) : list N * list N :=
  let half k s dl d := same_total k s dl d / 2 in
  let rest k s dl d := same_total k s dl d - same_total k s dl d / 2 in
  match w_pad w with
  | Pads b e => (b, e)
  | SameUp => (each4 half (w_kernel w) (w_stride w) (w_dilation w) ds, each4 rest (w_kernel w) (w_stride w) (w_dilation w) ds)
  | SameLow => (each4 rest (w_kernel w) (w_stride w) (w_dilation w) ds, each4 half (w_kernel w) (w_stride w) (w_dilation w) ds)
  | Unpadded => (map (fun _ => 0) ds, map (fun _ => 0) ds)
  end.

(** The number of windows along each axis: every [s]-th position of the padded axis at which
    the whole kernel fits; [None] if it fits nowhere.  With [ceil_mode] the number is that of
    the parameter [ceil_count kernel stride dilation begin end size]. *)
Section Count.
  Variable ceil_count : N -> N -> N -> N -> N -> N -> N.
  Fixpoint counts (ceil : bool) (ks ss dl bs es ds : list N) : option (list N) :=
    match ks, ss, dl, bs, es, ds with
    | k :: ks, s :: ss, l :: dl, b :: bs, e :: es, d :: ds =>
        if b + d + e <? extent k l then None
        else match counts ceil ks ss dl bs es ds with
             | Some r => Some ((if ceil then ceil_count k s l b e d else (b + d + e - extent k l) / s + 1) :: r)
             | None => None
             end
    | [], [], [], [], [], [] => Some []
    | _, _, _, _, _, _ => None
    end.
End Count.

(** Where element [q] of window [o] lies: outside of the input if negative or beyond its end. *)
Fixpoint positions (ss dl bs os qs : list N) : list Z :=
  match ss, dl, bs, os, qs with
  | s :: ss, l :: dl, b :: bs, o :: os, q :: qs => (Z.of_N (o * s + q * l) - Z.of_N b)%Z :: positions ss dl bs os qs
  | _, _, _, _, _ => []
  end.
Fixpoint inside (ds : list N) (ps : list Z) : bool :=
  match ds, ps with
  | d :: ds, p :: ps => ((0 <=? p) && (p <? Z.of_N d))%Z && inside ds ps
  | [], [] => true
  | _, _ => false
  end.
(** The same for the padded axis. *)
Fixpoint inside_padded (ds bs es : list N) (ps : list Z) : bool :=
  match ds, bs, es, ps with
  | d :: ds, b :: bs, e :: es, p :: ps => ((- Z.of_N b <=? p) && (p <? Z.of_N (d + e)))%Z && inside_padded ds bs es ps
  | [], [], [], [] => true
  | _, _, _, _ => false
  end.

Section Ops.
  Context {T : Type} (add mul : T -> T -> T) (zero : T).
  Definition elem (t : tensor T) (idx : list N) : T := match get t idx with Some v => v | None => zero end.
  Definition sum {A} (l : list A) (f : A -> T) : T := fold_right add zero (map f l).
  Definition with_bias (B : option (tensor T)) (j : N) (y : T) : T := match B with Some b => add y (elem b [j]) | None => y end.
  Definition bias_ok (B : option (tensor T)) (m : N) : Prop := forall b, B = Some b -> twf b /\ tshape b = [m].

  (** Conv: output channel [j] belongs to group [j / (M / group)] and sees that group's
      input channels.  The input counts as zero outside. *)
  Definition onnx_conv (w : window) (group : N) (X W : tensor T) (B : option (tensor T)) : option (tensor T) :=
    match tshape X, tshape W with
    | n :: c :: ds, m :: cg :: ks =>
        let (bs, es) := pads_of w ds in
        match counts (fun _ _ _ _ _ _ => 0) false ks (w_stride w) (w_dilation w) bs es ds with
        | None => None
        | Some os =>
            tab (n :: m :: os) (fun idx => match idx with
              | i :: j :: o =>
                  Some (with_bias B j (sum (upto cg) (fun ch => sum (indices ks) (fun q =>
                    let ps := positions (w_stride w) (w_dilation w) bs o q in
                    mul (if inside ds ps then elem X (i :: j / (m / group) * cg + ch :: map Z.to_N ps) else zero) (elem W (j :: ch :: q))))))
              | _ => None
              end)
        end
    | _, _ => None
    end.

  (** ConvTranspose: input element [p] adds its multiple of the kernel at [p * stride]; the
      padding is cut off, [op] more elements are kept at the end. *)
  Fixpoint tsizes (ks ss dl bs es op ds : list N) : option (list N) :=
    match ks, ss, dl, bs, es, op, ds with
    | k :: ks, s :: ss, l :: dl, b :: bs, e :: es, o :: op, d :: ds =>
        if (s * (d - 1) + o + extent k l <? b + e) || (d =? 0) then None
        else match tsizes ks ss dl bs es op ds with Some r => Some (s * (d - 1) + o + extent k l - (b + e) :: r) | None => None end
    | [], [], [], [], [], [], [] => Some []
    | _, _, _, _, _, _, _ => None
    end.
  Fixpoint lands (ss dl bs ps qs os : list N) : bool :=
    match ss, dl, bs, ps, qs, os with
    | s :: ss, l :: dl, b :: bs, p :: ps, q :: qs, o :: os => (p * s + q * l =? o + b) && lands ss dl bs ps qs os
    | [], [], [], [], [], [] => true
    | _, _, _, _, _, _ => false
    end.
  Definition onnx_conv_transpose (ss dl bs es op : list N) (group : N) (X W : tensor T) (B : option (tensor T)) : option (tensor T) :=
    match tshape X, tshape W with
    | n :: c :: ds, c' :: mg :: ks =>
        match tsizes ks ss dl bs es op ds with
        | None => None
        | Some os =>
            tab (n :: mg * group :: os) (fun idx => match idx with
              | i :: j :: o =>
                  Some (with_bias B j (sum (upto (c / group)) (fun ch => sum (indices ds) (fun p => sum (indices ks) (fun q =>
                    if lands ss dl bs p q o
                    then mul (elem X (i :: j / mg * (c / group) + ch :: p)) (elem W (j / mg * (c / group) + ch :: j mod mg :: q)) else zero)))))
              | _ => None
              end)
        end
    | _, _ => None
    end.

  (** The elements of window [o] that lie in the input. *)
  Definition window_elems (w : window) (bs ds : list N) (X : tensor T) (i j : N) (o : list N) : list T :=
    map (fun ps => elem X (i :: j :: map Z.to_N ps))
        (filter (inside ds) (map (positions (w_stride w) (w_dilation w) bs o) (indices (w_kernel w)))).
  Definition pooling (ceil_count : N -> N -> N -> N -> N -> N -> N) (ceil : bool) (w : window) (X : tensor T) (f : list N -> list N -> list N -> N -> N -> list N -> T) : option (tensor T) :=
    match tshape X with
    | n :: c :: ds =>
        let (bs, es) := pads_of w ds in
        match counts ceil_count ceil (w_kernel w) (w_stride w) (w_dilation w) bs es ds with
        | None => None
        | Some os => tab (n :: c :: os) (fun idx => match idx with i :: j :: o => Some (f bs es ds i j o) | _ => None end)
        end
    | _ => None
    end.
  (** MaxPool: the largest element; [lowest] for a window without one. *)
  Definition onnx_max_pool (larger : T -> T -> T) (lowest : T) ceil_count (ceil : bool) (w : window) (X : tensor T) : option (tensor T) :=
    pooling ceil_count ceil w X (fun bs es ds i j o => fold_right larger lowest (window_elems w bs ds X i j o)).
  (** AveragePool: the mean of these elements, or with [count_include_pad] their sum over the
      number of those that lie in the padded input. *)
  Definition onnx_average_pool (over : T -> N -> T) ceil_count (ceil include_pad : bool) (w : window) (X : tensor T) : option (tensor T) :=
    pooling ceil_count ceil w X (fun bs es ds i j o =>
      let l := window_elems w bs ds X i j o in
      over (fold_right add zero l)
           (if include_pad then N.of_nat (length (filter (inside_padded ds bs es) (map (positions (w_stride w) (w_dilation w) bs o) (indices (w_kernel w)))))
            else N.of_nat (length l))).
  (** GlobalAveragePool: the mean of all elements of a channel. *)
  Definition onnx_global_average_pool (over : T -> N -> T) (X : tensor T) : option (tensor T) :=
    match tshape X with
    | n :: c :: ds =>
        tab (n :: c :: map (fun _ => 1) ds) (fun idx => match idx with
          | i :: j :: _ => Some (over (sum (indices ds) (fun p => elem X (i :: j :: p))) (prodN ds))
          | _ => None end)
    | _ => None
    end.
End Ops.

(** ** Attributes *)
Definition ints_attr (n : rnode) (key : string) (default l : list N) : Prop :=
  match get_attr n key with
  | None => l = default
  | Some (AInts z) => z = map Z.of_N l
  | Some _ => False
  end.
Definition int_attr (n : rnode) (key : string) (default v : N) : Prop :=
  match get_attr n key with
  | None => v = default
  | Some (AInt z) => z = Z.of_N v
  | Some _ => False
  end.
(** Of an [int64]. *)
Definition i64_nats (l : list N) : Prop := Forall (fun v => v < 2 ^ 63) l.
Definition all_positive (l : list N) : Prop := Forall (fun v => 0 < v) l.
Definition padding_attr (k : nat) (n : rnode) (p : padding) : Prop :=
  match p with
  | Pads b e =>
      (get_attr n "auto_pad" = None \/ get_attr n "auto_pad" = Some (AString "NOTSET")) /\
      length b = k /\ length e = k /\ i64_nats b /\ i64_nats e /\ ints_attr n "pads" (repeat 0 (2 * k)) (b ++ e)
  | SameUp => get_attr n "auto_pad" = Some (AString "SAME_UPPER")
  | SameLow => get_attr n "auto_pad" = Some (AString "SAME_LOWER")
  | Unpadded => get_attr n "auto_pad" = Some (AString "VALID")
  end.
Definition strides_attr (k : nat) (n : rnode) (ss dl : list N) : Prop :=
  length ss = k /\ i64_nats ss /\ all_positive ss /\ ints_attr n "strides" (repeat 1 k) ss /\
  length dl = k /\ i64_nats dl /\ all_positive dl /\ ints_attr n "dilations" (repeat 1 k) dl.
(** Conv and ConvTranspose may leave [kernel_shape] to the weight. *)
Definition kernel_attr (k : nat) (n : rnode) (ks : list N) : Prop :=
  length ks = k /\ all_positive ks /\ i64_nats ks /\ (get_attr n "kernel_shape" = None \/ get_attr n "kernel_shape" = Some (AInts (map Z.of_N ks))).
Definition window_attrs (k : nat) (n : rnode) (w : window) : Prop :=
  kernel_attr k n (w_kernel w) /\ strides_attr k n (w_stride w) (w_dilation w) /\ padding_attr k n (w_pad w).

(** ** Nodes *)
Section Nodes.
  Context {T : Type} (value : arg -> option (tensor T)) (e : string -> option (tensor T)).
  (** The first input is [X], and its type does not say anything wrong about it. *)
  Definition input_is (n : rnode) (X : tensor T) : Prop :=
    exists x ins, ninputs n = x :: ins /\ e (aname x) = Some X /\ twf X /\ Shapes_Spec.fits (aty x) (tshape X).
  (** The weight and the bias, if there is one, are constants of the model. *)
  Definition constant_is (a : arg) (t : tensor T) : Prop := value a = Some t /\ twf t /\ exists ty, aty a = TensorT ty.
  Definition weights_are (n : rnode) (W : tensor T) (B : option (tensor T)) : Prop :=
    exists x w bs, ninputs n = x :: w :: bs /\ constant_is w W /\
      match bs with [] => B = None | [b] => exists t, B = Some t /\ constant_is b t | _ => False end.
End Nodes.
(** What ONNX requires of the shapes of Conv and ConvTranspose: [k] spatial axes, [c] input and
    [m] output channels in [group] groups. *)
Definition conv_shapes {T} (k : nat) (group : N) (ks : list N) (X W : tensor T) (B : option (tensor T)) : Prop :=
  exists n cg m ds, tshape X = n :: cg * group :: ds /\ length ds = k /\ tshape W = m :: cg :: ks /\ 0 < group < 2 ^ 63 /\ m mod group = 0 /\ bias_ok B m.
Definition conv_transpose_shapes {T} (k : nat) (group : N) (ks : list N) (X W : tensor T) (B : option (tensor T)) : Prop :=
  exists n c mg ds, tshape X = n :: c :: ds /\ length ds = k /\ tshape W = c :: mg :: ks /\ 0 < group < 2 ^ 63 /\ c mod group = 0 /\ bias_ok B (mg * group).
Definition output_name (n : rnode) (s : string) : Prop := exists o r, noutputs n = o :: r /\ aname o = s.
(** Each attribute is one of these. *)
Definition attrs_in (n : rnode) (l : list string) : Prop := forall key v, In (key, v) (nattrs n) -> In key l.
(** The type of an argument says its whole shape. *)
Definition shape_known (a : arg) (s : list N) : Prop := exists t, aty a = TensorT t /\ tt_shape t = Some (map Some s).
(** SAME padding with a static shape (and no [pads] beside it), and, with three spatial axes,
    as much before as after. *)
Definition padding_static (k : nat) (n : rnode) (w : window) (s : list N) : Prop :=
  (w_pad w = SameUp \/ w_pad w = SameLow -> get_attr n "pads" = None /\ exists x ins, ninputs n = x :: ins /\ shape_known x s /\ all_positive (skipn 2 s)) /\
  (w_pad w = Unpadded -> get_attr n "pads" = None) /\
  (k = 3%nat -> fst (pads_of w (skipn 2 s)) = snd (pads_of w (skipn 2 s))).
(** Pooling: [k] spatial axes, and attributes that are 0 or 1. *)
Definition pool_shape {T} (k : nat) (X : tensor T) : Prop := exists n c ds, tshape X = n :: c :: ds /\ length ds = k.
Definition flag (n : rnode) (key : string) (b : bool) : Prop := exists v, int_attr n key 0 v /\ b = (v =? 1).
(** The attributes of ConvTranspose, with as much removed before as after. *)
Definition tconv_attrs_are (k : nat) (n : rnode) (ks ss dl ps op : list N) : Prop :=
  kernel_attr k n ks /\ strides_attr k n ss dl /\ (get_attr n "auto_pad" = None \/ get_attr n "auto_pad" = Some (AString "NOTSET")) /\
  length ps = k /\ i64_nats ps /\ ints_attr n "pads" (repeat 0 (2 * k)) (ps ++ ps) /\
  length op = k /\ i64_nats op /\ ints_attr n "output_padding" (repeat 0 k) op.
