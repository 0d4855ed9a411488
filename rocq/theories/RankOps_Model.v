(** Reductions, MatMul, Gather, Shape, convolutions and pooling. *)
From Verif Require Export AxisOps_Model.

(** [a - b] on usize (release build: it wraps; a debug build panics). *)
Definition usub (a b : N) : N := if N.leb b a then (a - b)%N else (a + w64 - b)%N.

(** [Vec::remove]: panics when out of range. *)
Fixpoint remove_at {A} (i : nat) (l : list A) : ires (list A) :=
  match l, i with
  | [], _ => IPanic
  | _ :: r, O => IOk r
  | x :: r, S j => ibind (remove_at j r) (fun r' => IOk (x :: r'))
  end.
(** [l[i] = v]: panics when out of range. *)
Definition store_at {A} (i : nat) (v : A) (l : list A) : ires (list A) :=
  if Nat.ltb i (length l) then IOk (set_nth l i v) else IPanic.

(** [Vec::sort] on usize. *)
Fixpoint insert_n (x : N) (l : list N) : list N :=
  match l with
  | [] => [x]
  | y :: r => if N.leb x y then x :: l else y :: insert_n x r
  end.
Definition sort_n (l : list N) : list N := fold_right insert_n [] l.

Section WithValues.
  Variable value : arg -> option cval.

  (** ** Reduce*: crates/onnx-ir/src/node/reduce.rs *)

  (** Lines 249-292: the sorted dimensions and the flag. *)
  Definition reduce_config (n : rnode) : ires (list N * bool) :=
    ibind (first_input n) (fun i0 =>
      match aty i0 with
      | TensorT t =>
          ibind (match get_attr n "axes" with Some a => attr_i64s a | None => IOk [] end) (fun attr_axes =>
          ibind (attr_i64_or n "keepdims" 1) (fun keep =>
          ibind (match nth_error (ninputs n) 1 with
                 | Some i1 => match value i1 with
                              | Some v => match cv_i64s v with Some l => IOk l | None => IPanic end
                              | None => IOk attr_axes end
                 | None => IOk attr_axes end) (fun axes =>
          IOk (sort_n (map (norm_axis (tt_rank t)) axes), Z.eqb keep 1))))
      | _ => IErr
      end).

  (** Lines 219-238. *)
  Fixpoint set_ones (dims : list N) (shape : list (option N)) : ires (list (option N)) :=
    match dims with
    | [] => IOk shape
    | d :: r => ibind (store_at (N.to_nat d) (Some 1%N) shape) (set_ones r)
    end.
  Fixpoint remove_rev (dims : list N) (shape : list (option N)) : ires (list (option N)) :=
    match dims with
    | [] => IOk shape
    | d :: r => ibind (remove_rev r shape) (remove_at (N.to_nat d))
    end.

  (** Lines 149-247. *)
  Definition infer_reduce (n : rnode) : ires argty :=
    ibind (first_input n) (fun i0 =>
      match aty i0 with
      | TensorT t =>
          ibind (iexpect (reduce_config n)) (fun c =>
          let (dims, keep) := c in
          if negb keep && (Nat.eqb (length dims) 0 || N.eqb (N.of_nat (length dims)) (tt_rank t))
          then IOk (ScalarTensor (tt_dtype t))
          else
            ibind (match tt_shape t with
                   | Some s =>
                       if N.eqb (N.of_nat (length s)) (tt_rank t)
                       then ibind (if keep then set_ones dims s else remove_rev dims s) (fun r => IOk (Some r))
                       else IOk None
                   | None => IOk None end) (fun shape =>
            IOk (TensorT (mkTT (tt_dtype t) (if keep then tt_rank t else usub (tt_rank t) (N.of_nat (length dims))) shape))))
      | _ => IErr
      end).

  (** ** ArgMax and ArgMin: crates/onnx-ir/src/node/argmax.rs:54-155; argmin.rs is
      the same code.  The loop over the attributes is a lookup of each
      (the map has each key once). *)
  Definition arg_config (n : rnode) : ires (N * bool) :=
    ibind (first_input n) (fun i0 =>
      match aty i0 with
      | TensorT t =>
          ibind (attr_i64_or n "axis" 0) (fun axis =>
          ibind (attr_i64_or n "keepdims" 1) (fun keep =>
          ibind (attr_i64_or n "select_last_index" 0) (fun last =>
          if negb (Z.eqb keep 0) && negb (Z.eqb keep 1) then IErr
          else if negb (Z.eqb last 0) then IErr
          else IOk (norm_axis (tt_rank t) axis, negb (Z.eqb keep 0)))))
      | _ => IErr
      end).
  Definition infer_arg (n : rnode) : ires argty :=
    ibind (first_input n) (fun i0 =>
      match aty i0 with
      | TensorT t =>
          ibind (iexpect (arg_config n)) (fun c =>
          if snd c then IOk (TensorT (mkTT I64 (tt_rank t) None))
          else if N.eqb (tt_rank t) 1 then IOk (ScalarTensor I64)
          else IOk (TensorT (mkTT I64 (usub (tt_rank t) 1) None)))
      | _ => IErr
      end).

  (** ** TopK: crates/onnx-ir/src/node/topk.rs:87-140: values and indices; lines
      142-195: the axis. *)
  Definition infer_topk (n : rnode) : ires (argty * argty) :=
    ibind (attr_i64_or n "largest" 1) (fun largest =>
    if negb (Z.eqb largest 1) then IErr else
    ibind (attr_i64_or n "sorted" 1) (fun sorted =>
    if negb (Z.eqb sorted 1) then IErr else
    ibind (first_input n) (fun i0 =>
      match aty i0 with
      | TensorT t => IOk (TensorT (mkTT (tt_dtype t) (tt_rank t) None), TensorT (mkTT I64 (tt_rank t) None))
      | _ => IErr
      end))).
  Definition topk_axis (n : rnode) : ires N :=
    ibind (first_input n) (fun i0 =>
      match aty i0 with
      | TensorT t => ibind (attr_i64_or n "axis" (-1)) (fun axis => IOk (norm_axis (tt_rank t) axis))
      | _ => IErr
      end).

  (** ** MatMul: crates/onnx-ir/src/node/matmul.rs:58-125 *)
  Definition infer_matmul (n : rnode) : ires argty :=
    match nattrs n with
    | _ :: _ => IErr
    | [] =>
        match ninputs n with
        | i0 :: i1 :: _ =>
            match aty i0, aty i1 with
            | TensorT a, TensorT b =>
                if negb (dtype_beq (tt_dtype a) (tt_dtype b)) then IErr
                else if N.ltb (tt_rank a) 1 || N.ltb (tt_rank b) 1 then IErr
                else
                  let out := N.max (tt_rank a) (tt_rank b) in
                  IOk (TensorT (mkTT (tt_dtype a)
                    (if (N.leb 2 (tt_rank a) && N.eqb (tt_rank b) 1) || (N.eqb (tt_rank a) 1 && N.leb 2 (tt_rank b))
                     then (out - 1)%N else out) None))
            | _, _ => IErr
            end
        | _ => IPanic
        end
    end.

  (** ** Gather: crates/onnx-ir/src/node/gather.rs:97-196 *)
  Definition gather_dim (ty : argty) : Z :=
    match ty with TensorT t => Z.of_N (tt_rank t) | ShapeT r => Z.of_N r | _ => 1%Z end.
  Definition indices_rank (ty : argty) : N :=
    match ty with TensorT t => tt_rank t | ShapeT _ => 1%N | _ => 0%N end.
  Definition infer_gather (n : rnode) : ires argty :=
    match ninputs n with
    | i0 :: i1 :: _ =>
        if negb (forallb (fun kv => String.eqb (fst kv) "axis") (nattrs n)) then IErr
        else
          ibind (attr_i64_or n "axis" 0) (fun axis0 =>
          let axis := if (axis0 <? 0)%Z then (axis0 + gather_dim (aty i0))%Z else axis0 in
          if ((axis <? 0) || (axis >=? gather_dim (aty i0)))%Z%bool then IErr
          else
            let q := indices_rank (aty i1) in
            match aty i0 with
            | TensorT t =>
                let r := usub (q + tt_rank t)%N 1 in
                if N.eqb r 0 then IOk (ScalarTensor (tt_dtype t))
                else IOk (TensorT (mkTT (tt_dtype t) r None))
            | ShapeT _ =>
                if N.eqb q 0 then IOk (ScalarNative I64)
                else IOk (ShapeT (match aty i1 with ShapeT k => k | _ => q end))
            | ScalarTensor d => IOk (ScalarTensor d)
            | ScalarNative d => IOk (ScalarNative d)
            end)
    | _ => IPanic
    end.
  (** Lines 198-224, the configured axis. *)
  Definition gather_axis (n : rnode) : ires N :=
    ibind (first_input n) (fun i0 =>
    ibind (attr_i64_or n "axis" 0) (fun axis =>
    IOk (to_usize (if (axis <? 0)%Z then (axis + gather_dim (aty i0))%Z else axis)))).

  (** ** Shape: crates/onnx-ir/src/node/shape.rs:61-138 *)
  Definition shape_config (n : rnode) : ires (N * N) :=
    ibind (first_input n) (fun i0 =>
    ibind (match aty i0 with TensorT t => IOk (tt_rank t) | ShapeT r => IOk r | _ => IErr end) (fun rank =>
    ibind (attr_i64_or n "start" 0) (fun s =>
    ibind (attr_i64_or n "end" (Z.of_N rank)) (fun e =>
    IOk (norm_axis rank s, norm_axis rank e))))).
  Definition infer_shape (n : rnode) : ires argty :=
    ibind (first_input n) (fun i0 =>
      match aty i0 with
      | TensorT _ => ibind (iexpect (shape_config n)) (fun c => IOk (ShapeT (usub (snd c) (fst c))))
      | ShapeT _ => IOk (ShapeT 1)
      | _ => IErr
      end).

  (** ** Convolutions: crates/onnx-ir/src/node/conv1d.rs:75-280, conv2d.rs:73-301,
      conv3d.rs:75-263, one function of the number [k] of spatial axes. *)

  (** conv1d.rs:197-213, conv2d.rs:196-215, conv3d.rs:126-145. *)
  Definition compute_spatial (input_dim : option N) (kernel stride dilation pad_begin pad_end : N) : option N :=
    match input_dim with
    | None => None
    | Some d =>
        let si x := i64 (Z.of_N x) in
        let padding := ((pad_begin + pad_end) mod w64)%N in
        let numerator := i64 (i64 (i64 (si d + si padding) - i64 (si dilation * i64 (si kernel - 1))) - 1) in
        if ((numerator <? 0)%Z || N.eqb stride 0)%bool then None
        else Some (Z.to_N numerator / stride + 1)%N
    end.

  Inductive auto_pad := NotSet | SameUpper | SameLower | Valid.
  (** crates/onnx-ir/src/node/padding.rs:31-42 and attribute.rs [into_string]. *)
  Definition parse_auto_pad (a : attr) : ires auto_pad :=
    match a with
    | AString s =>
        if String.eqb s "NOTSET" then IOk NotSet
        else if String.eqb s "SAME_UPPER" then IOk SameUpper
        else if String.eqb s "SAME_LOWER" then IOk SameLower
        else if String.eqb s "VALID" then IOk Valid
        else IErr
    | _ => IPanic
    end.

  (** crates/onnx-ir/src/node/padding.rs:113-123, 184-194, 262-280, one function of
      the number [k] of axes: [None] is [Valid], [Some] is [Explicit] with the
      begins and the ends. *)
  Definition padding_conf (k : nat) (pads : list Z) : ires (option (list N * list N)) :=
    if Nat.ltb (length pads) (2 * k) then IPanic
    else if existsb (fun z => z <? 0)%Z (firstn (2 * k) pads) then IPanic
    else if forallb (fun z => z =? 0)%Z (firstn (2 * k) pads) then IOk None
    else IOk (Some (map to_usize (firstn k pads), map to_usize (firstn k (skipn k pads)))).
  (** Lines 87-92, 158-163, 234-241. *)
  Definition as_tuple (k : nat) (c : option (list N * list N)) : list N * list N :=
    match c with None => (repeat 0%N k, repeat 0%N k) | Some p => p end.
  Definition padding_config (k : nat) (pads : list Z) : ires (list N * list N) :=
    ibind (padding_conf k pads) (fun c => IOk (as_tuple k c)).

  (** [l[0], .., l[k-1]], a panic when shorter. *)
  Definition first_k (k : nat) (l : list Z) : ires (list N) :=
    if Nat.ltb (length l) k then IPanic else IOk (map to_usize (firstn k l)).

  Definition conv_attrs : list string := ["kernel_shape"; "strides"; "pads"; "dilations"; "group"; "auto_pad"]%string.

  Record conv_conf := mkConv { cc_kernel : list N; cc_stride : list N; cc_begin : list N; cc_end : list N;
                               cc_dilation : list N; cc_group : N; cc_auto : auto_pad }.

  Definition attr_i64s_or (n : rnode) (key : string) (d : list Z) : ires (list Z) :=
    match get_attr n key with Some a => attr_i64s a | None => IOk d end.

  Definition conv_config (k : nat) (n : rnode) : ires conv_conf :=
    match nth_error (ninputs n) 1 with
    | None => IPanic
    | Some i1 =>
        match value i1 with
        | None => IErr
        | Some w =>
            if Nat.eqb k 3 && negb (forallb (fun kv => mem_str (fst kv) conv_attrs) (nattrs n)) then IErr
            else
              ibind (attr_i64s_or n "kernel_shape" []) (fun kernel =>
              ibind (attr_i64s_or n "strides" (repeat 1%Z k)) (fun strides =>
              ibind (attr_i64s_or n "pads" (repeat 0%Z (2 * k))) (fun pads =>
              ibind (attr_i64s_or n "dilations" (repeat 1%Z k)) (fun dilations =>
              ibind (attr_i64_or n "group" 1) (fun group =>
              ibind (match get_attr n "auto_pad" with Some a => parse_auto_pad a | None => IOk NotSet end) (fun auto =>
              ibind (padding_config k pads) (fun pad =>
              ibind (match kernel with
                     | [] => if Nat.eqb (length (cv_shape w)) (k + 2) then IOk (skipn 2 (cv_shape w)) else IErr
                     | _ => first_k k kernel end) (fun ks =>
              ibind (first_k k strides) (fun ss =>
              ibind (first_k k dilations) (fun ds =>
              IOk (mkConv ks ss (fst pad) (snd pad) ds (to_usize group) auto)))))))))))
        end
    end.

  (** The checks of lines 90-179 (1-D and 2-D only). *)
  Definition conv_checks (k : nat) (n : rnode) (t w : tensor_type) : ires unit :=
    if Nat.eqb k 3 then (if N.eqb (tt_rank t) 5 then IOk tt else IErr)
    else if negb (forallb (fun kv => mem_str (fst kv) conv_attrs) (nattrs n)) then IErr
    else ibind (match get_attr n "auto_pad" with Some a => ibind (parse_auto_pad a) (fun _ => IOk tt) | None => IOk tt end) (fun _ =>
      if negb (N.eqb (tt_rank t) (N.of_nat (k + 2))) then IErr
      else if negb (N.eqb (tt_rank w) (N.of_nat (k + 2))) then IErr
      else if negb (dtype_beq (tt_dtype t) (tt_dtype w)) then IErr
      else match nth_error (ninputs n) 2 with
           | None => IOk tt
           | Some b => match aty b with
                       | TensorT bt => if N.eqb (tt_rank bt) 1 && dtype_beq (tt_dtype t) (tt_dtype bt) then IOk tt else IErr
                       | _ => IErr end
           end).

  Definition dim_at (o : option (list (option N))) (i : nat) : option N :=
    match o with Some l => match nth_error l i with Some d => d | None => None end | None => None end.

  Definition infer_conv (k : nat) (n : rnode) : ires argty :=
    match ninputs n with
    | i0 :: i1 :: _ =>
        match aty i0, aty i1 with
        | TensorT t, TensorT w =>
            ibind (conv_checks k n t w) (fun _ =>
            let batch := dim_at (tt_shape t) 0 in
            let channels := match value i1 with
                            | Some v => match cv_shape v with c :: _ => Some c | [] => dim_at (tt_shape w) 0 end
                            | None => dim_at (tt_shape w) 0 end in
            ibind (match conv_config k n with
                   | IOk c => IOk (map (fun i => compute_spatial (dim_at (tt_shape t) (2 + i)) (nth i (cc_kernel c) 0%N) (nth i (cc_stride c) 0%N)
                                                   (nth i (cc_dilation c) 0%N) (nth i (cc_begin c) 0%N) (nth i (cc_end c) 0%N)) (seq 0 k))
                   | IErr => IOk (repeat None k)
                   | IPanic => IPanic end) (fun spatial =>
            IOk (TensorT (mkTT (tt_dtype t) (tt_rank t) (Some (batch :: channels :: spatial))))))
        | _, _ => IErr
        end
    | _ => IPanic
    end.

  (** ** Pad: crates/onnx-ir/src/node/pad.rs:188-358; the fill value is left out. *)
  Inductive pad_mode := PConstant | PReflect | PEdge.
  (** Lines 61-72 and 190-207. *)
  Definition get_mode (n : rnode) : ires pad_mode :=
    match get_attr n "mode" with
    | None => IOk PConstant
    | Some (AString s) =>
        if String.eqb s "constant" then IOk PConstant
        else if String.eqb s "reflect" then IOk PReflect
        else if String.eqb s "edge" then IOk PEdge
        else IErr
    | Some _ => IPanic
    end.
  (** Lines 266-282. *)
  Definition parse_pads (l : list Z) : ires (list N) :=
    if existsb (fun z => z <? 0)%Z l then IErr else IOk (map to_usize l).
  (** Lines 285-297; [input_dim * 2] is far below 2^64. *)
  Definition validate_pads_len (pads : list N) (rank : N) : ires unit :=
    if N.eqb (N.of_nat (length pads)) (rank * 2) then IOk tt else IErr.
  (** Lines 301-304. *)
  Definition onnx_pads_to_pairs (flat : list N) : list (N * N) :=
    let n := Nat.div (length flat) 2 in
    map (fun i => (nth i flat 0%N, nth (n + i) flat 0%N)) (seq 0 n).
  Inductive pad_input := PadStatic (l : list (N * N)) | PadRuntime (name : string) (i : nat).
  (** Lines 209-263.  When a model has both attributes the map's order decides
      in the code; here "pads" wins. *)
  Definition get_pads (n : rnode) : ires pad_input :=
    if Nat.leb 4 (length (ninputs n)) then IErr
    else
      ibind (first_input n) (fun i0 =>
        match aty i0 with
        | TensorT t =>
            let static (l : list Z) :=
              ibind (parse_pads l) (fun flat =>
              ibind (validate_pads_len flat (tt_rank t)) (fun _ => IOk (PadStatic (onnx_pads_to_pairs flat)))) in
            match (match get_attr n "pads" with Some a => Some a | None => get_attr n "paddings" end) with
            | Some a => ibind (attr_i64s a) static
            | None =>
                match nth_error (ninputs n) 1 with
                | Some i1 =>
                    if is_optional i1 then IErr
                    else match value i1 with
                         | None => IOk (PadRuntime (aname i1) 1)
                         | Some v => match cv_ints v with Some l => static l | None => IErr end
                         end
                | None => IErr
                end
            end
        | _ => IErr
        end).
  Definition pad_config (n : rnode) : ires (pad_mode * pad_input) :=
    ibind (get_mode n) (fun m => ibind (get_pads n) (fun p => IOk (m, p))).
End WithValues.

(** MaxPool (crates/onnx-ir/src/node/max_pool2d.rs:95-151, max_pool1d.rs),
    ConvTranspose (conv_transpose1d.rs, 2d, 3d) and Resize (resize.rs:418) give
    their output the input's type, as [infer_same] (crates/onnx-ir/src/processor.rs:548-550). *)
