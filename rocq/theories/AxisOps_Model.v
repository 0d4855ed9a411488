(** Split, Concat, Slice, Tile, Pad and Expand. *)
From Verif Require Export ShapeOps_Model.

(** Sizes are added without wrap-around: sums of dimensions stay far below
    2^64; the one sum of user-given numbers ([split]) wraps explicitly. *)
Definition sumN (l : list N) : N := fold_right N.add 0%N l.

(** crates/onnx-ir/src/ir/argument.rs:190-194, [static_shape_known]. *)
Fixpoint all_known (l : list (option N)) : option (list N) :=
  match l with
  | [] => Some []
  | Some d :: r => option_map (cons d) (all_known r)
  | None :: _ => None
  end.
Definition static_shape_known (t : tensor_type) : option (list N) :=
  match tt_shape t with Some l => all_known l | None => None end.

(** ** Split: crates/onnx-ir/src/node/split.rs *)

(** [dim_size.div_ceil(n)], n > 0. *)
Definition div_ceil (d n : N) : N := ((d + (n - 1)) / n)%N.
(** Lines 252-260 and 389-397. *)
Fixpoint chunks (k : nat) (chunk remaining : N) : list N :=
  match k with
  | O => []
  | S k' => N.min chunk remaining :: chunks k' chunk (remaining - chunk)
  end.
Definition chunk_sizes (dim n : N) : list N := chunks (N.to_nat n) (div_ceil dim n) dim.

Inductive split_sizes := SStatic (l : list N) | SRuntime (name : string).
Record split_conf := mkSplit { sp_axis : N; sp_sizes : option split_sizes; sp_num : option N }.

(** [s[axis]] on a vector: a panic when out of range. *)
Definition at_index {A} (l : list A) (i : N) : ires A :=
  if N.ltb i (N.of_nat (length l)) then match nth_error l (N.to_nat i) with Some d => IOk d | None => IPanic end
  else IPanic.

Section WithValues.
  Variable value : arg -> option cval.

  (** Lines 306-343 and 350-377: checks on explicit sizes. *)
  Definition explicit_ok (sizes : list Z) (outputs : nat) (dim : option N) : bool :=
    forallb (fun z => 0 <=? z)%Z sizes && Nat.eqb (length sizes) outputs &&
    match dim with Some d => N.eqb (sumN (map to_usize sizes) mod w64) d | None => true end.

  (** Lines 167-419. *)
  Definition split_config (n : rnode) : ires split_conf :=
    ibind (first_input n) (fun i0 =>
    ibind (match aty i0 with
           | TensorT t => IOk t
           | ShapeT r => IOk (mkTT I64 1 (Some [Some r]))
           | _ => IErr end) (fun t =>
    ibind (attr_i64_or n "axis" 0) (fun axis0 =>
    ibind (match get_attr n "num_outputs" with
           | Some a => ibind (attr_i64 a) (fun z => IOk (Some (to_usize z))) | None => IOk None end) (fun num =>
    let rank := Z.of_N (tt_rank t) in
    if ((axis0 <? - rank) || (axis0 >=? rank))%Z%bool then IErr
    else
      let axis := to_usize (if (axis0 <? 0)%Z then (axis0 + rank)%Z else axis0) in
      if match num with Some k => N.eqb k 0 | None => false end then IErr
      else
        let dim := match tt_shape t with Some l => at_index l axis | None => IOk None end in
        ibind (match num with
               | Some k => ibind dim (fun d =>
                   match d with
                   | Some d => if N.eqb d 0 then IErr else IOk (Some (SStatic (chunk_sizes d k)))
                   | None => IOk None end)
               | None => IOk None end) (fun by_number =>
        ibind (match ninputs n with
               | _ :: i1 :: _ =>
                   match aty i1 with
                   | TensorT t1 =>
                       if negb (N.eqb (tt_rank t1) 1) then IErr
                       else if negb (dtype_beq (tt_dtype t1) I64) then IErr
                       else match value i1 with
                            | None => IOk (Some (SRuntime (aname i1)))
                            | Some v => match cv_i64s v with
                                        | None => IPanic
                                        | Some l => ibind dim (fun d =>
                                            if explicit_ok l (length (noutputs n)) d
                                            then IOk (match l with [] => None | _ => Some (SStatic (map to_usize l)) end)
                                            else IErr)
                                        end
                            end
                   | _ => IErr
                   end
               | _ =>
                   match get_attr n "split" with
                   | Some a => ibind (attr_i64s a) (fun l =>
                       match l with
                       | [] => IOk by_number
                       | _ => ibind dim (fun d => if explicit_ok l (length (noutputs n)) d then IOk (Some (SStatic (map to_usize l))) else IErr)
                       end)
                   | None => IOk by_number
                   end
               end) (fun sizes =>
        ibind (match sizes with
               | Some _ => IOk sizes
               | None => ibind dim (fun d =>
                   match d with
                   | Some d => if Nat.eqb (length (noutputs n)) 0 then IPanic
                               else IOk (Some (SStatic (chunk_sizes d (N.of_nat (length (noutputs n))))))
                   | None => IOk None end)
               end) (fun sizes =>
        IOk (mkSplit axis sizes (match sizes with
                                 | Some _ => None
                                 | None => Some (match num with Some k => k | None => N.of_nat (length (noutputs n)) end) end))))))))).

  Fixpoint set_nth {A} (l : list A) (i : nat) (x : A) : list A :=
    match l, i with
    | [], _ => []
    | _ :: r, O => x :: r
    | y :: r, S k => y :: set_nth r k x
    end.

  Definition opt_list {A} (o : option (list A)) : list A := match o with Some l => l | None => [] end.

  (** Lines 85-160: the types of the outputs. *)
  Definition infer_split (n : rnode) : ires (list argty) :=
    ibind (first_input n) (fun i0 =>
    ibind (match aty i0 with
           | TensorT t => IOk t
           | ShapeT r => IOk (mkTT I64 1 (Some [Some r]))
           | _ => IErr end) (fun t =>
    ibind (match ninputs n with
           | _ :: i1 :: _ => IOk (match value i1 with
                                  | Some v => option_map (map to_usize) (cv_i64s v)
                                  | None => None end)
           | _ => match get_attr n "split" with
                  | Some a => ibind (attr_i64s a) (fun l => IOk (Some (map to_usize l)))
                  | None => IOk None end
           end) (fun sizes =>
    let plain := fun _ : arg => IOk (TensorT (mkTT (tt_dtype t) (tt_rank t) None)) in
    match sizes, tt_shape t with
    | Some l, Some s =>
        ibind (attr_i64_or n "axis" 0) (fun a =>
        let axis := if (a <? 0)%Z then to_usize (a + Z.of_N (tt_rank t)) else to_usize a in
        fold_right (fun io acc => ibind acc (fun r =>
            match nth_error l (fst io) with
            | Some d => if N.ltb axis (N.of_nat (length s))
                        then IOk (TensorT (mkTT (tt_dtype t) (tt_rank t) (Some (set_nth s (N.to_nat axis) (Some d)))) :: r)
                        else IPanic
            | None => IOk (TensorT (mkTT (tt_dtype t) (tt_rank t) None) :: r)
            end)) (IOk []) (enumerate (noutputs n)))
    | _, _ => IOk (map (fun _ => TensorT (mkTT (tt_dtype t) (tt_rank t) None)) (noutputs n))
    end))).

  (** Lines 162-165. *)
  Definition split_is_noop (n : rnode) : bool := Nat.eqb (length (noutputs n)) 1.

  (** ** Concat: crates/onnx-ir/src/node/concat.rs *)

  (** Lines 291-326, [extract_config]. *)
  Definition concat_axis (n : rnode) : ires N :=
    match get_attr n "axis" with
    | None => IErr
    | Some a =>
        ibind (attr_i64 a) (fun axis =>
        ibind (first_input n) (fun i0 =>
        let rank := match aty i0 with TensorT t => Z.of_N (tt_rank t) | ShapeT _ => 1%Z | _ => 0%Z end in
        IOk (to_usize (if (axis <? 0)%Z then (axis + rank)%Z else axis))))
    end.

  Definition is_scalar (ty : argty) : bool := match ty with ScalarTensor _ | ScalarNative _ => true | _ => false end.
  Definition is_shape (ty : argty) : bool := match ty with ShapeT _ => true | _ => false end.
  Definition is_rank1 (ty : argty) : bool := match ty with TensorT t => N.eqb (tt_rank t) 1 | _ => false end.

  Definition first_of (l : list N) : ires N := match l with d :: _ => IOk d | [] => IPanic end.
  (** Lines 117-121: the static length first, then the constant, else 1. *)
  Definition rank1_len (a : arg) (t : tensor_type) : ires N :=
    match static_shape_known t with
    | Some s => first_of s
    | None => match value a with Some v => first_of (cv_shape v) | None => IOk 1%N end
    end.
  (** Lines 223-228: the constant first. *)
  Definition rank1_len' (a : arg) (t : tensor_type) : ires N :=
    match value a with
    | Some v => first_of (cv_shape v)
    | None => match static_shape_known t with Some s => first_of s | None => IOk 1%N end
    end.

  (** Lines 110-134. *)
  Definition scalar_concat_len (a : arg) : ires N :=
    match aty a with
    | ScalarNative _ | ScalarTensor _ => IOk 1%N
    | TensorT t => if N.eqb (tt_rank t) 1 then rank1_len a t else IErr
    | ShapeT r => IOk r
    end.
  (** Lines 216-238. *)
  Definition shape_concat_len (a : arg) : ires N :=
    match aty a with
    | ShapeT r => IOk r
    | TensorT t => if N.eqb (tt_rank t) 1 then rank1_len' a t else IErr
    | _ => IErr
    end.
  Fixpoint total_len (f : arg -> ires N) (l : list arg) : ires N :=
    match l with
    | [] => IOk 0%N
    | a :: r => ibind (f a) (fun d => ibind (total_len f r) (fun s => IOk (d + s)%N))
    end.

  (** The element type of an input that has one of its own (lines 146-150, 154-158). *)
  Definition own_dtype (ty : argty) : option dtype :=
    match ty with ScalarNative d | ScalarTensor d => Some d | TensorT t => Some (tt_dtype t) | ShapeT _ => None end.
  Fixpoint first_dtype (l : list arg) : option dtype :=
    match l with [] => None | a :: r => match own_dtype (aty a) with Some d => Some d | None => first_dtype r end end.

  (** Lines 80-284. *)
  Definition infer_concat (n : rnode) : ires argty :=
    ibind (iexpect (concat_axis n)) (fun _ =>
    let ins := ninputs n in
    let has_shape := existsb (fun a => is_shape (aty a)) ins in
    let has_rank1 := existsb (fun a => is_rank1 (aty a)) ins in
    if existsb (fun a => is_scalar (aty a)) ins then
      ibind (total_len scalar_concat_len ins) (fun total =>
      if has_shape then IOk (ShapeT total)
      else
        let d0 := match first_dtype ins with Some d => d | None => I64 end in
        if forallb (fun a => match own_dtype (aty a) with Some d => dtype_beq d d0 | None => true end) ins
        then IOk (TensorT (mkTT d0 1 (Some [Some total])))
        else IErr)
    else
      ibind (first_input n) (fun i0 =>
      ibind (if (negb has_shape && negb has_rank1)%bool then
               match aty i0 with
               | TensorT t0 =>
                   if forallb (fun a => match aty a with TensorT t => dtype_beq (tt_dtype t) (tt_dtype t0) | _ => false end) (tl ins)
                   then IOk tt else IErr
               | _ => IErr end
             else IOk tt) (fun _ =>
      if (has_shape && has_rank1)%bool then
        ibind (total_len shape_concat_len ins) (fun total => IOk (ShapeT total))
      else
        match aty i0 with
        | TensorT t => IOk (TensorT (mkTT (tt_dtype t) (tt_rank t) None))
        | ShapeT _ => ibind (total_len (fun a => match aty a with ShapeT r => IOk r | _ => IErr end) ins)
                            (fun total => IOk (ShapeT total))
        | _ => IErr
        end))).

  (** Lines 286-289. *)
  Definition concat_is_noop (n : rnode) : bool := Nat.eqb (length (ninputs n)) 1.

  (** ** Slice: crates/onnx-ir/src/node/slice.rs *)

  (** i64 arithmetic wraps in a release build. *)
  Definition i64 (z : Z) : Z := ((z + 9223372036854775808) mod 18446744073709551616 - 9223372036854775808)%Z.

  (** Lines 71-104, [calculate_shape_slice_output_len]; [z / 0] is a panic,
      excluded by the check on lines 361-367. *)
  Definition shape_slice_len (start stop step : Z) (shape_rank : N) : N :=
    let shape_len := Z.of_N shape_rank in
    let norm_start := if (start <? 0)%Z then Z.max (shape_len + start) 0 else Z.min start shape_len in
    let norm_end := if ((stop =? 9223372036854775807) || (stop >=? shape_len))%Z%bool then shape_len
                    else if (stop <? 0)%Z then Z.max (shape_len + stop) 0 else Z.min stop shape_len in
    let range_len := Z.max (norm_end - norm_start) 0 in
    let a := i64 (Z.abs step) in
    to_usize (if (a =? 1)%Z then range_len else Z.quot (i64 (i64 (range_len + a) - 1)) a).

  Inductive slice_input := LStatic (l : list Z) | LRuntime (name : string).
  Record slice_conf := mkSlice { sl_starts : slice_input; sl_ends : slice_input;
                                 sl_axes : option slice_input; sl_steps : option slice_input }.

  (** Lines 61-67. *)
  Definition normalize_axes (i0 : arg) (axes : option slice_input) : option slice_input :=
    match axes, aty i0 with
    | Some (LStatic l), TensorT t => Some (LStatic (map (fun a => if (a <? 0)%Z then (a + Z.of_N (tt_rank t))%Z else a) l))
    | _, _ => axes
    end.

  (** Lines 273-323, [get_slice_input]. *)
  Definition get_slice_input (n : rnode) (i : nat) : ires (option slice_input) :=
    match nth_error (ninputs n) i with
    | None => IOk None
    | Some a => match value a with
                | None => IOk (Some (LRuntime (aname a)))
                | Some v => match cv_ints v with Some l => IOk (Some (LStatic l)) | None => IErr end
                end
    end.

  Definition default_axes (k : nat) : list Z := map Z.of_nat (seq 0 k).
  (** Lines 225-390. *)
  Definition slice_config (n : rnode) : ires slice_conf :=
    match ninputs n with
    | [] | [_] =>
        match get_attr n "starts" with
        | None => IErr
        | Some a => ibind (attr_i64s a) (fun starts =>
            match get_attr n "ends" with
            | None => IErr
            | Some b => ibind (attr_i64s b) (fun ends =>
                ibind (match get_attr n "axes" with
                       | Some c => attr_i64s c | None => IOk (default_axes (length starts)) end) (fun axes =>
                ibind (first_input n) (fun i0 =>
                IOk (mkSlice (LStatic starts) (LStatic ends) (normalize_axes i0 (Some (LStatic axes)))
                             (Some (LStatic (repeat 1%Z (length starts))))))))
            end)
        end
    | i0 :: _ :: _ =>
        ibind (get_slice_input n 1) (fun starts => match starts with None => IErr | Some starts =>
        ibind (get_slice_input n 2) (fun ends => match ends with None => IErr | Some ends =>
        ibind (get_slice_input n 3) (fun axes =>
        ibind (get_slice_input n 4) (fun steps =>
        let axes := match starts, axes with
                    | LStatic (x :: r), None => Some (LStatic (default_axes (S (length r)))) | _, _ => axes end in
        let steps := match starts, steps with
                     | LStatic (x :: r), None => Some (LStatic (repeat 1%Z (S (length r)))) | _, _ => steps end in
        if match steps with Some (LStatic l) => mem_z 0 l | _ => false end then IErr
        else IOk (mkSlice starts ends (normalize_axes i0 axes) steps))) end) end)
    end.

  (** Lines 163-223. *)
  Definition infer_slice (n : rnode) : ires argty :=
    ibind (slice_config n) (fun c =>
    ibind (first_input n) (fun i0 =>
      match aty i0 with
      | TensorT t => IOk (TensorT t)
      | ShapeT r =>
          match sl_starts c, sl_ends c with
          | LStatic [s], LStatic [e] =>
              let step := match sl_steps c with Some (LStatic (x :: _)) => x | _ => 1%Z end in
              IOk (ShapeT (shape_slice_len s e step r))
          | _, _ => IErr
          end
      | _ => IErr
      end)).

  (** ** Tile and Pad: crates/onnx-ir/src/node/tile.rs:86-105 and
      crates/onnx-ir/src/node/pad.rs:158-186: the output gets the input's type. *)
  Definition infer_same (n : rnode) : ires argty := ibind (first_input n) (fun i0 => IOk (aty i0)).

  (** crates/onnx-ir/src/node/pad.rs:110-131. *)
  Definition pad_is_noop (n : rnode) : ires bool :=
    match (match get_attr n "pads" with Some a => Some a | None => get_attr n "paddings" end) with
    | Some a => ibind (attr_i64s a) (fun l => IOk (forallb (Z.eqb 0) l))
    | None =>
        IOk match nth_error (ninputs n) 1 with
            | Some i1 => match asrc i1 with
                         | VOptional => false
                         | _ => match value i1 with
                                | Some v => match cv_i64s v with Some l => forallb (Z.eqb 0) l | None => false end
                                | None => false
                                end
                         end
            | None => false
            end
    end.

  (** ** Expand: crates/onnx-ir/src/node/expand.rs:62-162 and 175-192. *)
  Definition infer_expand (n : rnode) : ires argty :=
    match ninputs n with
    | i0 :: i1 :: _ =>
        if match aty i1 with
           | TensorT t => negb (N.eqb (tt_rank t) 1) || negb (dtype_beq (tt_dtype t) I64)
           | ShapeT _ => false
           | _ => true end then IErr
        else
          ibind (match value i1 with
                 | Some v => match cv_ints v with Some l => IOk (Some l) | None => IPanic end
                 | None => IOk None end) (fun req =>
          match (match aty i0 with TensorT t => Some (tt_dtype t) | ScalarTensor d | ScalarNative d => Some d | ShapeT _ => None end) with
          | None => IErr
          | Some d =>
              match req with
              | Some l => IOk (TensorT (mkTT d (N.of_nat (length l)) (Some (map (fun z => Some (to_usize z)) l))))
              | None =>
                  ibind (match aty i1 with
                         | ShapeT r => IOk r
                         | TensorT t =>
                             match tt_shape t with
                             | Some (Some r :: _) => IOk r
                             | _ => ibind (first_output n) (fun o0 =>
                                      match aty o0 with
                                      | TensorT o => if N.ltb 0 (tt_rank o) then IOk (tt_rank o) else IErr
                                      | _ => IErr end)
                             end
                         | _ => IErr end) (fun r => IOk (TensorT (mkTT d r None)))
              end
          end)
    | _ => IPanic
    end.

  (** Lines 164-173. *)
  Definition dims_beq (a b : list (option N)) : bool :=
    Nat.eqb (length a) (length b) &&
    forallb (fun p => match p with (Some x, Some y) => N.eqb x y | (None, None) => true | _ => false end) (combine a b).
  Definition expand_is_noop (n : rnode) : ires bool :=
    ibind (first_input n) (fun i0 => ibind (first_output n) (fun o0 =>
      IOk match aty i0, aty o0 with
          | TensorT a, TensorT b => match tt_shape a, tt_shape b with
                                    | Some x, Some y => dims_beq x y
                                    | _, _ => false end
          | _, _ => false
          end)).
End WithValues.
