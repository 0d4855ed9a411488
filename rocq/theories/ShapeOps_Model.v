(** Type inference of Reshape, Transpose, Squeeze, Unsqueeze and Flatten. *)
From Verif Require Export IR_Model.

(** The outcome of a processor: a type, an error, or a panic ([expect],
    index out of range, [into_i64s] on another attribute kind). *)
Inductive ires (A : Type) := IOk (a : A) | IErr | IPanic.
Arguments IOk {A}. Arguments IErr {A}. Arguments IPanic {A}.
Definition ibind {A B} (r : ires A) (f : A -> ires B) : ires B :=
  match r with IOk a => f a | IErr => IErr | IPanic => IPanic end.
(** [.expect(..)] on a result. *)
Definition iexpect {A} (r : ires A) : ires A := match r with IErr => IPanic | r => r end.

(** crates/onnx-ir/src/ir/argument.rs:351-402, [Argument::value]: the embedded
    constant of an argument, as its shape, element type and the result of [to_i64_vec]
    (crates/onnx-ir/src/ir/tensor_data_ext.rs:90-99; [None]: not an integer
    tensor).  The store lookup is a parameter [value : arg -> option cval]. *)
Record cval := mkC { cv_shape : list N; cv_dtype : dtype; cv_ints : option (list Z) }.
(** [to_vec::<i64>()]: only of a 64-bit integer tensor. *)
Definition cv_i64s (v : cval) : option (list Z) := if dtype_beq (cv_dtype v) I64 then cv_ints v else None.

(** [x as usize] of an i64, and usize multiplication (release build: it wraps;
    a debug build panics instead). *)
Definition w64 : N := 18446744073709551616%N.
Definition to_usize (z : Z) : N := Z.to_N (z mod 18446744073709551616)%Z.
Definition wmul (a b : N) : N := ((a * b) mod w64)%N.

(** crates/onnx-ir/src/ir/attribute.rs:150-156 and 183-189. *)
Definition attr_i64s (a : attr) : ires (list Z) := match a with AInts l => IOk l | _ => IPanic end.
Definition attr_i64 (a : attr) : ires Z := match a with AInt z => IOk z | _ => IPanic end.
Definition attr_i64_or (n : rnode) (k : string) (d : Z) : ires Z :=
  match get_attr n k with Some a => attr_i64 a | None => IOk d end.

(** [try_fold(1usize, |acc, dim| dim.map(|d| acc * d))]. *)
Definition known_product (l : list (option N)) : option N :=
  fold_left (fun acc d => match acc, d with Some a, Some x => Some (wmul a x) | _, _ => None end) l (Some 1%N).

Definition first_input (n : rnode) : ires arg := match ninputs n with a :: _ => IOk a | [] => IPanic end.
Definition first_output (n : rnode) : ires arg := match noutputs n with a :: _ => IOk a | [] => IPanic end.

(** ** Reshape: crates/onnx-ir/src/node/reshape.rs *)
Section WithValues.
  Variable value : arg -> option cval.

  (** Lines 225-239, [get_static_shape]. *)
  Definition get_static_shape (n : rnode) : ires (option (list Z)) :=
    match ninputs n with
    | _ :: i1 :: _ =>
        match value i1 with
        | Some v => IOk (cv_ints v)
        | None => match get_attr n "shape" with
                  | Some a => ibind (attr_i64s a) (fun l => IOk (Some l))
                  | None => IOk None end
        end
    | _ => match get_attr n "shape" with
           | Some a => ibind (attr_i64s a) (fun l => IOk (Some l))
           | None => IOk None end
    end.

  (** Lines 198-212. *)
  Definition rank_from_shape_input (n : rnode) : option N :=
    match ninputs n with
    | [_; i1] =>
        match aty i1 with
        | ShapeT r => Some r
        | TensorT t => match tt_shape t with Some (d :: _) => d | _ => None end
        | _ => None
        end
    | _ => None
    end.

  (** Lines 215-222. *)
  Definition rank_from_output (ty : argty) : option N :=
    match ty with TensorT t => Some (tt_rank t) | ScalarNative _ => Some 0%N | _ => None end.

  (** Lines 170-195, [infer_reshape_output_rank]. *)
  Definition reshape_rank (n : rnode) (static : option (list Z)) (out_ty : argty) : ires N :=
    match static with
    | Some l => IOk (N.of_nat (length l))
    | None =>
        match rank_from_shape_input n with
        | Some r => IOk r
        | None => match rank_from_output out_ty with Some r => IOk r | None => IPanic end
        end
    end.

  (** Lines 326-343: the second input has an acceptable type. *)
  Definition reshape_input_ok (n : rnode) : bool :=
    match ninputs n with
    | _ :: i1 :: _ =>
        match aty i1 with
        | TensorT t => N.eqb (tt_rank t) 1 && dtype_beq (tt_dtype t) I64
        | ShapeT _ => true
        | _ => false
        end
    | _ => true
    end.

  (** Lines 345-375. *)
  Definition count_z (z : Z) (l : list Z) : nat := length (filter (Z.eqb z) l).
  Definition mem_z (z : Z) (l : list Z) : bool := existsb (Z.eqb z) l.
  Definition reshape_values_ok (l : list Z) (allowzero : Z) : bool :=
    Nat.leb (count_z (-1) l) 1 && negb (Z.eqb allowzero 1 && (mem_z 0 l && mem_z (-1) l)).

  (** Lines 397-416: one entry of the requested shape. *)
  Definition reshape_dim (input_static : option (list (option N))) (allowzero : Z) (iv : nat * Z) : option N :=
    let (i, v) := iv in
    if (0 <? v)%Z then Some (to_usize v)
    else if (v =? 0)%Z then
      if (allowzero =? 1)%Z then Some 0%N
      else match input_static with
           | Some s => match nth_error s i with Some d => d | None => None end
           | None => None end
    else None.

  Definition is_known (d : option N) : bool := match d with Some _ => true | None => false end.

  (** Lines 391-440. *)
  Definition reshape_static (input_static : option (list (option N))) (allowzero : Z) (l : list Z)
    : list (option N) :=
    let dims := map (reshape_dim input_static allowzero) (enumerate l) in
    if mem_z (-1) l then
      match input_static with
      | Some s =>
          match known_product s with
          | Some total =>
              match known_product (filter is_known dims) with
              | Some product =>
                  if (N.ltb 0 product && N.eqb (total mod product) 0)%bool
                  then map (fun vd => if Z.eqb (fst vd) (-1) then Some (total / product)%N else snd vd) (combine l dims)
                  else dims
              | None => dims
              end
          | None => dims
          end
      | None => dims
      end
    else dims.

  (** Lines 140-168, [calculate_shape_output_size]. *)
  Definition shape_output_size (input_size : N) (static : option (list Z)) (dims : option (list (option N))) : N :=
    match static with
    | Some [v] => if (v =? -1)%Z then input_size else if (0 <? v)%Z then to_usize v else 1%N
    | _ => match dims with Some [Some d] => d | _ => input_size end
    end.

  (** Lines 76-97. *)
  Definition input_dtype (ty : argty) : dtype :=
    match ty with TensorT t => tt_dtype t | ShapeT _ => I64 | ScalarTensor d | ScalarNative d => d end.

  (** Lines 100-137, [determine_output_type]. *)
  Definition reshape_output_type (in_ty : argty) (rank : N) (static : option (list Z)) (dims : option (list (option N))) : argty :=
    if N.eqb rank 0 then ScalarNative (input_dtype in_ty)
    else
      match in_ty, N.eqb rank 1, static with
      | ScalarNative d, true, Some [v] =>
          if ((v =? -1)%Z || (v =? 1)%Z)%bool then ScalarNative d else TensorT (mkTT d rank dims)
      | ShapeT size, true, _ => ShapeT (shape_output_size size static dims)
      | _, _, _ => TensorT (mkTT (input_dtype in_ty) rank dims)
      end.

  (** Lines 301-469. *)
  Definition infer_reshape (n : rnode) : ires argty :=
    if negb (reshape_input_ok n) then IErr
    else
      ibind (get_static_shape n) (fun static =>
      ibind (attr_i64_or n "allowzero" 0) (fun allowzero =>
      if match static with Some l => negb (reshape_values_ok l allowzero) | None => false end then IErr
      else
        ibind (first_input n) (fun i0 =>
        ibind (first_output n) (fun o0 =>
        ibind (reshape_rank n static (aty o0)) (fun rank =>
        let dims := match static with
                    | Some l => Some (reshape_static (match aty i0 with TensorT t => tt_shape t | _ => None end) allowzero l)
                    | None => match aty o0 with TensorT t => tt_shape t | _ => None end
                    end in
        IOk (reshape_output_type (aty i0) rank static dims)))))).

  (** ** Transpose: crates/onnx-ir/src/node/transpose.rs:131-155, [extract_config]. *)
  Definition transpose_perm (n : rnode) : ires (list Z) :=
    ibind (first_input n) (fun i0 =>
      match aty i0 with
      | TensorT t =>
          match get_attr n "perm" with
          | Some a => attr_i64s a
          | None => IOk (rev (map Z.of_nat (seq 0 (N.to_nat (tt_rank t)))))
          end
      | _ => IErr
      end).

  (** [shape[i as usize]] for all entries; [None]: out of range. *)
  Fixpoint pick (s : list (option N)) (perm : list Z) : option (list (option N)) :=
    match perm with
    | [] => Some []
    | p :: r =>
        match (if N.ltb (to_usize p) (N.of_nat (length s)) then nth_error s (N.to_nat (to_usize p)) else None), pick s r with
        | Some d, Some ds => Some (d :: ds)
        | _, _ => None
        end
    end.

  (** Lines 57-112. *)
  Definition infer_transpose (n : rnode) : ires argty :=
    ibind (iexpect (transpose_perm n)) (fun perm =>
    ibind (first_input n) (fun i0 =>
      match aty i0 with
      | TensorT t =>
          if negb (N.eqb (N.of_nat (length perm)) (tt_rank t)) then IErr
          else match tt_shape t with
               | None => IOk (TensorT (mkTT (tt_dtype t) (tt_rank t) None))
               | Some s => match pick s perm with
                           | Some s' => IOk (TensorT (mkTT (tt_dtype t) (tt_rank t) (Some s')))
                           | None => IPanic
                           end
               end
      | _ => IErr
      end)).

  (** Lines 114-129. *)
  Definition transpose_is_noop (n : rnode) : ires bool :=
    ibind (first_input n) (fun i0 =>
      match aty i0 with
      | TensorT t =>
          match get_attr n "perm" with
          | Some a => ibind (attr_i64s a) (fun perm =>
                        IOk (forallb (fun ip => Z.eqb (snd ip) (Z.of_nat (fst ip))) (enumerate perm)))
          | None => IOk (N.leb (tt_rank t) 1)
          end
      | _ => IOk false
      end).

  (** ** Flatten: crates/onnx-ir/src/node/flatten.rs:125-164, [extract_config];
      the sum wraps to usize. *)
  Definition flatten_axis (n : rnode) : ires Z :=
    ibind (first_input n) (fun i0 =>
      match aty i0 with
      | TensorT t =>
          if forallb (fun kv => String.eqb (fst kv) "axis") (nattrs n) then
            ibind (attr_i64_or n "axis" 1) (fun axis =>
              IOk (if (axis <? 0)%Z then (axis + Z.of_N (tt_rank t))%Z else axis))
          else IErr
      | _ => IErr
      end).

  (** Lines 53-105. *)
  Definition infer_flatten (n : rnode) : ires argty :=
    ibind (first_input n) (fun i0 =>
      match aty i0 with
      | TensorT t =>
          if N.ltb (tt_rank t) 2 then IErr
          else
            ibind (iexpect (flatten_axis n)) (fun axis =>
              match tt_shape t with
              | None => IOk (TensorT (mkTT (tt_dtype t) 2 (Some [None; None])))
              | Some s =>
                  if N.leb (to_usize axis) (N.of_nat (length s)) then
                    let a := N.to_nat (to_usize axis) in
                    IOk (TensorT (mkTT (tt_dtype t) 2 (Some [known_product (firstn a s); known_product (skipn a s)])))
                  else IPanic
              end)
      | _ => IErr
      end).

  (** Lines 107-123. *)
  Definition flatten_is_noop (n : rnode) : ires bool :=
    ibind (first_input n) (fun i0 =>
      match aty i0 with
      | TensorT t =>
          if negb (N.eqb (tt_rank t) 2) then IOk false
          else ibind (attr_i64_or n "axis" 1) (fun axis => IOk ((axis =? 1)%Z || (axis =? - (Z.of_N (tt_rank t) - 1))%Z)%bool)
      | _ => IOk false
      end).

  (** ** Squeeze: crates/onnx-ir/src/node/squeeze.rs:217-262, [extract_config]:
      [None]: no static axes (absent, or only known at run time: lines 94-98). *)
  Definition squeeze_axes (opset : N) (n : rnode) : ires (option (list Z)) :=
    match get_attr n "axes" with
    | Some a =>
        if N.leb 13 opset then IErr
        else ibind (attr_i64s a) (fun l => IOk (match l with [] => None | _ => Some l end))
    | None =>
        match ninputs n with
        | _ :: i1 :: _ => match value i1 with
                          | None => IOk None
                          | Some v => IOk (cv_ints v)
                          end
        | _ => IOk None
        end
    end.

  Definition norm_axis (rank : N) (a : Z) : N := if (a <? 0)%Z then to_usize (a + Z.of_N rank) else to_usize a.
  Definition mem_n (x : N) (l : list N) : bool := existsb (N.eqb x) l.
  Definition not_one (d : option N) : bool := match d with Some x => negb (N.eqb x 1) | None => true end.
  (** Lines 168-175. *)
  Definition drop_positions (remove : list N) (l : list (option N)) : list (option N) :=
    map snd (filter (fun ip => negb (mem_n (N.of_nat (fst ip)) remove)) (enumerate l)).

  Definition squeeze_result (d : dtype) (rank : N) (dims : list (option N)) : argty :=
    if N.eqb rank 0 then ScalarTensor d else TensorT (mkTT d rank (Some dims)).

  (** Lines 81-215. *)
  Definition infer_squeeze (opset : N) (n : rnode) : ires argty :=
    ibind (iexpect (squeeze_axes opset n)) (fun axes =>
    ibind (first_input n) (fun i0 =>
      match aty i0 with
      | TensorT t =>
          match axes with
          | None =>
              match tt_shape t with
              | Some s => let r := filter not_one s in
                          IOk (squeeze_result (tt_dtype t) (N.of_nat (length r)) r)
              | None => IErr
              end
          | Some l =>
              if N.ltb (tt_rank t) (N.of_nat (length l)) then IErr
              else
                let s := match tt_shape t with Some s => s | None => repeat None (N.to_nat (tt_rank t)) end in
                IOk (squeeze_result (tt_dtype t) (tt_rank t - N.of_nat (length l))
                                    (drop_positions (map (norm_axis (tt_rank t)) l) s))
          end
      | ShapeT r =>
          if match axes with
             | Some l => match l with [] => false | [z] => negb (z =? 0)%Z | _ => true end
             | None => false end
          then IErr
          else IOk (if N.eqb r 1 then ScalarNative I64 else ShapeT r)
      | ScalarTensor d | ScalarNative d => IOk (ScalarNative d)
      end)).

  (** ** Unsqueeze: crates/onnx-ir/src/node/unsqueeze.rs:101-195, [extract_config]. *)
  Definition is_int_dtype (d : dtype) : bool :=
    match d with I64 | I32 | I16 | I8 => true | _ => false end.
  Definition unsqueeze_axes (opset : N) (n : rnode) : ires (option (list Z)) :=
    match get_attr n "axes" with
    | Some a => if N.leb 13 opset then IErr else ibind (attr_i64s a) (fun l => IOk (Some l))
    | None =>
        match ninputs n with
        | _ :: i1 :: _ =>
            match aty i1 with
            | TensorT t =>
                if negb (N.eqb (tt_rank t) 0) && negb (N.eqb (tt_rank t) 1) then IErr
                else match value i1 with
                     | Some v => if negb (Nat.eqb (length (cv_shape v)) 1) then IErr
                                 else match cv_ints v with Some l => IOk (Some l) | None => IErr end
                     | None => IOk None
                     end
            | ScalarTensor d | ScalarNative d =>
                if negb (is_int_dtype d) then IErr
                else match value i1 with
                     | Some v => match cv_ints v with Some l => IOk (Some l) | None => IErr end
                     | None => IOk None
                     end
            | ShapeT _ => IErr
            end
        | _ => IErr
        end
    end.

  (** Lines 310-318: [None] when [input_dims[input_idx]] is out of range. *)
  Fixpoint insert_ones (normalized : list N) (out_idx : N) (todo : nat) (dims : list (option N)) : option (list (option N)) :=
    match todo with
    | O => Some []
    | S k =>
        if mem_n out_idx normalized then option_map (cons (Some 1%N)) (insert_ones normalized (out_idx + 1) k dims)
        else match dims with
             | d :: r => option_map (cons d) (insert_ones normalized (out_idx + 1) k r)
             | [] => None
             end
    end.

  (** Lines 211-333, with lines 81-99; sorting the axes does not matter for
      membership. *)
  Definition infer_unsqueeze (opset : N) (n : rnode) : ires argty :=
    ibind (iexpect (unsqueeze_axes opset n)) (fun axes =>
    ibind (first_input n) (fun i0 =>
    ibind (first_output n) (fun o0 =>
    ibind (match aty i0 with
           | TensorT t => IOk (tt_rank t)
           | ScalarTensor _ | ScalarNative _ => IOk 0%N
           | ShapeT _ => IErr end) (fun input_rank =>
    ibind (match axes with
           | Some l => IOk (input_rank + N.of_nat (length l))%N
           | None => match ninputs n with
                     | [_; i1] => match aty i1 with
                                  | TensorT t => match tt_shape t with
                                                 | Some (Some d :: _) => IOk (input_rank + d)%N
                                                 | _ => IErr end
                                  | _ => IErr end
                     | _ => IErr end
           end) (fun output_rank =>
    let general := fun d =>
      match axes with
      | Some l =>
          let dims := match aty i0 with
                      | TensorT t => match tt_shape t with Some s => s | None => repeat None (N.to_nat input_rank) end
                      | _ => repeat None (N.to_nat input_rank) end in
          match insert_ones (map (norm_axis output_rank) l) 0 (N.to_nat output_rank) dims with
          | Some s => IOk (TensorT (mkTT d output_rank (Some s)))
          | None => IPanic
          end
      | None => IOk (TensorT (mkTT d output_rank (Some (repeat None (N.to_nat output_rank)))))
      end in
    let elem := match aty o0 with
                | TensorT _ => input_dtype (aty i0)
                | ScalarTensor d | ScalarNative d => d
                | ShapeT _ => I64 end in
    match aty i0 with
    | ScalarTensor d | ScalarNative d =>
        if N.eqb output_rank 1 then
          IOk (if is_int_dtype d then ShapeT 1 else TensorT (mkTT d output_rank (Some [Some 1%N])))
        else general elem
    | _ => general elem
    end))))).
End WithValues.
