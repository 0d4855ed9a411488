(** Constant folding and folding of shape computations. *)
From Flocq Require Import BinarySingleNaN.
From Verif Require Export AxisOps_Model Float_Model.

(** A constant tensor ([burn_tensor::TensorData]): its elements by type.  Types
    folding never looks into keep their raw elements. *)
Inductive fvals := XI64 (l : list Z) | XI32 (l : list Z) | XF32 (l : list f32) | XF64 (l : list f64) | XOther (d : dtype) (raw : list N).
Record fdata := mkFD { fd_shape : list N; fd_vals : fvals }.
Definition fd_dtype (x : fdata) : dtype :=
  match fd_vals x with XI64 _ => I64 | XI32 _ => I32 | XF32 _ => F32 | XF64 _ => F64 | XOther d _ => d end.
Definition vals_len (v : fvals) : nat :=
  match v with XI64 l | XI32 l => length l | XF32 l => length l | XF64 l => length l | XOther _ l => length l end.

(** crates/onnx-ir/src/ir/tensor_data_ext.rs:90-99 and 117-134.  Types other than
    the four are not converted here (the code converts some of them; ONNX
    requires operands of equal type). *)
Definition to_i64_vec (x : fdata) : option (list Z) := match fd_vals x with XI64 l | XI32 l => Some l | _ => None end.
Definition to_f64_vec (x : fdata) : option (list f64) :=
  match fd_vals x with
  | XF32 l => Some (map as_f64 l) | XF64 l => Some l
  | XI64 l | XI32 l => Some (map f64_of_Z l) | _ => None end.

(** Evaluation leaves the node alone, panics, or gives a value. *)
Inductive ev (A : Type) := Skip | Panic | Done (a : A).
Arguments Skip {A}. Arguments Panic {A}. Arguments Done {A}.
Definition ebind {A B} (x : ev A) (f : A -> ev B) : ev B := match x with Done a => f a | Skip => Skip | Panic => Panic end.
Definition emap {A B} (f : A -> B) (x : ev A) : ev B := ebind x (fun a => Done (f a)).
(** [?] on an option. *)
Definition try {A} (x : option A) : ev A := match x with Some a => Done a | None => Skip end.
Fixpoint mapev {A B} (f : A -> ev B) (l : list A) : ev (list B) :=
  match l with
  | [] => Done []
  | x :: r => ebind (f x) (fun y => ebind (mapev f r) (fun ys => Done (y :: ys)))
  end.

(** crates/onnx-ir/src/simplify/constant_fold.rs:115-120 *)
Inductive binop := BAdd | BSub | BMul | BDiv.

(** 64-bit range, and the checked operations of lines 196-206; [i64::MIN / -1] panics. *)
Definition min64 : Z := (-9223372036854775808)%Z.
Definition max64 : Z := 9223372036854775807%Z.
Definition checked (z : Z) : ev Z := if ((min64 <=? z) && (z <=? max64))%Z%bool then Done z else Skip.
Definition op_i64 (op : binop) (a b : Z) : ev Z :=
  match op with
  | BAdd => checked (a + b)
  | BSub => checked (a - b)
  | BMul => checked (a * b)
  | BDiv => if (b =? 0)%Z then Skip else if ((a =? min64) && (b =? -1))%Z%bool then Panic else Done (Z.quot a b)
  end.
(** Lines 221-231. *)
Definition op_f64 (op : binop) (a b : f64) : ev f64 :=
  match op with
  | BAdd => Done (add64 a b)
  | BSub => Done (sub64 a b)
  | BMul => Done (mul64 a b)
  | BDiv => if is_zero b then Skip else Done (div64 a b)
  end.

(** Lines 182-184: an index out of range panics. *)
Definition broadcast_get {A} (l : list A) (i : nat) : option A := if Nat.eqb (length l) 1 then nth_error l 0 else nth_error l i.
(** Lines 186-210 and 212-235. *)
Definition apply_binary {A B} (f : A -> A -> ev B) (lhs rhs : list A) : ev (list B) :=
  if negb (Nat.eqb (length lhs) (length rhs)) && negb (Nat.eqb (length lhs) 1) && negb (Nat.eqb (length rhs) 1) then Skip
  else mapev (fun i => match broadcast_get lhs i, broadcast_get rhs i with Some a, Some b => f a b | _, _ => Panic end)
             (seq 0 (Nat.max (length lhs) (length rhs))).

Fixpoint prod_shape (s : list N) : N := match s with [] => 1%N | d :: r => (d * prod_shape r)%N end.

(** Lines 170-180. *)
Definition output_shape (ty : argty) : list N :=
  match ty with
  | ScalarTensor _ | ScalarNative _ => []
  | ShapeT r => [r]
  | TensorT t => match tt_shape t with Some l => match all_known l with Some s => s | None => [] end | None => [] end
  end.
(** [TensorData::new] of burn-tensor: panics when the number of elements is not
    the one of the shape. *)
Definition tensor_new (shape : list N) (v : fvals) : ev fdata :=
  if N.eqb (N.of_nat (vals_len v)) (prod_shape shape) then Done (mkFD shape v) else Panic.

(** [v as i32] of an i64. *)
Definition as_i32 (z : Z) : Z := ((z + 2147483648) mod 4294967296 - 2147483648)%Z.
(** [-v] on i64 in a release build. *)
Definition neg_i64 (z : Z) : Z := if (z =? min64)%Z then min64 else (- z)%Z.
(** [v as i64] of a float: toward zero, saturating, NaN is 0. *)
Definition saturate (lo hi z : Z) : Z := Z.max lo (Z.min hi z).
Definition f64_to_int (lo hi : Z) (x : f64) : Z :=
  match x with
  | B754_nan => 0%Z
  | B754_infinity true => lo
  | B754_infinity false => hi
  | _ => saturate lo hi (Btrunc x)
  end.
Definition min32 : Z := (-2147483648)%Z.
Definition max32 : Z := 2147483647%Z.

Section Evaluate.
  Variable value : arg -> option fdata.

  Definition first_out (n : rnode) : ev argty := match noutputs n with o :: _ => Done (aty o) | [] => Panic end.
  Definition input_value (n : rnode) (i : nat) : ev fdata :=
    match nth_error (ninputs n) i with Some a => try (value a) | None => Panic end.

  (** Lines 126-167. *)
  Definition eval_binary (n : rnode) (op : binop) : ev (fdata * argty) :=
    if Nat.ltb (length (ninputs n)) 2 then Skip
    else
      ebind (input_value n 0) (fun x =>
      ebind (input_value n 1) (fun y =>
      ebind (first_out n) (fun ty =>
      ebind (match fd_dtype x with
             | I64 => ebind (try (to_i64_vec x)) (fun l => ebind (try (to_i64_vec y)) (fun r => emap XI64 (apply_binary (op_i64 op) l r)))
             | I32 => ebind (try (to_i64_vec x)) (fun l => ebind (try (to_i64_vec y)) (fun r =>
                        emap (fun v => XI32 (map as_i32 v)) (apply_binary (op_i64 op) l r)))
             | F32 => ebind (try (to_f64_vec x)) (fun l => ebind (try (to_f64_vec y)) (fun r =>
                        emap (fun v => XF32 (map as_f32 v)) (apply_binary (op_f64 op) l r)))
             | F64 => ebind (try (to_f64_vec x)) (fun l => ebind (try (to_f64_vec y)) (fun r => emap XF64 (apply_binary (op_f64 op) l r)))
             | _ => Skip
             end) (fun v =>
      ebind (tensor_new (output_shape ty) v) (fun d => Done (d, ty)))))).

  (** Lines 238-266. *)
  Definition eval_neg (n : rnode) : ev (fdata * argty) :=
    ebind (input_value n 0) (fun x =>
    ebind (first_out n) (fun ty =>
    ebind (match fd_dtype x with
           | I64 => ebind (try (to_i64_vec x)) (fun l => Done (XI64 (map neg_i64 l)))
           | I32 => ebind (try (to_i64_vec x)) (fun l => Done (XI32 (map (fun v => as_i32 (- v)) l)))
           | F32 => ebind (try (to_f64_vec x)) (fun l => Done (XF32 (map (fun v => as_f32 (neg64 v)) l)))
           | F64 => ebind (try (to_f64_vec x)) (fun l => Done (XF64 (map neg64 l)))
           | _ => Skip
           end) (fun v =>
    ebind (tensor_new (output_shape ty) v) (fun d => Done (d, ty))))).

  (** Lines 269-287. *)
  Definition eval_sqrt (n : rnode) : ev (fdata * argty) :=
    ebind (input_value n 0) (fun x =>
    ebind (first_out n) (fun ty =>
    ebind (match fd_dtype x with
           | F32 => ebind (try (to_f64_vec x)) (fun l => Done (XF32 (map (fun v => as_f32 (sqrt64 v)) l)))
           | F64 => ebind (try (to_f64_vec x)) (fun l => Done (XF64 (map sqrt64 l)))
           | _ => Skip
           end) (fun v =>
    ebind (tensor_new (output_shape ty) v) (fun d => Done (d, ty))))).

  (** Lines 290-340. *)
  Definition target_dtype (ty : argty) : dtype :=
    match ty with ScalarTensor d | ScalarNative d => d | TensorT t => tt_dtype t | ShapeT _ => I64 end.
  Definition eval_cast (n : rnode) : ev (fdata * argty) :=
    ebind (input_value n 0) (fun x =>
    ebind (first_out n) (fun ty =>
    if dtype_beq (fd_dtype x) (target_dtype ty) then Done (x, ty)
    else
      ebind (match fd_vals x, target_dtype ty with
             | XI64 l, F32 | XI32 l, F32 => Done (XF32 (map f32_of_Z l))
             | XI64 l, F64 | XI32 l, F64 => Done (XF64 (map f64_of_Z l))
             | XF64 l, F32 => Done (XF32 (map as_f32 l))
             | XF32 l, F64 => Done (XF64 (map as_f64 l))
             | XF32 l, I64 => Done (XI64 (map (fun v => f64_to_int min64 max64 (as_f64 v)) l))
             | XF64 l, I64 => Done (XI64 (map (f64_to_int min64 max64) l))
             | XF32 l, I32 => Done (XI32 (map (fun v => f64_to_int min32 max32 (as_f64 v)) l))
             | XF64 l, I32 => Done (XI32 (map (f64_to_int min32 max32) l))
             | _, _ => Skip
             end) (fun v =>
      ebind (tensor_new (output_shape ty) v) (fun d => Done (d, ty))))).

  (** Lines 343-394. *)
  Fixpoint extend {A} (get : fdata -> option (list A)) (l : list arg) : ev (list A) :=
    match l with
    | [] => Done []
    | a :: r => ebind (try (value a)) (fun x => ebind (try (get x)) (fun v => ebind (extend get r) (fun vs => Done (v ++ vs))))
    end.
  Definition eval_concat (n : rnode) : ev (fdata * argty) :=
    match attr_i64_or n "axis" 0 with
    | IOk axis =>
        if negb (Z.eqb axis 0) then Skip
        else
          ebind (first_out n) (fun ty =>
          ebind (input_value n 0) (fun x =>
          let ins := filter (fun a => negb (is_optional a)) (ninputs n) in
          ebind (match fd_dtype x with
                 | I64 => emap XI64 (extend to_i64_vec ins)
                 | I32 => emap (fun l => XI32 (map as_i32 l)) (extend to_i64_vec ins)
                 | F32 => emap (fun l => XF32 (map as_f32 l)) (extend to_f64_vec ins)
                 | F64 => emap XF64 (extend to_f64_vec ins)
                 | _ => Skip
                 end) (fun v =>
          ebind (tensor_new (output_shape ty) v) (fun d => Done (d, ty)))))
    | _ => Panic
    end.

  (** Lines 398-431. *)
  Definition eval_reshape (n : rnode) : ev (fdata * argty) :=
    ebind (input_value n 0) (fun x =>
    ebind (first_out n) (fun ty =>
    ebind (match ty with
           | TensorT t => match tt_shape t with Some l => try (all_known l) | None => Skip end
           | ScalarTensor _ | ScalarNative _ => Done []
           | ShapeT r => Done [r]
           end) (fun target =>
    if N.eqb (prod_shape (fd_shape x)) (prod_shape target) then Done (mkFD target (fd_vals x), ty) else Skip))).

  (** Lines 100-113. *)
  Definition try_evaluate (n : rnode) : ev (fdata * argty) :=
    let t := ntype n in
    if String.eqb t "Add" then eval_binary n BAdd
    else if String.eqb t "Sub" then eval_binary n BSub
    else if String.eqb t "Mul" then eval_binary n BMul
    else if String.eqb t "Div" then eval_binary n BDiv
    else if String.eqb t "Neg" then eval_neg n
    else if String.eqb t "Sqrt" then eval_sqrt n
    else if String.eqb t "Cast" then eval_cast n
    else if String.eqb t "Concat" then eval_concat n
    else if String.eqb t "Unsqueeze" || String.eqb t "Squeeze" || String.eqb t "Reshape" then eval_reshape n
    else Skip.

  (** Lines 28-36: whether a node is looked at. *)
  Definition all_const (n : rnode) : bool :=
    forallb (fun a => is_optional a || match value a with Some _ => true | None => false end) (ninputs n)
    && negb (forallb is_optional (ninputs n)).
End Evaluate.

(** ** The tensor store: crates/onnx-ir/src/tensor_store.rs:221-309 and
    graph_state.rs:463-467, 515-519.  One store stands for the snapshots of it
    that arguments carry. *)
Record store := mkStore { st_next : N; st_data : list (N * fdata); st_const : smap N }.
Fixpoint find_id (l : list (N * fdata)) (id : N) : option fdata :=
  match l with [] => None | (k, d) :: r => if N.eqb k id then Some d else find_id r id end.
Definition st_get (s : store) (id : N) : option fdata := find_id (st_data s) id.
Definition register_constant (s : store) (name : string) (d : fdata) : store * N :=
  (mkStore (st_next s + 1) ((st_next s, d) :: st_data s) (sput (st_const s) name (st_next s)), st_next s).
(** crates/onnx-ir/src/ir/argument.rs:351-395. *)
Definition st_value (s : store) (a : arg) : option fdata :=
  match asrc a with
  | VStatic id => st_get s id
  | VConstant => match sget (st_const s) (aname a) with Some id => st_get s id | None => None end
  | VDynamic | VOptional => None
  end.

(** crates/onnx-ir/src/simplify/constant_fold.rs:64-96. *)
Definition make_constant_node (name output : string) (ty : argty) (id : N) : rnode :=
  mkNode "Constant" name [mkArg (output ++ "_const") ty (VStatic id)] [mkArg output ty VConstant] [].

(** crates/onnx-ir/src/simplify/mod.rs:124-164. *)
Definition to_constant (names : list string) (a : arg) : arg :=
  match asrc a with
  | VDynamic => if mem_str (aname a) names then mkArg (aname a) (aty a) VConstant else a
  | _ => a
  end.
Definition update_constant_references (names : list string) (nodes : list rnode) : list rnode :=
  map (fun n => mkNode (ntype n) (nname n) (map (to_constant names) (ninputs n)) (noutputs n) (nattrs n)) nodes.

(** crates/onnx-ir/src/simplify/constant_fold.rs:14-61. *)
Fixpoint fold_nodes (s : store) (nodes : list rnode) : ev (store * list rnode * list string) :=
  match nodes with
  | [] => Done (s, [], [])
  | n :: r =>
      let keep := ebind (fold_nodes s r) (fun p => let '(s', r', outs) := p in Done (s', n :: r', outs)) in
      if String.eqb (ntype n) "Constant" then keep
      else if negb (all_const (st_value s) n) then keep
      else
        match try_evaluate (st_value s) n with
        | Skip => keep
        | Panic => Panic
        | Done (d, ty) =>
            match noutputs n with
            | [] => Panic
            | o :: _ =>
                let (s1, id) := register_constant s (aname o) d in
                ebind (fold_nodes s1 r) (fun p =>
                  let '(s', r', outs) := p in Done (s', make_constant_node (nname n) (aname o) ty id :: r', aname o :: outs))
            end
        end
  end.
Definition fold_constants (s : store) (nodes : list rnode) (outputs : list arg) : ev (store * list rnode * list arg) :=
  ebind (fold_nodes s nodes) (fun p =>
    let '(s', nodes', names) := p in
    match names with
    | [] => Done (s', nodes', outputs)
    | _ => Done (s', update_constant_references names nodes', map (to_constant names) outputs)
    end).

(** ** Shape constants: crates/onnx-ir/src/simplify/constant_shape.rs *)

(** crates/onnx-ir/src/ir/tensor_data_ext.rs:73-88; the narrow integer types are left out. *)
Definition scalar_i64 (x : fdata) : ev Z :=
  let head l := match l with z :: _ => Done z | [] => Panic end in
  match fd_vals x with
  | XI64 l | XI32 l => head l
  | XF32 l => head (map (fun v => f64_to_int min64 max64 (as_f64 v)) l)
  | XF64 l => head (map (f64_to_int min64 max64) l)
  | XOther _ _ => Skip
  end.

(** crates/onnx-ir/src/ir/argument.rs:318-323. *)
Definition ty_shape_known (ty : argty) : option (list N) := match ty with TensorT t => static_shape_known t | _ => None end.
Definition int_attr_or (n : rnode) (k : string) (d : Z) : ev Z :=
  match attr_i64_or n k d with IOk z => Done z | _ => Panic end.

(** Lines 22-27 and the lookups in the map: the last node with that output. *)
Fixpoint producer_of (nodes : list rnode) (x : string) : option rnode :=
  match nodes with
  | [] => None
  | n :: r => match producer_of r x with Some m => Some m | None => if mem_str x (map aname (noutputs n)) then Some n else None end
  end.
Definition shape_producer (nodes : list rnode) (x : string) : ev (rnode * list N) :=
  match producer_of nodes x with
  | None => Skip
  | Some m =>
      if negb (String.eqb (ntype m) "Shape") then Skip
      else match ninputs m with
           | [] => Panic
           | i :: _ => match ty_shape_known (aty i) with Some s => Done (m, s) | None => Skip end
           end
  end.

Section ShapeConstants.
  Variable value : arg -> option fdata.
  Variable nodes : list rnode.

  (** Lines 144-200; [len - start] panics when negative (a release build goes on
      and then panics on the index, or keeps the node). *)
  Definition extract_dim (n : rnode) : ev Z :=
    ebind (first_out n) (fun ty =>
    if negb (match ty with ScalarNative _ => true | ShapeT r => N.eqb r 1 | _ => false end) then Skip
    else
      ebind (int_attr_or n "axis" 0) (fun axis =>
      if negb (Z.eqb axis 0) then Skip
      else
        match ninputs n with
        | i0 :: i1 :: _ =>
            ebind (shape_producer nodes (aname i0)) (fun p =>
            let (m, s) := p in
            ebind (int_attr_or m "start" 0) (fun start0 =>
            let rank := Z.of_nat (length s) in
            let start := Z.max (if (start0 <? 0)%Z then (start0 + rank)%Z else start0) 0 in
            ebind (try (value i1)) (fun v =>
            ebind (scalar_i64 v) (fun index0 =>
            let len := (rank - start)%Z in
            if (len <? 0)%Z then Panic
            else
              let index := if (index0 <? 0)%Z then (index0 + len)%Z else index0 in
              if ((index <? 0) || (index >=? len))%Z%bool then Skip
              else Done (Z.of_N (nth (Z.to_nat (start + index)) s 0%N))))))
        | _ => Panic
        end)).

  (** Lines 203-233: [end as usize] of a negative number is huge. *)
  Definition full_shape (m : rnode) (s : list N) : ev (list Z) :=
    let rank := Z.of_nat (length s) in
    ebind (int_attr_or m "start" 0) (fun start0 =>
    let start := Z.max (if (start0 <? 0)%Z then (start0 + rank)%Z else start0) 0 in
    ebind (int_attr_or m "end" rank) (fun end0 =>
    let end1 := if (end0 <? 0)%Z then (end0 + rank)%Z else end0 in
    let stop := if (end1 <? 0)%Z then rank else Z.min end1 rank in
    if (start >=? stop)%Z then Done []
    else Done (map Z.of_N (firstn (Z.to_nat (stop - start)) (skipn (Z.to_nat start) s))))).

  (** The walk of a slice: [fuel] bounds the number of steps, which is at most
      the length of the list plus one. *)
  Fixpoint walk_up (fuel : nat) (vals : list Z) (i stop step : Z) : list Z :=
    match fuel with
    | O => []
    | S f => if (i <? stop)%Z then nth (Z.to_nat i) vals 0%Z :: walk_up f vals (i + step) stop step else []
    end.
  Fixpoint walk_down (fuel : nat) (vals : list Z) (i stop step : Z) : ev (list Z) :=
    match fuel with
    | O => Done []
    | S f => if (i >? stop)%Z
             then match nth_error vals (Z.to_nat i) with
                  | Some v => ebind (walk_down f vals (i + step) stop step) (fun r => Done (v :: r))
                  | None => Panic
                  end
             else Done []
    end.

  (** Lines 269-287: an operand with a default. *)
  Definition slice_operand (n : rnode) (k : nat) (default : list Z) : ev (list Z) :=
    match nth_error (ninputs n) k with
    | Some a => ebind (try (value a)) (fun v => try (to_i64_vec v))
    | None => Done default
    end.

  (** Lines 237-343. *)
  Definition extract_slice (n : rnode) : ev (list Z) :=
    match ninputs n with
    | i0 :: i1 :: i2 :: _ =>
        ebind (shape_producer nodes (aname i0)) (fun p =>
        let (m, s) := p in
        ebind (full_shape m s) (fun vals =>
        ebind (ebind (try (value i1)) (fun v => try (to_i64_vec v))) (fun starts =>
        ebind (ebind (try (value i2)) (fun v => try (to_i64_vec v))) (fun ends =>
        if negb (Nat.eqb (length starts) (length ends)) then Skip
        else
          ebind (slice_operand n 3 (map Z.of_nat (seq 0 (length starts)))) (fun axes =>
          ebind (slice_operand n 4 (repeat 1%Z (length starts))) (fun steps =>
          if negb (Nat.eqb (length axes) (length starts)) || negb (Nat.eqb (length steps) (length starts)) then Skip
          else if existsb (fun a => negb (Z.eqb a 0)) axes then Skip
          else
            match starts, ends, steps with
            | start0 :: _, end0 :: _, step :: _ =>
                if (step =? 0)%Z then Skip
                else
                  let len := Z.of_nat (length vals) in
                  let norm z := Z.max 0 (Z.min len (if (z <? 0)%Z then (z + len)%Z else z)) in
                  if (0 <? step)%Z then Done (walk_up (S (length vals)) vals (norm start0) (norm end0) step)
                  else walk_down (S (length vals)) vals (norm start0) (norm end0) step
            | _, _, _ => Panic
            end))))))
    | _ => Skip
    end.
End ShapeConstants.

(** Lines 102-141. *)
Definition shape_data (values : list Z) (ty : argty) : fdata :=
  mkFD (if Nat.eqb (length values) 1 && match ty with ScalarNative _ => true | _ => false end then [] else [N.of_nat (length values)]) (XI64 values).

(** Lines 30-57 and 60-88: the replacements are computed first, then made. *)
Fixpoint replace_nodes (wanted : rnode -> ev (list Z * argty)) (s : store) (nodes : list rnode) : ev (store * list rnode * list string) :=
  match nodes with
  | [] => Done (s, [], [])
  | n :: r =>
      match wanted n with
      | Panic => Panic
      | Skip => ebind (replace_nodes wanted s r) (fun p => let '(s', r', outs) := p in Done (s', n :: r', outs))
      | Done (values, ty) =>
          match noutputs n with
          | [] => Panic
          | o :: _ =>
              let (s1, id) := register_constant s (aname o) (shape_data values ty) in
              ebind (replace_nodes wanted s1 r) (fun p =>
                let '(s', r', outs) := p in Done (s', make_constant_node (nname n) (aname o) ty id :: r', aname o :: outs))
          end
      end
  end.
Definition wanted_gather (s : store) (nodes : list rnode) (n : rnode) : ev (list Z * argty) :=
  if negb (String.eqb (ntype n) "Gather") || Nat.ltb (length (ninputs n)) 2 then Skip
  else ebind (extract_dim (st_value s) nodes n) (fun z => ebind (first_out n) (fun ty => Done ([z], ty))).
Definition wanted_slice (s : store) (nodes : list rnode) (n : rnode) : ev (list Z * argty) :=
  if negb (String.eqb (ntype n) "Slice") then Skip
  else ebind (extract_slice (st_value s) nodes n) (fun l => Done (l, ShapeT (N.of_nat (length l)))).
(** Lines 17-99.  A Gather turned into a constant keeps its outputs, so the map of
    producers finds the same Shape nodes in the second round. *)
Definition simplify_constant_shape (s : store) (nodes : list rnode) (outputs : list arg) : ev (store * list rnode * list arg) :=
  ebind (replace_nodes (wanted_gather s nodes) s nodes) (fun p =>
    let '(s1, nodes1, names1) := p in
    ebind (replace_nodes (wanted_slice s nodes1) s1 nodes1) (fun q =>
      let '(s2, nodes2, names2) := q in
      match names1 ++ names2 with
      | [] => Done (s2, nodes2, outputs)
      | names => Done (s2, update_constant_references names nodes2, map (to_constant names) outputs)
      end)).
