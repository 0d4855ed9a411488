(** Merging of shape knowledge, broadcasting, specification checks and the
    type-inference loop. *)
From Verif Require Import IR_Model.

(** ** crates/onnx-ir/src/ir/argument.rs:204-231, [TensorType::merge_static_shape]:
    the new value of [self] and the returned flag. *)
Fixpoint merge_dims (a b : list (option N)) : list (option N) * bool :=
  match a, b with
  | x :: a', y :: b' =>
      let (r, c) := merge_dims a' b' in
      match x, y with
      | None, Some d => (Some d :: r, true)
      | _, _ => (x :: r, c)
      end
  | _, _ => (a, false)
  end.

Definition merge_tt (self other : tensor_type) : tensor_type * bool :=
  if negb (N.eqb (tt_rank self) (tt_rank other)) then (self, false)
  else
    match tt_shape self, tt_shape other with
    | None, Some os =>
        if N.eqb (N.of_nat (length os)) (tt_rank self)
        then (mkTT (tt_dtype self) (tt_rank self) (Some os), true)
        else (self, false)
    | Some ss, Some os =>
        if Nat.eqb (length ss) (length os)
        then let (r, c) := merge_dims ss os in (mkTT (tt_dtype self) (tt_rank self) (Some r), c)
        else (self, false)
    | _, _ => (self, false)
    end.

(** Lines 248-256, [ArgType::merge_static_shape]. *)
Definition merge_ty (self other : argty) : argty * bool :=
  match self, other with
  | TensorT a, TensorT b => let (r, c) := merge_tt a b in (TensorT r, c)
  | _, _ => (self, false)
  end.

(** ** crates/onnx-ir/src/processor.rs:553-563 *)
Definition compute_broadcast_rank (tys : list argty) : N :=
  fold_left (fun acc ty =>
    match ty with
    | TensorT t => N.max acc (tt_rank t)
    | ScalarTensor _ => N.max acc 1
    | ScalarNative _ => acc
    | ShapeT _ => N.max acc 1
    end) tys 0%N.

(** crates/onnx-ir/src/ir/argument.rs:310-315. *)
Definition static_shape_of (ty : argty) : option (list (option N)) :=
  match ty with TensorT t => tt_shape t | _ => None end.

Definition dim_eqb (a b : option N) : bool :=
  match a, b with
  | Some x, Some y => N.eqb x y
  | None, None => true
  | _, _ => false
  end.
Fixpoint dims_eqb (a b : list (option N)) : bool :=
  match a, b with
  | [], [] => true
  | x :: a', y :: b' => dim_eqb x y && dims_eqb a' b'
  | _, _ => false
  end.

(** The assignment [result[offset + i] = v]. *)
Fixpoint set_nth {A} (l : list A) (i : nat) (v : A) : list A :=
  match l, i with
  | [], _ => []
  | _ :: r, O => v :: r
  | x :: r, S j => x :: set_nth r j v
  end.

(** Lines 595-617, the inner loop over one shape, starting at index [idx]. *)
Fixpoint broadcast_into (result : list (option N)) (idx : nat) (shape : list (option N))
  : option (list (option N)) :=
  match shape with
  | [] => Some result
  | dim :: rest =>
      match nth idx result None, dim with
      | _, None | None, _ => broadcast_into (set_nth result idx None) (S idx) rest
      | Some cur, Some d =>
          if N.eqb cur 1 then broadcast_into (set_nth result idx (Some d)) (S idx) rest
          else if negb (N.eqb d 1) && negb (N.eqb d cur) then None
          else broadcast_into result (S idx) rest
      end
  end.
Fixpoint broadcast_all (max_rank : nat) (result : list (option N)) (shapes : list (list (option N)))
  : option (list (option N)) :=
  match shapes with
  | [] => Some result
  | s :: rest =>
      match broadcast_into result (max_rank - length s) s with
      | None => None
      | Some r => broadcast_all max_rank r rest
      end
  end.

Fixpoint filter_map {A B} (f : A -> option B) (l : list A) : list B :=
  match l with
  | [] => []
  | x :: r => match f x with Some y => y :: filter_map f r | None => filter_map f r end
  end.

(** [windows(2).all(|w| w[0] == w[1])]. *)
Fixpoint all_equal (l : list (list (option N))) : bool :=
  match l with
  | a :: ((b :: _) as r) => dims_eqb a b && all_equal r
  | _ => true
  end.

(** Lines 566-620. *)
Definition compute_broadcast_static_shape (tys : list argty) : option (list (option N)) :=
  let static_shapes := filter_map static_shape_of tys in
  match static_shapes with
  | [] => None
  | [s] => if N.eqb (compute_broadcast_rank tys) (N.of_nat (length s)) then Some s else None
  | s :: _ =>
      if all_equal static_shapes then Some s
      else
        let max_rank := fold_left Nat.max (map (@length (option N)) static_shapes) O in
        broadcast_all max_rank (repeat (Some 1%N) max_rank) static_shapes
  end.

(** Lines 628-686; [None] is the panic of [elem_type] on a shape or of
    [inputs[0]] on no inputs. *)
Definition is_tensor_ty (ty : argty) : bool := match ty with TensorT _ => true | _ => false end.
Definition is_shape_ty (ty : argty) : bool := match ty with ShapeT _ => true | _ => false end.
Definition broadcast_dtype (tys : list argty) (output_dtype : option dtype) : option dtype :=
  match output_dtype with
  | Some d => Some d
  | None =>
      match filter_map (fun ty => match ty with
                                  | TensorT t => Some (tt_dtype t)
                                  | ScalarTensor d => Some d
                                  | _ => None end) tys with
      | d :: _ => Some d
      | [] => match tys with
              | ScalarTensor d :: _ | ScalarNative d :: _ => Some d
              | TensorT t :: _ => Some (tt_dtype t)
              | _ => None
              end
      end
  end.
Definition broadcast_output_type (tys : list argty) (output_dtype : option dtype) : option argty :=
  let has_real_tensor := existsb is_tensor_ty tys in
  let has_shape := existsb is_shape_ty tys in
  if has_shape && negb has_real_tensor then
    match filter_map (fun ty => match ty with ShapeT n => Some n | _ => None end) tys with
    | n :: _ => Some (ShapeT n)
    | [] => None
    end
  else
    let max_rank := compute_broadcast_rank tys in
    match broadcast_dtype tys output_dtype with
    | None => None
    | Some d =>
        Some (if N.eqb max_rank 0 then ScalarNative d
              else if negb has_real_tensor && N.eqb max_rank 1 then ScalarTensor d
              else TensorT (mkTT d max_rank (compute_broadcast_static_shape tys)))
    end.

(** ** Specification checks: crates/onnx-ir/src/processor.rs:16-63, 354-478 *)
Inductive input_spec :=
| IExact (n : N) | IAtLeast (n : N) | IRange (lo hi : N)
| IOpset (specs : list (N * input_spec)).
Inductive output_spec :=
| OExact (n : N) | ORange (lo hi : N)
| OOpset (specs : list (N * output_spec)).
Record node_spec := mkSpec { min_opset : N; max_opset : option N; in_spec : input_spec; out_spec : output_spec }.

(** [filter(v <= opset).max_by_key(v)]: the last of the largest versions, with
    the verdict [f] of its specification. *)
Fixpoint applicable {A} (opset : N) (l : list (N * A)) (best : option (N * A)) : option (N * A) :=
  match l with
  | [] => best
  | (v, a) :: r =>
      if N.leb v opset then
        match best with
        | Some (w, _) => applicable opset r (if N.leb w v then Some (v, a) else best)
        | None => applicable opset r (Some (v, a))
        end
      else applicable opset r best
  end.

(** Lines 385-430; the recursion goes through the verdicts of the entries. *)
Fixpoint input_ok (opset actual : N) (s : input_spec) : bool :=
  match s with
  | IExact e => N.eqb actual e
  | IAtLeast m => negb (N.ltb actual m)
  | IRange lo hi => negb (N.ltb actual lo || N.ltb hi actual)
  | IOpset specs =>
      match applicable opset (map (fun p => (fst p, input_ok opset actual (snd p))) specs) None with
      | Some (_, b) => b
      | None => true
      end
  end.

(** Lines 433-475. *)
Fixpoint output_ok (opset actual : N) (s : output_spec) : bool :=
  match s with
  | OExact e => N.eqb actual e
  | ORange lo hi => negb (N.ltb actual lo || N.ltb hi actual)
  | OOpset specs =>
      match applicable opset (map (fun p => (fst p, output_ok opset actual (snd p))) specs) None with
      | Some (_, b) => b
      | None => true
      end
  end.

(** Lines 480-494: [*n as usize] wraps for negative values. *)
Definition onnx_input_count (n : rnode) : N :=
  match get_attr n "__onnx_input_count" with
  | Some (AInt z) => Z.to_N (z mod 2 ^ 64)
  | _ => N.of_nat (length (ninputs n))
  end.

(** Lines 354-382. *)
Definition validate_node_spec (n : rnode) (opset : N) (s : node_spec) : bool :=
  negb (N.ltb opset (min_opset s)) &&
  match max_opset s with Some m => negb (N.ltb m opset) | None => true end &&
  input_ok opset (onnx_input_count n) (in_spec s) &&
  output_ok opset (N.of_nat (length (noutputs n))) (out_spec s).

(** Lines 331-351. *)
Definition no_rank_zero (n : rnode) : bool :=
  forallb (fun o => match aty o with TensorT t => negb (N.eqb (tt_rank t) 0) | _ => true end) (noutputs n).

(** ** The inference loop: crates/onnx-ir/src/phases/type_inference.rs:35-236 *)
Inductive pref := PScalar | PShape | PTensor.
Definition pkey := (string * string * pref)%type.      (* output, consumer, preference *)
Scheme Equality for pref.
Definition pkey_eqb (a b : pkey) : bool :=
  let '(o1, c1, p1) := a in let '(o2, c2, p2) := b in
  (String.eqb o1 o2 && String.eqb c1 c2 && pref_beq p1 p2)%bool.

Definition dims_ty_eqb (a b : option (list (option N))) : bool :=
  match a, b with
  | Some x, Some y => dims_eqb x y
  | None, None => true
  | _, _ => false
  end.
Definition ty_eqb (a b : argty) : bool :=
  match a, b with
  | ScalarTensor d, ScalarTensor d' | ScalarNative d, ScalarNative d' => dtype_beq d d'
  | ShapeT n, ShapeT m => N.eqb n m
  | TensorT t, TensorT u =>
      dtype_beq (tt_dtype t) (tt_dtype u) && N.eqb (tt_rank t) (tt_rank u) && dims_ty_eqb (tt_shape t) (tt_shape u)
  | _, _ => false
  end.

Definition set_ty (a : arg) (ty : argty) : arg := mkArg (aname a) ty (asrc a).
Definition set_inputs (n : rnode) (is : list arg) : rnode :=
  mkNode (ntype n) (nname n) is (noutputs n) (nattrs n).

(** One input against a known output type: lines 101-103, 141-148 and 166-173.
    The new argument and whether its type changed. *)
Definition sync_arg (name : string) (ty : argty) (a : arg) : arg * bool :=
  if String.eqb (aname a) name then
    let m := fst (merge_ty ty (aty a)) in
    if ty_eqb (aty a) m then (a, false) else (set_ty a m, true)
  else (a, false).

Definition map_flag {A} (f : A -> A * bool) (l : list A) : list A * bool :=
  (map (fun x => fst (f x)) l, existsb (fun x => snd (f x)) l).

Definition sync_node (name : string) (ty : argty) (n : rnode) : rnode * bool :=
  let (is, c) := map_flag (sync_arg name ty) (ninputs n) in (set_inputs n is, c).

(** Lines 94-97 and 159-162: later outputs of the same name win. *)
Definition output_types (nodes : list rnode) : smap argty :=
  fold_left (fun m n => fold_left (fun m o => sput m (aname o) (aty o)) (noutputs n) m) nodes [].

(** Lines 99-107 (flag ignored there) and 164-175. *)
Definition sync_all_arg (m : smap argty) (a : arg) : arg * bool :=
  match sget m (aname a) with
  | Some ty => sync_arg (aname a) ty a
  | None => (a, false)
  end.
Definition sync_all (nodes : list rnode) : list rnode * bool :=
  let m := output_types nodes in
  map_flag (fun n => let (is, c) := map_flag (sync_all_arg m) (ninputs n) in (set_inputs n is, c)) nodes.

Section Loop.
  (** The processors: [infer] returns the node with new output types ([None]:
      an error); [wants] the preferences a node has for its inputs; [spec] the
      specification of its type. *)
  Variable infer : rnode -> list pkey -> option rnode.
  Variable wants : rnode -> string -> list pref.
  Variable spec : string -> node_spec.          (* by node type *)
  Variable opset : N.

  (** Lines 60-85: the preferences for the outputs of node [n] (the order in
      which the set is iterated is that of the list). *)
  Definition prefs_for (nodes : list rnode) (collected : list pkey) (n : rnode) : list pkey :=
    filter (fun k => match find (fun m => mem_str (fst (fst k)) (out_names m)) nodes with
                     | Some m => String.eqb (nname m) (nname n)
                     | None => false end) collected.

  (** Lines 130-151: push the output types of one node to later nodes. *)
  Fixpoint push_outputs (outs : list arg) (rest : list rnode) : list rnode * bool :=
    match outs with
    | [] => (rest, false)
    | o :: r =>
        let (rest1, c1) := map_flag (sync_node (aname o) (aty o)) rest in
        let (rest2, c2) := push_outputs r rest1 in
        (rest2, c1 || c2)
    end.

  (** Lines 114-155: the sweep; the preference table is the one built before. *)
  Fixpoint sweep (fuel : nat) (pf : rnode -> list pkey) (todo : list rnode) : option (list rnode * bool) :=
    match fuel, todo with
    | _, [] => Some ([], false)
    | O, _ => None
    | S f, n :: rest =>
        if validate_node_spec n opset (spec (ntype n)) then
          match infer n (pf n) with
          | None => None
          | Some n' =>
              if no_rank_zero n' then
                let (rest', c) := push_outputs (noutputs n') rest in
                match sweep f pf rest' with
                | None => None
                | Some (done, c') => Some (n' :: done, c || c')
                end
              else None
          end
        else None
    end.

  (** Lines 177-218: new preferences. *)
  Definition requests (nodes : list rnode) : list pkey :=
    flat_map (fun n => flat_map (fun i =>
      if existsb (fun m => mem_str (aname i) (out_names m)) nodes
      then map (fun p => (aname i, nname n, p)) (wants n (aname i)) else []) (ninputs n)) nodes.
  Definition new_requests (collected : list pkey) (rs : list pkey) : list pkey :=
    fold_left (fun c k => if existsb (pkey_eqb k) c then c else c ++ [k]) rs collected.

  (** One iteration; [first] skips step 2. *)
  Definition iteration (first : bool) (nodes : list rnode) (collected : list pkey)
    : option (list rnode * list pkey * bool) :=
    let nodes1 := if first then nodes else fst (sync_all nodes) in
    match sweep (length nodes1) (prefs_for nodes collected) nodes1 with
    | None => None
    | Some (nodes2, c1) =>
        let (nodes3, c2) := sync_all nodes2 in
        let collected' := new_requests collected (requests nodes3) in
        Some (nodes3, collected',
              negb (c1 || c2) && Nat.eqb (length collected') (length collected))
    end.

  (** Lines 53-229: the loop; the second component of the result tells whether
      it converged, the third how many iterations were run. *)
  Fixpoint iterate (n : nat) (first : bool) (nodes : list rnode) (collected : list pkey)
    : option (list rnode * list pkey * bool * nat) :=
    match n with
    | O => Some (nodes, collected, false, O)
    | S k =>
        match iteration first nodes collected with
        | None => None
        | Some (nodes', collected', stop) =>
            if stop then Some (nodes', collected', true, 1)
            else match iterate k false nodes' collected' with
                 | None => None
                 | Some (ns, c, b, i) => Some (ns, c, b, S i)
                 end
        end
    end.
  Definition infer_types (nodes : list rnode) := iterate 10 true nodes [].
End Loop.
