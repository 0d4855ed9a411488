(** The statements emitted for the operators that work on shapes:
    crates/burn-onnx/src/burn/node/{shape,gather,concat,slice,squeeze,unsqueeze,
    where_op,cast,reshape}.rs, function [forward] of each, where an operand or
    the result is an array or a scalar; and the straight-line program made of
    them.  A variable is named after the ONNX value (see Names_Model for the
    renaming). *)
From Verif Require Export BinOps_Model AxisOps_Model RankOps_Model Payload_Model.
From Verif Require Import ShapeRun_Spec.
Local Open Scope Z_scope.

(** ** The emitted code *)

(** A scalar used as an index or a condition: a native variable, or a device
    scalar read with [into_scalar().elem()]. *)
Inductive sexp := SVar (x : string) | SRead (x : string).

Inductive stmt :=
| TBinary (c : code) (d : dtype) (l r : string)
| TDims (x : string) (s e : N) (len : N)   (* let o: [i64; len] = x.dims()[s..e] *)
| TArray (l : list Z)                      (* [..] *)
| TCopy (x : string)                       (* let o = x *)
| TIndex (x : string) (i : sexp)           (* x[if i < 0 { x.len() + i } else { i }] as i64 *)
| TIndices (x is : string) (len : N)       (* let o: [i64; len] = is.iter().map(|i| x[..]) *)
| TIndicesOf (x is : string) (len : N)     (* the same from a tensor's to_data() *)
| TConcat (xs : list string) (len : N)     (* let o: [i64; len] = [&x[..], ..].concat() *)
| TRange (x : string) (s e : N) (len : N)  (* let o: [i64; len] = x[s..e] *)
| TRangeRev (x : string) (s e : N) (len : N)
| TStep (rev : bool) (x : string) (s e : N) (step : nat) (len : N)  (* x[s..e].iter().rev()?.step_by(step) into [0; len] *)
| TFirst (x : string)                      (* x[0] as i64 *)
| TWrap (x : sexp)                         (* [x as i64] *)
| TItems (c x y : string)                  (* result = y; for (i, (c, x)) .. { if c != 0 { result[i] = x } } *)
| TIf (c : sexp) (x y : string)
| TBools (x : string)                      (* Tensor::<B, 1, Bool>::from_data_dtype(x.map(|x| x != 0)) *)
| TPad (x : string) (len : N)              (* result = [0; len]; copy the first min(len, x.len()) items *)
| TUncompilable.

(** ** What the code does.  [None] is code that does not compile or a panic. *)

(** [if idx < 0 { (len as i64 + idx) as usize } else { idx as usize }], then
    the index: out of range is a panic. *)
Definition index_at (l : list Z) (i : Z) : option Z :=
  let j := if i <? 0 then Z.of_nat (length l) + i else i in
  if j <? 0 then None else nth_error l (Z.to_nat j).

(** [x[s..e]]. *)
Definition range {A} (l : list A) (s e : N) : option (list A) :=
  if (s <=? e)%N && (e <=? N.of_nat (length l))%N then Some (firstn (N.to_nat (e - s)) (skipn (N.to_nat s) l)) else None.
(** [try_into().unwrap()], an array type written before the value. *)
Definition array (len : N) (l : list Z) : option rv := if N.eqb (N.of_nat (length l)) len then Some (RShape l) else None.

(** [iter().step_by(k)]. *)
Fixpoint every {A} (k skip : nat) (l : list A) : list A :=
  match l with
  | [] => []
  | x :: r => match skip with O => x :: every k (k - 1) r | S j => every k j r end
  end.
(** [for (i, s) in items.enumerate() { out[i] = s }] on [0; len]. *)
Definition into_zeros (len : N) (l : list Z) : option rv :=
  if (N.of_nat (length l) <=? len)%N then Some (RShape (l ++ repeat 0 (N.to_nat len - length l))) else None.

Fixpoint where_items (c x y : list Z) : option (list Z) :=
  match c, x with
  | ci :: c', xi :: x' =>
      match y with
      | yi :: y' => option_map (cons (if ci =? 0 then yi else xi)) (where_items c' x' y')
      | [] => if ci =? 0 then where_items c' x' [] else None
      end
  | _, _ => Some y
  end.

Definition renv : Type := string -> option rv.
Section Exec.
  Variable e : renv.
  Definition scalar (s : sexp) : option elt :=
    match s with
    | SVar x => match e x with Some (RNative v) => Some v | _ => None end
    | SRead x => match e x with Some (RTensor (mkT [1%N] [v])) => Some v | _ => None end
    end.
  Definition arr (x : string) : option (list Z) := match e x with Some (RShape l) => Some l | _ => None end.
  Definition obind {A B} (x : option A) (f : A -> option B) : option B := match x with Some a => f a | None => None end.

  Definition exec (t : stmt) : option rv :=
    match t with
    | TBinary c d l r => obind (e l) (fun x => obind (e r) (fun y => run d x y c))
    | TDims x s e' len =>
        match e x with
        | Some (RTensor t) => obind (range (tshape t) s e') (fun ds => array len (map Z.of_N ds))
        | _ => None end
    | TArray l => Some (RShape l)
    | TCopy x => e x
    | TIndex x i => obind (arr x) (fun l => match scalar i with Some (EI i) => option_map (fun z => RNative (EI z)) (index_at l i) | _ => None end)
    | TIndices x is len => obind (arr x) (fun l => obind (arr is) (fun js => obind (mapo (index_at l) js) (array len)))
    | TIndicesOf x is len =>
        obind (arr x) (fun l => match e is with
                                | Some (RTensor t) => obind (as_ints t) (fun js => obind (mapo (index_at l) js) (array len))
                                | _ => None end)
    | TConcat xs len => obind (mapo arr xs) (fun ls => array len (concat ls))
    | TRange x s e' len => obind (arr x) (fun l => obind (range l s e') (array len))
    | TRangeRev x s e' len => obind (arr x) (fun l => obind (range l s e') (fun r => array len (rev r)))
    | TStep bw x s e' k len =>
        obind (arr x) (fun l => obind (range l s e') (fun r => into_zeros len (every k 0 (if bw then rev r else r))))
    | TFirst x => obind (arr x) (fun l => match l with z :: _ => Some (RNative (EI z)) | [] => None end)
    | TWrap x => match scalar x with Some (EI z) => Some (RShape [z]) | _ => None end
    | TItems c x y => obind (arr c) (fun c => obind (arr x) (fun x => obind (arr y) (fun y => option_map RShape (where_items c x y))))
    | TIf c x y => match scalar c with Some (EB b) => e (if b then x else y) | _ => None end
    | TBools x => obind (arr x) (fun l => Some (RTensor (mkT [N.of_nat (length l)] (map (fun z => EB (negb (z =? 0))) l))))
    | TPad x len => obind (arr x) (fun l =>
        let k := Nat.min (length l) (N.to_nat len) in Some (RShape (firstn k l ++ repeat 0 (N.to_nat len - k))))
    | TUncompilable => None
    end.
End Exec.

(** ** Node types: crates/onnx-ir/src/ir/node.rs:160-240.  Other operators are
    not modelled. *)
Inductive kind := KBinary (op : bop) | KShape | KGather | KConcat | KSlice | KSqueeze | KUnsqueeze | KWhere | KCast | KReshape.

(** crates/onnx-ir/src/node/bitshift.rs:37-45, 92-109: [to_lowercase]; other
    strings are errors. *)
Definition shift_direction (n : rnode) : option bop :=
  match get_attr n "direction" with
  | None => Some OShiftLeft
  | Some (AString s) => if String.eqb (lower s) "left" then Some OShiftLeft
                        else if String.eqb (lower s) "right" then Some OShiftRight else None
  | Some _ => None
  end.
(** crates/onnx-ir/src/node/modulo.rs:126-138. *)
Definition fmod (n : rnode) : bool :=
  match get_attr n "fmod" with Some (AInt z) => negb (z =? 0) | _ => false end.
Definition names_of_kinds : list (string * kind) :=
  [("Add", KBinary OAdd); ("Sub", KBinary OSub); ("Mul", KBinary OMul); ("Div", KBinary ODiv);
   ("Equal", KBinary OEqual); ("Greater", KBinary OGreater); ("GreaterOrEqual", KBinary OGreaterOrEqual);
   ("Less", KBinary OLess); ("LessOrEqual", KBinary OLessOrEqual);
   ("And", KBinary OAnd); ("Or", KBinary OOr); ("Xor", KBinary OXor); ("Max", KBinary OMax); ("Min", KBinary OMin);
   ("BitwiseAnd", KBinary OBitAnd); ("BitwiseOr", KBinary OBitOr); ("BitwiseXor", KBinary OBitXor);
   ("Shape", KShape); ("Gather", KGather); ("Concat", KConcat); ("Slice", KSlice); ("Squeeze", KSqueeze);
   ("Unsqueeze", KUnsqueeze); ("Where", KWhere); ("Cast", KCast); ("Reshape", KReshape)]%string.
Definition kind_of (n : rnode) : option kind :=
  if String.eqb (ntype n) "Mod" then (if fmod n then None else Some (KBinary OMod))
  else if String.eqb (ntype n) "BitShift" then option_map KBinary (shift_direction n)
  else option_map snd (find (fun kv => String.eqb (fst kv) (ntype n)) names_of_kinds).

(** ** Type inference of Where and Cast *)

(** crates/onnx-ir/src/node/where_op.rs:35-41. *)
Definition where_elem (ty : argty) : dtype :=
  match ty with ScalarTensor d | ScalarNative d => d | TensorT t => tt_dtype t | ShapeT _ => I64 end.
Definition is_shape_type (ty : argty) : bool := match ty with ShapeT _ => true | _ => false end.
(** where_op.rs:53-58. *)
Definition shape_size (ty : argty) : N := match ty with ShapeT k => k | _ => 1%N end.
(** where_op.rs:93-148. *)
Definition infer_where (n : rnode) : ires argty :=
  match map aty (ninputs n) with
  | c :: x :: y :: _ =>
      if negb (is_shape_type c) && negb (dtype_beq (where_elem c) BoolT) then IErr
      else
        let elem := if dtype_beq (where_elem x) (where_elem y) then IOk (where_elem x)
                    else if is_shape_type x then IOk (where_elem y)
                    else if is_shape_type y then IOk (where_elem x)
                    else IErr in
        ibind elem (fun d =>
          let rank := compute_broadcast_rank (map aty (ninputs n)) in
          IOk (if N.eqb rank 0 then ScalarNative d
               else if is_shape_type x && is_shape_type y && N.eqb rank 1 && dtype_beq d I64
               then ShapeT (N.max (shape_size x) (shape_size y))
               else TensorT (mkTT d rank (compute_broadcast_static_shape (map aty (ninputs n))))))
  | _ => IPanic
  end%bool.

(** crates/onnx-ir/src/node/cast.rs:128-150: the panic is the [expect] on line 89. *)
Definition cast_to (n : rnode) : ires dtype :=
  match get_attr n "to" with
  | Some (AInt z) => match element_type_from_proto z with Some d => IOk d | None => IPanic end
  | _ => IPanic
  end.
(** cast.rs:68-122; an input of rank 0 is retyped there, which is left out. *)
Definition infer_cast (n : rnode) : ires argty :=
  ibind (cast_to n) (fun d =>
  ibind (first_input n) (fun i0 =>
    IOk (match aty i0 with
         | TensorT t => if N.eqb (tt_rank t) 0 then ScalarNative d else TensorT (mkTT d (tt_rank t) (tt_shape t))
         | ScalarTensor _ => ScalarTensor d
         | ScalarNative _ => ScalarNative d
         | ShapeT r => if is_float_dtype d || dtype_beq d BoolT then TensorT (mkTT d 1 (Some [Some r])) else ShapeT r
         end)))%bool.

Section Nodes.
  Variable value : arg -> option cval.
  Variable opset : N.

  (** The type a node's processor records for its output. *)
  Definition infer_node (n : rnode) : ires argty :=
    match kind_of n with
    | None => IErr
    | Some (KBinary op) =>
        match ninputs n with
        | [a; b] => match infer_binary op (aty a) (aty b) with Some ty => IOk ty | None => IPanic end
        | _ => IErr
        end
    | Some KShape => infer_shape n
    | Some KGather => infer_gather n
    | Some KConcat => infer_concat value n
    | Some KSlice => infer_slice value n
    | Some KSqueeze => infer_squeeze value opset n
    | Some KUnsqueeze => infer_unsqueeze value opset n
    | Some KWhere => infer_where n
    | Some KCast => infer_cast n
    | Some KReshape => infer_reshape value n
    end.

  (** ** The generators.  [None] is a panic of the generator; code for tensor
      operands, where it differs, is not modelled and [None] as well. *)

  (** shape.rs:12-62. *)
  Definition gen_shape (i o : arg) (n : rnode) : option stmt :=
    match aty o, shape_config n with
    | ShapeT len, IOk (s, e) =>
        match aty i with
        | TensorT _ => Some (if N.eqb (usub e s) len then TDims (aname i) s e len else TUncompilable)
        | ShapeT k => Some (if N.eqb len 1 then TArray [Z.of_N k] else TUncompilable)
        | _ => None
        end
    | _, _ => None
    end.

  (** gather.rs:29-41: an [i64] is added to the index. *)
  Definition index_exp (a : arg) : option sexp :=
    match aty a with
    | ScalarNative _ => Some (SVar (aname a))
    | ScalarTensor _ => Some (SRead (aname a))
    | _ => None
    end.
  (** gather.rs:44-193; results kept on the device are left out: inference does
      not record them for an array (RankOps_Model, [infer_gather]). *)
  Definition gen_gather (x ix o : arg) : option stmt :=
    match aty x, aty o with
    | ShapeT _, ScalarNative _ =>
        option_map (fun i => if dtype_beq (input_dtype (aty ix)) I64 then TIndex (aname x) i else TUncompilable) (index_exp ix)
    | ShapeT _, ShapeT len =>
        match aty ix with
        | TensorT t => if N.eqb (tt_rank t) 1 then Some (TIndicesOf (aname x) (aname ix) len) else None
        | ShapeT _ => Some (TIndices (aname x) (aname ix) len)
        | _ => None
        end
    | (ScalarNative _ | ScalarTensor _), _ => Some (TCopy (aname x))
    | _, _ => None
    end.

  (** concat.rs:91-115: a tensor is not an array. *)
  Definition gen_concat (n : rnode) (o : arg) : option stmt :=
    match aty o, concat_axis n with
    | ShapeT len, IOk axis =>
        if negb (N.eqb axis 0) then None
        else if forallb (fun a => is_shape_type (aty a)) (ninputs n) then Some (TConcat (map aname (ninputs n)) len)
        else Some TUncompilable
    | _, _ => None
    end.

  (** slice.rs:463-560, static bounds; the code for bounds known at run time is
      left out. *)
  Definition gen_slice (n : rnode) (x o : arg) : option stmt :=
    match aty x, aty o, slice_config value n with
    | ShapeT rank, ShapeT len, IOk c =>
        match sl_starts c, sl_ends c with
        | LStatic [s], LStatic (e :: _) =>
            match sl_steps c with
            | Some (LStatic (k :: _)) =>
                let n := Z.of_N rank in
                let a := Z.to_N (if s <? 0 then Z.max (n + s) 0 else Z.min s n) in
                let b := if e =? 9223372036854775807 then rank
                         else Z.to_N (if e <? 0 then Z.max (n + e) 0 else Z.min e n) in
                Some (if k =? 1 then TRange (aname x) a b len
                      else if k =? -1 then TRangeRev (aname x) a b len
                      else TStep (k <? 0) (aname x) a b (Z.to_nat (Z.abs k)) len)
            | _ => None
            end
        | _, _ => None
        end
    | _, _, _ => None
    end.

  (** squeeze.rs:12-98. *)
  Definition gen_squeeze (x o : arg) : option stmt :=
    match aty x, aty o with
    | ShapeT _, ScalarNative _ => Some (TFirst (aname x))
    | ShapeT _, ShapeT _ | ScalarNative _, ScalarNative _ | ScalarTensor _, ScalarTensor _ => Some (TCopy (aname x))
    | _, _ => None
    end.

  (** unsqueeze.rs:101-118. *)
  Definition gen_unsqueeze (x o : arg) : option stmt :=
    match aty x, aty o with
    | ScalarNative _, ShapeT _ => Some (TWrap (SVar (aname x)))
    | ScalarTensor _, ShapeT _ => Some (TWrap (SRead (aname x)))
    | _, _ => None
    end.

  (** where_op.rs:70-142. *)
  Definition cond_exp (c : arg) : sexp := match aty c with ScalarTensor _ => SRead (aname c) | _ => SVar (aname c) end.
  Definition gen_where (c x y o : arg) : option stmt :=
    match aty o with
    | TensorT _ => None
    | ScalarNative _ | ScalarTensor _ => Some (TIf (cond_exp c) (aname x) (aname y))
    | ShapeT _ =>
        match aty c, aty x, aty y with
        | ShapeT _, ShapeT _, ShapeT _ => Some (TItems (aname c) (aname x) (aname y))
        | (ScalarNative _ | ScalarTensor _), ShapeT _, ShapeT _ => Some (TIf (cond_exp c) (aname x) (aname y))
        | _, _, _ => None
        end
    end.

  (** cast.rs:94-153. *)
  Definition gen_cast (n : rnode) (x o : arg) : option stmt :=
    match aty x, aty o with
    | ShapeT _, ShapeT _ => Some (TCopy (aname x))
    | ShapeT _, TensorT _ => match cast_to n with IOk BoolT => Some (TBools (aname x)) | _ => None end
    | _, _ => None
    end.

  (** reshape.rs:65-117, the shape known when the code is generated. *)
  Definition gen_reshape (n : rnode) (x o : arg) : option stmt :=
    match aty x, get_static_shape value n with
    | ShapeT k, IOk (Some _) =>
        match aty o with
        | ScalarNative _ => if N.eqb k 1 then Some (TFirst (aname x)) else None
        | ShapeT len => Some (if N.eqb k len then TCopy (aname x) else TPad (aname x) len)
        | _ => None
        end
    | _, _ => None
    end.

  Definition gen_node (n : rnode) : option stmt :=
    match kind_of n, ninputs n, noutputs n with
    | Some (KBinary op), [a; b], o :: _ =>
        option_map (fun c => TBinary c (match aty a with ShapeT _ => input_dtype (aty b) | ty => input_dtype ty end) (aname a) (aname b))
                   (generate op (aty a) (aty b))
    | Some KShape, i :: _, o :: _ => gen_shape i o n
    | Some KGather, x :: ix :: _, o :: _ => gen_gather x ix o
    | Some KConcat, _, o :: _ => gen_concat n o
    | Some KSlice, x :: _, o :: _ => gen_slice n x o
    | Some KSqueeze, x :: _, o :: _ => gen_squeeze x o
    | Some KUnsqueeze, x :: _, o :: _ => gen_unsqueeze x o
    | Some KWhere, c :: x :: y :: _, o :: _ => gen_where c x y o
    | Some KCast, x :: _, o :: _ => gen_cast n x o
    | Some KReshape, x :: _, o :: _ => gen_reshape n x o
    | _, _, _ => None
    end.

  (** crates/burn-onnx/src/burn/graph.rs:548-553, the body of [forward]: one
      statement for each node, in order.  The extra clones do not change values. *)
  Fixpoint gen_body (ns : list rnode) : option (list (string * stmt)) :=
    match ns with
    | [] => Some []
    | n :: r =>
        match noutputs n, gen_node n, gen_body r with
        | o :: _, Some s, Some b => Some ((aname o, s) :: b)
        | _, _, _ => None
        end
    end.
End Nodes.

Fixpoint exec_body (b : list (string * stmt)) (e : renv) : option renv :=
  match b with
  | [] => Some e
  | (x, s) :: r => obind (exec e s) (fun v => exec_body r (bind e x v))
  end.

(** ** The link to ONNX values *)

(** The ONNX value of an argument with an embedded integer constant. *)
Definition constant_of (value : arg -> option cval) (a : arg) : option otensor :=
  match value a with
  | Some v => match cv_ints v with Some l => Some (cv_dtype v, mkT (cv_shape v) (map EI l)) | None => None end
  | None => None
  end.
(** An input [a] of a node has the ONNX value [x]: a constant is that constant;
    a variable of the program holds a value standing for [x]. *)
Definition given (value : arg -> option cval) (e : renv) (a : arg) (x : otensor) : Prop :=
  (forall c, constant_of value a = Some c -> x = c) /\
  (twf (snd x) /\ Forall (in_dtype (fst x)) (tdata (snd x))) /\
  (run_time a -> exists v, e (aname a) = Some v /\ stands_for (fst x) (aty a) v (snd x)).

(** The variables of the program hold the values of the graph, each at the type
    [ty] gives its name. *)
Definition holds (ty : string -> argty) (oe : oenv) (e : renv) : Prop :=
  forall x t, oe x = Some t -> exists v, e x = Some v /\ stands_for (fst t) (ty x) v (snd t).
