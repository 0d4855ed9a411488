(** What ONNX prescribes for the operators that graphs use to compute with
    shapes, as a relation between the tensors given to a node and the one it
    produces.  Nothing here mentions the generated code. *)
From Verif Require Export BinOps_Spec ShapeOps_Spec AxisOps_Spec RankOps_Spec.
Local Open Scope Z_scope.

(** An ONNX value: its element type and its elements. *)
Definition otensor : Type := dtype * tensor elt.

Definition vec (l : list Z) : tensor elt := mkT [N.of_nat (length l)] (map EI l).
Definition as_ints (t : tensor elt) : option (list Z) :=
  mapo (fun x => match x with EI z => Some z | _ => None end) (tdata t).

(** An integer attribute with a default. *)
Definition int_attr (n : rnode) (k : string) (d : Z) : option Z :=
  match get_attr n k with None => Some d | Some (AInt z) => Some z | Some _ => None end.

Definition axis_ok (r : nat) (a : Z) : bool := (- Z.of_nat r <=? a) && (a <? Z.of_nat r).

(** ** Gather: the index tensor takes the place of the axis; negative indices
    count from the end, others out of range are errors. *)
Definition onnx_gather (axis : Z) (x ix : tensor elt) : option (tensor elt) :=
  let r := length (tshape x) in let a := position r axis in let q := length (tshape ix) in
  let d := Z.of_N (nth a (tshape x) 0%N) in
  if axis_ok r axis then
    tab (firstn a (tshape x) ++ tshape ix ++ skipn (S a) (tshape x))
        (fun idx => match get ix (firstn q (skipn a idx)) with
                    | Some (EI k) => if (- d <=? k) && (k <? d)
                                     then get x (firstn a idx ++ [Z.to_N (from_end d k)] ++ skipn (a + q) idx)
                                     else None
                    | _ => None end)
  else None.

(** ** Concat: position [k] along the axis belongs to one of the parts. *)
Fixpoint part_at (a : nat) (k : N) (ts : list (tensor elt)) : option (tensor elt * N) :=
  match ts with
  | [] => None
  | t :: r => let d := nth a (tshape t) 0%N in if (k <? d)%N then Some (t, k) else part_at a (k - d) r
  end.
Definition onnx_concat (axis : Z) (ts : list (tensor elt)) (out : tensor elt) : Prop :=
  exists s, let a := position (length s) axis in
    axis_ok (length s) axis = true /\ concat_of a (map tshape ts) s /\
    tab s (fun idx => match part_at a (nth a idx 0%N) ts with
                      | Some (t, k) => get t (firstn a idx ++ [k] ++ skipn (S a) idx)
                      | None => None end) = Some out.

(** ** Slice: the positions kept along an axis, in the order of the result. *)
Definition kept (d : N) (c : option cut) : list N :=
  match c with
  | None => upto d
  | Some c =>
      let l := filter (fun i => taken (Z.of_N d) (c_start c) (c_stop c) (c_step c) (Z.of_N i)) (upto d) in
      if 0 <? c_step c then l else rev l
  end.
Definition cut_at (r : nat) (cuts : list cut) (k : nat) : option cut :=
  find (fun c => Nat.eqb (position r (c_axis c)) k) cuts.
Definition onnx_slice (cuts : list cut) (x : tensor elt) : option (tensor elt) :=
  let r := length (tshape x) in
  let ks := map (fun kd => kept (snd kd) (cut_at r cuts (fst kd))) (combine (seq 0 r) (tshape x)) in
  tab (map (fun l => N.of_nat (length l)) ks)
      (fun idx => match mapo (fun li => nth_error (fst li) (N.to_nat (snd li))) (combine ks idx) with
                  | Some idx' => get x idx' | None => None end).
Fixpoint cuts_of (axes starts ends steps : list Z) : option (list cut) :=
  match axes, starts, ends, steps with
  | [], [], [], [] => Some []
  | a :: axes, s :: starts, e :: ends, k :: steps => option_map (cons (mkCut a s e k)) (cuts_of axes starts ends steps)
  | _, _, _, _ => None
  end.
(** The cuts of a node from opset 10 on: the inputs starts, ends, axes and
    steps, the last two optional. *)
Definition slice_inputs (ins : list otensor) : option (list cut) :=
  let ints i d := match nth_error ins i with Some t => as_ints (snd t) | None => Some d end in
  match nth_error ins 1, nth_error ins 2 with
  | Some s, Some e =>
      match as_ints (snd s), as_ints (snd e) with
      | Some starts, Some ends =>
          match ints 3%nat (map Z.of_nat (seq 0 (length starts))), ints 4%nat (repeat 1 (length starts)) with
          | Some axes, Some steps => cuts_of axes starts ends steps
          | _, _ => None
          end
      | _, _ => None
      end
  | _, _ => None
  end.

(** ** Where: broadcasting of three operands. *)
Definition onnx_where (c x y : tensor elt) : option (tensor elt) :=
  match bshape (tshape c) (tshape x) with
  | None => None
  | Some s1 =>
      match bshape s1 (tshape y) with
      | None => None
      | Some s => tab s (fun idx => match get c (bproj (tshape c) idx) with
                                    | Some (EB true) => get x (bproj (tshape x) idx)
                                    | Some (EB false) => get y (bproj (tshape y) idx)
                                    | _ => None end)
      end
  end.

(** ** Cast, of integers and booleans; out of range it is not defined. *)
Definition cast_elt (d : dtype) (x : elt) : option elt :=
  let int z := if BinOps_Spec.fits d (EI z) then Some (EI z) else None in
  match x, d with
  | EI z, BoolT => Some (EB (negb (z =? 0)))
  | EI z, _ => int z
  | EB b, BoolT => Some (EB b)
  | EB b, _ => int (if b then 1 else 0)
  | EF _, _ => None
  end.
(** The numbers ONNX gives the element types. *)
Definition type_number (d : dtype) : Z :=
  match d with
  | F32 => 1 | U8 => 2 | I8 => 3 | U16 => 4 | I16 => 5 | I32 => 6 | I64 => 7 | BoolT => 9 | F16 => 10 | F64 => 11
  | U32 => 12 | U64 => 13 | BF16 => 16
  end.

(** The axes of Squeeze and Unsqueeze: an attribute, or the second input. *)
Definition axes_of (n : rnode) (ins : list otensor) : option (option (list Z)) :=
  match get_attr n "axes", ins with
  | Some (AInts l), [_] => Some (Some l)
  | None, [_] => Some None
  | None, [_; ax] => option_map Some (as_ints (snd ax))
  | _, _ => None
  end.

(** ** Element-wise operators with two operands: their names; [Mod] without
    the [fmod] attribute. *)
Definition binary_node (n : rnode) : option bop :=
  if String.eqb (ntype n) "Add" then Some OAdd else if String.eqb (ntype n) "Sub" then Some OSub
  else if String.eqb (ntype n) "Mul" then Some OMul else if String.eqb (ntype n) "Div" then Some ODiv
  else if String.eqb (ntype n) "Mod" then match int_attr n "fmod" 0 with Some 0 => Some OMod | _ => None end
  else if String.eqb (ntype n) "Equal" then Some OEqual else if String.eqb (ntype n) "Greater" then Some OGreater
  else if String.eqb (ntype n) "GreaterOrEqual" then Some OGreaterOrEqual else if String.eqb (ntype n) "Less" then Some OLess
  else if String.eqb (ntype n) "LessOrEqual" then Some OLessOrEqual else if String.eqb (ntype n) "And" then Some OAnd
  else if String.eqb (ntype n) "Or" then Some OOr else if String.eqb (ntype n) "Xor" then Some OXor
  else if String.eqb (ntype n) "Max" then Some OMax else if String.eqb (ntype n) "Min" then Some OMin
  else if String.eqb (ntype n) "BitwiseAnd" then Some OBitAnd else if String.eqb (ntype n) "BitwiseOr" then Some OBitOr
  else if String.eqb (ntype n) "BitwiseXor" then Some OBitXor
  else if String.eqb (ntype n) "BitShift" then
    match get_attr n "direction" with
    | Some (AString s) => if String.eqb s "LEFT" then Some OShiftLeft else if String.eqb s "RIGHT" then Some OShiftRight else None
    | _ => None end
  else None.

(** ** A node: the values of its inputs and of its output. *)
Inductive onnx_node (n : rnode) : list otensor -> otensor -> Prop :=
| on_binary op d x y z : binary_node n = Some op -> onnx_binary d op x y = Some z ->
    onnx_node n [(d, x); (d, y)] (if is_compare op then BoolT else d, z)
| on_shape d x s e : ntype n = "Shape"%string ->
    int_attr n "start" 0 = Some s -> int_attr n "end" (Z.of_nat (length (tshape x))) = Some e ->
    onnx_node n [(d, x)] (I64, vec (map Z.of_N (shape_value (tshape x) s e)))
| on_gather d x di ix a z : ntype n = "Gather"%string -> int_attr n "axis" 0 = Some a ->
    (di = I64 \/ di = I32) -> onnx_gather a x ix = Some z -> onnx_node n [(d, x); (di, ix)] (d, z)
| on_concat d xs a z : ntype n = "Concat"%string -> get_attr n "axis" = Some (AInt a) ->
    onnx_concat a xs z -> onnx_node n (map (pair d) xs) (d, z)
| on_slice d x rest cuts z : ntype n = "Slice"%string -> slice_inputs ((d, x) :: rest) = Some cuts ->
    Forall (fun t => fst t = I64 \/ fst t = I32) rest ->
    valid_axes (length (tshape x)) (map c_axis cuts) -> (forall c, In c cuts -> c_step c <> 0) ->
    onnx_slice cuts x = Some z -> onnx_node n ((d, x) :: rest) (d, z)
| on_squeeze d x rest axes s : ntype n = "Squeeze"%string -> axes_of n ((d, x) :: rest) = Some axes ->
    match axes with Some l => squeeze_of l (tshape x) s | None => squeeze_all_of (tshape x) s end ->
    onnx_node n ((d, x) :: rest) (d, mkT s (tdata x))
| on_unsqueeze d x rest l s : ntype n = "Unsqueeze"%string -> axes_of n ((d, x) :: rest) = Some (Some l) ->
    unsqueeze_of l (tshape x) s -> onnx_node n ((d, x) :: rest) (d, mkT s (tdata x))
| on_where d c x y z : ntype n = "Where"%string -> onnx_where c x y = Some z ->
    onnx_node n [(BoolT, c); (d, x); (d, y)] (d, z)
| on_cast d x d' l : ntype n = "Cast"%string -> get_attr n "to" = Some (AInt (type_number d')) ->
    mapo (cast_elt d') (tdata x) = Some l -> onnx_node n [(d, x)] (d', mkT (tshape x) l)
| on_reshape d x req l az s : ntype n = "Reshape"%string -> as_ints req = Some l -> int_attr n "allowzero" 0 = Some az ->
    reshape_of (az =? 1) (tshape x) l s -> onnx_node n [(d, x); (I64, req)] (d, mkT s (tdata x)).

(** ** A straight-line graph: values by name; a constant argument is the
    constant, whatever its name. *)
Definition oenv : Type := string -> option otensor.
Definition bind {A} (e : string -> option A) (x : string) (v : A) : string -> option A :=
  fun y => if String.eqb y x then Some v else e y.
Section Graph.
  Variable constant : arg -> option otensor.
  Definition input_of (e : oenv) (a : arg) : option otensor :=
    match constant a with Some t => Some t | None => e (aname a) end.
  Inductive runs (step : rnode -> list otensor -> otensor -> Prop) : list rnode -> oenv -> oenv -> Prop :=
  | runs_nil e : runs step [] e e
  | runs_cons n ns e e' o ins t : noutputs n = [o] -> mapo (input_of e) (ninputs n) = Some ins ->
      step n ins t -> runs step ns (bind e (aname o) t) e' -> runs step (n :: ns) e e'.
End Graph.

(** ** The nodes the theorems are about.  [known a]: the value of the argument
    is available when the code is generated; [run_time a]: the argument is a
    variable of the generated program.  What is left out, with a counterexample
    for each in ShapeRun_Props: Shape with bounds outside the rank; indices of
    32 bits or in a device tensor; Concat of arrays and tensors; Slice
    backwards, or with the start after the end; Squeeze to a boolean; Unsqueeze
    of 32-bit integers; Where on arrays of different lengths, or with a device
    condition and scalars; Cast to other integer types; Reshape to [0]. *)
Definition run_time (a : arg) : Prop := match asrc a with VStatic _ => False | _ => True end.
Section Covered.
  Variable known : arg -> Prop.
  Inductive covered (n : rnode) : list otensor -> Prop :=
  | cov_binary op a b x y : binary_node n = Some op -> ninputs n = [a; b] -> run_time a -> run_time b ->
      combination op (aty a) (aty b) -> covered n [x; y]
  | cov_shape a y d x s e : ntype n = "Shape"%string -> ninputs n = [a] -> run_time a -> aty a = TensorT y ->
      let r := Z.of_nat (length (tshape x)) in
      int_attr n "start" 0 = Some s -> int_attr n "end" r = Some e ->
      - r <= s <= r -> - r <= e <= r -> from_end r s <= from_end r e ->
      r <= 9223372036854775807 -> Forall (fun m => Z.of_N m <= 9223372036854775807) (tshape x) -> covered n [(d, x)]
  | cov_shape_array a k x : ntype n = "Shape"%string -> ninputs n = [a] -> run_time a -> aty a = ShapeT k ->
      get_attr n "start" = None -> get_attr n "end" = None -> Z.of_N k <= 9223372036854775807 -> covered n [x]
  | cov_gather_scalar a b k x ix : ntype n = "Gather"%string -> ninputs n = [a; b] -> run_time a -> run_time b ->
      aty a = ShapeT k -> aty b = ScalarNative I64 \/ aty b = ScalarTensor I64 -> covered n [(I64, x); ix]
  | cov_gather_array a b k m x ix : ntype n = "Gather"%string -> ninputs n = [a; b] -> run_time a -> run_time b ->
      aty a = ShapeT k -> aty b = ShapeT m -> covered n [x; ix]
  | cov_concat xs : ntype n = "Concat"%string -> Forall (fun a => run_time a /\ exists k, aty a = ShapeT k) (ninputs n) ->
      covered n xs
  | cov_slice a rest k x xs c : ntype n = "Slice"%string -> ninputs n = a :: rest -> run_time a -> aty a = ShapeT k ->
      Forall known rest -> slice_inputs (x :: xs) = Some [c] ->
      0 < c_step c < 4611686018427387904 -> Z.of_N k < 4611686018427387904 ->
      clamp 0 (Z.of_N k) (from_end (Z.of_N k) (c_start c)) <= clamp 0 (Z.of_N k) (from_end (Z.of_N k) (c_stop c)) ->
      covered n (x :: xs)
  | cov_squeeze a rest k x xs : ntype n = "Squeeze"%string -> ninputs n = a :: rest -> run_time a -> aty a = ShapeT k ->
      (k = 1%N -> fst x = I64 /\ axes_of n (x :: xs) <> Some (Some [])) -> covered n (x :: xs)
  | cov_unsqueeze a rest x xs l : ntype n = "Unsqueeze"%string -> ninputs n = a :: rest -> run_time a ->
      aty a = ScalarNative I64 \/ aty a = ScalarTensor I64 -> Forall known rest ->
      axes_of n (x :: xs) = Some (Some [l]) -> covered n (x :: xs)
  | cov_where_items a b c k u x y : ntype n = "Where"%string -> ninputs n = [a; b; c] ->
      run_time a -> run_time b -> run_time c -> aty a = ShapeT k -> aty b = ShapeT k -> aty c = ShapeT k ->
      covered n [u; x; y]
  | cov_where_whole a b c k u x y : ntype n = "Where"%string -> ninputs n = [a; b; c] ->
      run_time a -> run_time b -> run_time c -> aty a = ScalarNative BoolT \/ aty a = ScalarTensor BoolT ->
      aty b = ShapeT k -> aty c = ShapeT k -> covered n [u; x; y]
  | cov_where_scalar a b c d u x y : ntype n = "Where"%string -> ninputs n = [a; b; c] ->
      run_time a -> run_time b -> run_time c -> aty a = ScalarNative BoolT ->
      aty b = ScalarNative d -> aty c = ScalarNative d -> covered n [u; x; y]
  | cov_cast a k d x : ntype n = "Cast"%string -> ninputs n = [a] -> run_time a -> aty a = ShapeT k ->
      d = I64 \/ d = BoolT -> get_attr n "to" = Some (AInt (type_number d)) -> covered n [x]
  | cov_reshape a b k x req l : ntype n = "Reshape"%string -> ninputs n = [a; b] -> run_time a -> known b ->
      aty a = ShapeT k -> as_ints (snd req) = Some l -> l = [] /\ fst x = I64 \/ (exists v, l = [v] /\ v <> 0) ->
      covered n [x; req].
End Covered.
