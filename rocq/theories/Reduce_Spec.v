(** What ONNX prescribes for reductions of integers and booleans (ReduceSum,
    ReduceProd, ReduceMax, ReduceMin, ReduceSumSquare, ReduceL1).  Nothing here
    mentions the generated code.  Reductions of real numbers: ReduceR_Spec. *)
From Verif Require Export TensorRun_Spec.
Import Tensor_Spec BinOps_Spec RankOps_Spec ShapeRun_Spec.
Local Open Scope N_scope.

(** The elements that are combined into the one at [j]: those whose index is
    [j]'s along every axis that is not reduced. *)
Definition reduced_axis (r : nat) (axes : list Z) (k : nat) : bool :=
  match axes with [] => true | _ => existsb (fun a => Nat.eqb (position r a) k) axes end.
Definition agree (h : nat -> bool) (r : nat) (i j : list N) : bool :=
  forallb (fun k => h k || (nth k i 0 =? nth k j 0)) (seq 0 r).
Definition group (h : nat -> bool) (s j : list N) : list (list N) := filter (fun i => agree h (length s) i j) (indices s).

(** [z] is [x] reduced along the axes (all of them when none is named): an
    element for every index of the shape in which these axes have size one,
    which are dropped from the shape unless they are kept. *)
Definition reduces {A} (combine : list A -> option A) (axes : list Z) (keep : bool) (x z : tensor A) : Prop :=
  exists k, reduce_of axes true (tshape x) (tshape k) /\
    tab (tshape k) (fun j => match mapo (get x) (group (reduced_axis (length (tshape x)) axes) (tshape x) j) with
                             | Some l => combine l
                             | None => None end) = Some k /\
    reduce_of axes keep (tshape x) (tshape z) /\ tdata z = tdata k.

(** ** Integers and booleans.  A result that does not fit the type, and the
    maximum of nothing, are not defined. *)
Inductive rop := RSum | RProd | RMax | RMin | RSumSquare | RL1.
Definition fitted (d : dtype) (z : Z) : option elt := if BinOps_Spec.fits d (EI z) then Some (EI z) else None.
Definition zprod (l : list Z) : Z := fold_right Z.mul 1%Z l.
Definition greatest (l : list Z) : option Z := match l with [] => None | z :: r => Some (fold_right Z.max z r) end.
Definition least (l : list Z) : option Z := match l with [] => None | z :: r => Some (fold_right Z.min z r) end.
Definition of_ints (d : dtype) (op : rop) (l : list Z) : option elt :=
  match op with
  | RSum => fitted d (zsum l)
  | RProd => fitted d (zprod l)
  | RMax => option_map EI (greatest l)
  | RMin => option_map EI (least l)
  | RSumSquare => fitted d (zsum (map (fun z => z * z)%Z l))
  | RL1 => fitted d (zsum (map Z.abs l))
  end.
Definition of_bools (op : rop) (l : list bool) : option elt :=
  match op, l with
  | RMax, _ :: _ => Some (EB (existsb (fun b => b) l))
  | RMin, _ :: _ => Some (EB (forallb (fun b => b) l))
  | _, _ => None
  end.
Definition bool_of (x : elt) : option bool := match x with EB b => Some b | _ => None end.
Definition summary (d : dtype) (op : rop) (l : list elt) : option elt :=
  match d with
  | BoolT => match mapo bool_of l with Some bs => of_bools op bs | None => None end
  | _ => match mapo int_of l with Some zs => of_ints d op zs | None => None end
  end.

(** ** A node.  [noop]: with [noop_with_empty_axes] and no axes nothing happens
    (stated only for the reductions that leave a single element as it is). *)
Definition rop_of (ty : string) : option rop :=
  if String.eqb ty "ReduceSum" then Some RSum
  else if String.eqb ty "ReduceProd" then Some RProd
  else if String.eqb ty "ReduceMax" then Some RMax
  else if String.eqb ty "ReduceMin" then Some RMin
  else if String.eqb ty "ReduceSumSquare" then Some RSumSquare
  else if String.eqb ty "ReduceL1" then Some RL1
  else None.
Definition simple (op : rop) : bool := match op with RSumSquare | RL1 => false | _ => true end.
(** The axes: an attribute, or a second input; without either all of them. *)
Definition axes_named (n : rnode) (rest : list otensor) : option (list Z) :=
  match get_attr n "axes", rest with
  | Some (AInts l), [] => Some l
  | None, [] => Some []
  | None, [(I64, ax)] => as_ints ax
  | _, _ => None
  end.
Inductive onnx_reduce_node (n : rnode) : list otensor -> list otensor -> Prop :=
| or_reduce op d x rest axes keep z : rop_of (ntype n) = Some op -> axes_named n rest = Some axes ->
    int_attr n "keepdims" 1%Z = Some keep -> keep = 0%Z \/ keep = 1%Z ->
    axes <> [] \/ int_attr n "noop_with_empty_axes" 0%Z = Some 0%Z ->
    reduces (summary d op) axes (keep =? 1)%Z x z ->
    onnx_reduce_node n ((d, x) :: rest) [(d, z)]
| or_noop op d x rest : rop_of (ntype n) = Some op -> simple op = true -> axes_named n rest = Some [] ->
    int_attr n "noop_with_empty_axes" 0%Z = Some 1%Z ->
    onnx_reduce_node n ((d, x) :: rest) [(d, x)].

(** ** The nodes the theorem is about.  Left out: axes that are computed at run
    time, [noop_with_empty_axes] without axes, numbers of which all axes are
    named and dropped (all three fail, see Reduce_Props), the maximum of an empty tensor, and sums and
    products of which some part may leave the type. *)
Definition parts_fit (d : dtype) (op : rop) (l : list Z) : Prop :=
  match op with
  | RSum => BinOps_Spec.fits d (EI (zsum (map Z.abs l))) = true
  | RProd => BinOps_Spec.fits d (EI (zprod (map (fun z => Z.max 1 (Z.abs z)) l))) = true
  | _ => True
  end.
Section Covered.
  Variable known : arg -> Prop.
  Inductive covered_reduce (n : rnode) : list otensor -> Prop :=
  | cov_reduce op a args d x rest axes keep : rop_of (ntype n) = Some op -> ninputs n = a :: args ->
      is_tensor a (length (tshape x)) -> Forall known args -> axes_named n rest = Some axes -> int_attr n "keepdims" 1%Z = Some keep ->
      axes <> [] \/ int_attr n "noop_with_empty_axes" 0%Z = Some 0%Z ->
      d = BoolT \/ keep = 1%Z \/ (length axes < length (tshape x))%nat ->
      (d = BoolT -> op = RMax \/ op = RMin) ->
      (op = RMax \/ op = RMin -> prodN (tshape x) <> 0) ->
      (forall j l zs, mapo (get x) (group (reduced_axis (length (tshape x)) axes) (tshape x) j) = Some l -> mapo int_of l = Some zs -> parts_fit d op zs) ->
      covered_reduce n ((d, x) :: rest).
End Covered.
