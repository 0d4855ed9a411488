(** What ONNX says about the operators that are folded, element by element. *)
From Coq Require Import Reals.
From Flocq Require Import Core BinarySingleNaN.
From Verif Require Export Fold_Model Tensor_Spec RankOps_Spec IR_Spec Passes_Spec.
Local Open Scope N_scope.

Definition in64 (z : Z) : Prop := (min64 <= z <= max64)%Z.
Definition in32 (z : Z) : Prop := (min32 <= z <= max32)%Z.

(** A constant holds as many elements as its shape says, in the range of their type. *)
Definition fd_wf (x : fdata) : Prop :=
  N.of_nat (vals_len (fd_vals x)) = prodN (fd_shape x) /\
  match fd_vals x with XI64 l => Forall in64 l | XI32 l => Forall in32 l
  | XOther d _ => d <> I64 /\ d <> I32 /\ d <> F32 /\ d <> F64 | _ => True end.

(** [r] is [x op y] with numpy broadcasting: [op a b c] says [c] is a result of [a op b]. *)
Definition lifted {A B C} (op : A -> B -> C -> Prop) (x : tensor A) (y : tensor B) (r : tensor C) : Prop :=
  twf r /\ bshape (tshape x) (tshape y) = Some (tshape r) /\
  forall idx, valid_idx (tshape r) idx ->
    exists a b c, get x (bproj (tshape x) idx) = Some a /\ get y (bproj (tshape y) idx) = Some b /\ get r idx = Some c /\ op a b c.
(** [r] is [x] with every element mapped. *)
Definition mapped {A B} (op : A -> B -> Prop) (x : tensor A) (r : tensor B) : Prop :=
  tshape r = tshape x /\ Forall2 op (tdata x) (tdata r).

(** Element-wise arithmetic on constants of one type; integer results must be
    exact and in range (ONNX leaves overflow undefined), division truncates. *)
Definition exact (range : Z -> Prop) (op : Z -> Z -> Z -> Prop) (a b c : Z) : Prop := op a b c /\ range c.
Definition arith (zop : Z -> Z -> Z -> Prop) (op32 : f32 -> f32 -> f32) (op64 : f64 -> f64 -> f64) (x y r : fdata) : Prop :=
  match fd_vals x, fd_vals y, fd_vals r with
  | XI64 a, XI64 b, XI64 c => lifted (exact in64 zop) (mkT (fd_shape x) a) (mkT (fd_shape y) b) (mkT (fd_shape r) c)
  | XI32 a, XI32 b, XI32 c => lifted (exact in32 zop) (mkT (fd_shape x) a) (mkT (fd_shape y) b) (mkT (fd_shape r) c)
  | XF32 a, XF32 b, XF32 c => lifted (fun u v w => w = op32 u v) (mkT (fd_shape x) a) (mkT (fd_shape y) b) (mkT (fd_shape r) c)
  | XF64 a, XF64 b, XF64 c => lifted (fun u v w => w = op64 u v) (mkT (fd_shape x) a) (mkT (fd_shape y) b) (mkT (fd_shape r) c)
  | _, _, _ => False
  end.
Definition add_of := arith (fun a b c => c = (a + b)%Z) add32 add64.
Definition sub_of := arith (fun a b c => c = (a - b)%Z) sub32 sub64.
Definition mul_of := arith (fun a b c => c = (a * b)%Z) mul32 mul64.
Definition div_of := arith (fun a b c => b <> 0%Z /\ c = Z.quot a b) div32 div64.

Definition neg_of (x r : fdata) : Prop :=
  match fd_vals x, fd_vals r with
  | XI64 a, XI64 c => mapped (fun u w => w = (- u)%Z /\ in64 w) (mkT (fd_shape x) a) (mkT (fd_shape r) c)
  | XI32 a, XI32 c => mapped (fun u w => w = (- u)%Z /\ in32 w) (mkT (fd_shape x) a) (mkT (fd_shape r) c)
  | XF32 a, XF32 c => mapped (fun u w => w = neg32 u) (mkT (fd_shape x) a) (mkT (fd_shape r) c)
  | XF64 a, XF64 c => mapped (fun u w => w = neg64 u) (mkT (fd_shape x) a) (mkT (fd_shape r) c)
  | _, _ => False
  end.
Definition sqrt_of (x r : fdata) : Prop :=
  match fd_vals x, fd_vals r with
  | XF32 a, XF32 c => mapped (fun u w => w = sqrt32 u) (mkT (fd_shape x) a) (mkT (fd_shape r) c)
  | XF64 a, XF64 c => mapped (fun u w => w = sqrt64 u) (mkT (fd_shape x) a) (mkT (fd_shape r) c)
  | _, _ => False
  end.

(** Conversions.  [nearest32 v r]: [r] is the float32 nearest to the real [v];
    [whole lo hi x z]: [z] is the finite [x] with its fraction dropped, and lies
    between [lo] and [hi] (ONNX leaves the other cases undefined). *)
Definition nearest32 (v : R) (r : f32) : Prop :=
  is_finite r = true /\ B2R r = round radix2 (FLT_exp (-149) 24) ZnearestE v.
Definition nearest64 (v : R) (r : f64) : Prop :=
  is_finite r = true /\ B2R r = round radix2 (FLT_exp (-1074) 53) ZnearestE v.
Definition whole {p e} (range : Z -> Prop) (x : binary_float p e) (z : Z) : Prop :=
  is_finite x = true /\ z = Ztrunc (B2R x) /\ range z.
Definition cast_of (x r : fdata) : Prop :=
  (fd_dtype r = fd_dtype x /\ r = x) \/
  fd_dtype r <> fd_dtype x /\
  match fd_vals x, fd_vals r with
  | XI64 a, XF32 c | XI32 a, XF32 c => mapped (fun u w => w = f32_of_Z u) (mkT (fd_shape x) a) (mkT (fd_shape r) c)
  | XI64 a, XF64 c | XI32 a, XF64 c => mapped (fun u w => w = f64_of_Z u) (mkT (fd_shape x) a) (mkT (fd_shape r) c)
  | XF64 a, XF32 c => mapped (fun u w => w = as_f32 u) (mkT (fd_shape x) a) (mkT (fd_shape r) c)
  | XF32 a, XF64 c => mapped (fun u w => w = as_f64 u) (mkT (fd_shape x) a) (mkT (fd_shape r) c)
  | XF32 a, XI64 c => mapped (whole in64) (mkT (fd_shape x) a) (mkT (fd_shape r) c)
  | XF64 a, XI64 c => mapped (whole in64) (mkT (fd_shape x) a) (mkT (fd_shape r) c)
  | XF32 a, XI32 c => mapped (whole in32) (mkT (fd_shape x) a) (mkT (fd_shape r) c)
  | XF64 a, XI32 c => mapped (whole in32) (mkT (fd_shape x) a) (mkT (fd_shape r) c)
  | _, _ => True  (* other types: whatever ONNX says *)
  end.

(** Concatenation along the first axis: row [i] of the result is the row of the
    part it falls into. *)
Fixpoint row {A} (parts : list (tensor A)) (i : N) : option (tensor A * N) :=
  match parts with
  | [] => None
  | p :: r => let d := hd 0 (tshape p) in if i <? d then Some (p, i) else row r (i - d)
  end.
Definition stacked {A} (parts : list (tensor A)) (r : tensor A) : Prop :=
  exists rest, Forall (fun p => twf p /\ exists d, tshape p = d :: rest) parts /\ twf r /\
    tshape r = total (map (fun p => hd 0 (tshape p)) parts) :: rest /\
    forall i idx, valid_idx (tshape r) (i :: idx) ->
      exists p j, row parts i = Some (p, j) /\ get r (i :: idx) = get p (j :: idx).
Definition concat0_of (xs : list fdata) (r : fdata) : Prop :=
  match fd_vals r with
  | XI64 c => exists ps, Forall2 (fun x a => fd_vals x = XI64 (tdata a) /\ fd_shape x = tshape a) xs ps /\ stacked ps (mkT (fd_shape r) c)
  | XI32 c => exists ps, Forall2 (fun x a => fd_vals x = XI32 (tdata a) /\ fd_shape x = tshape a) xs ps /\ stacked ps (mkT (fd_shape r) c)
  | XF32 c => exists ps, Forall2 (fun x a => fd_vals x = XF32 (tdata a) /\ fd_shape x = tshape a) xs ps /\ stacked ps (mkT (fd_shape r) c)
  | XF64 c => exists ps, Forall2 (fun x a => fd_vals x = XF64 (tdata a) /\ fd_shape x = tshape a) xs ps /\ stacked ps (mkT (fd_shape r) c)
  | XOther d _ => Forall (fun x => fd_dtype x = d) xs
  end.

(** Reshape, Squeeze and Unsqueeze keep the elements in row-major order. *)
Definition reshaped (x r : fdata) : Prop := fd_vals r = fd_vals x.

(** The operators folding evaluates, on the values of the inputs that are there. *)
Definition onnx_op (t : string) (attrs : list (string * attr)) (ins : list fdata) (r : fdata) : Prop :=
  Forall fd_wf ins /\ fd_wf r /\
  (t = "Add" -> exists x y, ins = [x; y] /\ add_of x y r)%string /\
  (t = "Sub" -> exists x y, ins = [x; y] /\ sub_of x y r)%string /\
  (t = "Mul" -> exists x y, ins = [x; y] /\ mul_of x y r)%string /\
  (t = "Div" -> exists x y, ins = [x; y] /\ div_of x y r)%string /\
  (t = "Neg" -> exists x, ins = [x] /\ neg_of x r)%string /\
  (t = "Sqrt" -> exists x, ins = [x] /\ sqrt_of x r)%string /\
  (t = "Cast" -> exists x, ins = [x] /\ cast_of x r)%string /\
  (t = "Concat" -> (sget attrs "axis" = None \/ sget attrs "axis" = Some (AInt 0)) -> concat0_of ins r)%string /\
  (t = "Reshape" \/ t = "Squeeze" \/ t = "Unsqueeze" -> exists x more, ins = x :: more /\ reshaped x r)%string.

(** The type says exactly which constants occur: element type and shape. *)
Definition exact_type (ty : argty) (d : fdata) : Prop :=
  match ty with
  | ScalarTensor t | ScalarNative t => fd_dtype d = t /\ fd_shape d = []
  | ShapeT r => fd_dtype d = I64 /\ fd_shape d = [r]
  | TensorT t => fd_dtype d = tt_dtype t /\ tt_shape t = Some (map Some (fd_shape d))
  end.

(** ** Graphs with constants *)
Definition present {A} (vs : list (option A)) : list A := flat_map (fun v => match v with Some x => [x] | None => [] end) vs.

Definition folded_ops : list string :=
  ["Add"; "Sub"; "Mul"; "Div"; "Neg"; "Sqrt"; "Cast"; "Concat"; "Reshape"; "Squeeze"; "Unsqueeze"]%string.

(** An interpretation of operators in which Constant returns its payload and the
    folded operators do what ONNX says. *)
Definition constants_mean (sem : string -> list (string * attr) -> nat -> list (option fdata) -> option (list fdata)) : Prop :=
  forall attrs v, sem "Constant"%string attrs 1%nat [Some v] = Some [v].
Definition folded_mean (sem : string -> list (string * attr) -> nat -> list (option fdata) -> option (list fdata)) : Prop :=
  forall t attrs vs outs, In t folded_ops -> sem t attrs 1%nat vs = Some outs ->
    exists r, outs = [r] /\ onnx_op t attrs (present vs) r.

(** Data ids are handed out in order, and a name marked as a constant is the
    output of the Constant node that carries the data registered under the name. *)
Definition store_ok (s : store) : Prop :=
  (forall id d, st_get s id = Some d -> id < st_next s) /\
  (forall x id, sget (st_const s) x = Some id -> id < st_next s).
Definition linked (s : store) (nodes : list rnode) : Prop :=
  forall n a id, In n nodes -> In a (ninputs n) -> asrc a = VConstant -> sget (st_const s) (aname a) = Some id ->
    exists m i o, In m nodes /\ ntype m = "Constant"%string /\ ninputs m = [i] /\ asrc i = VStatic id /\
      noutputs m = [o] /\ aname o = aname a.

(** Names computed from constants and shapes alone. *)
Inductive settled (nodes : list rnode) : string -> Prop :=
| settled_shape n x : In n nodes -> In x (map aname (noutputs n)) -> ntype n = "Shape"%string -> settled nodes x
| settled_node n x : In n nodes -> In x (map aname (noutputs n)) ->
    (forall i, In i (ninputs n) -> asrc i = VDynamic -> settled nodes (aname i)) -> settled nodes x.
Definition settled_inputs (nodes : list rnode) (n : rnode) : Prop :=
  forall i, In i (ninputs n) -> asrc i = VDynamic -> settled nodes (aname i).

(** Nodes of these operators have one output. *)
Definition single_outputs (ops : list string) (nodes : list rnode) : Prop :=
  forall n, In n nodes -> In (ntype n) ops -> exists o, noutputs n = [o].
(** The inferred types of the nodes of these operators that compute with
    constants and shapes alone are those of the values computed. *)
Definition exactly_typed (ops : list string) (nodes : list rnode) (e : string -> option fdata) : Prop :=
  forall n o r, In n nodes -> In (ntype n) ops -> settled_inputs nodes n -> noutputs n = [o] ->
    e (aname o) = Some r -> exact_type (aty o) r.

(** ** Shape, and Gather and Slice of a list *)
Definition attr_int (attrs : list (string * attr)) (k : string) (d : Z) : Z :=
  match sget attrs k with Some (AInt z) => z | _ => d end.

(** The dimensions of [x] from [start] to [end]. *)
Definition shape_of (attrs : list (string * attr)) (x r : fdata) : Prop :=
  let l := map Z.of_N (shape_value (fd_shape x) (attr_int attrs "start" 0) (attr_int attrs "end" (Z.of_nat (length (fd_shape x))))) in
  r = mkFD [N.of_nat (length l)] (XI64 l).

(** Element [k] of a list, counted from the end when negative. *)
Definition element (l : list Z) (k z : Z) : Prop :=
  (- Z.of_nat (length l) <= k < Z.of_nat (length l))%Z /\
  nth_error l (Z.to_nat (if k <? 0 then k + Z.of_nat (length l) else k)%Z) = Some z.
Definition gather_list (x idx r : fdata) : Prop :=
  forall l, fd_vals x = XI64 l ->
    exists ks zs, to_i64_vec idx = Some ks /\ Forall2 (element l) ks zs /\ r = mkFD (fd_shape idx) (XI64 zs) /\ fd_wf idx.

(** The elements a slice takes, in the order of its step. *)
Definition slice_list (l : list Z) (start stop step : Z) : list Z :=
  let ks := filter (fun k => taken (Z.of_nat (length l)) start stop step (Z.of_nat k)) (seq 0 (length l)) in
  map (fun k => nth k l 0%Z) (if (0 <? step)%Z then ks else rev ks).
(** Slice of a list: one start and end, the axis (if given) 0, the step (if given). *)
Definition slice_1d (x : fdata) (starts ends : fdata) (axes steps : option fdata) (r : fdata) : Prop :=
  forall l, fd_vals x = XI64 l ->
    exists a b step, to_i64_vec starts = Some [a] /\ to_i64_vec ends = Some [b] /\
      (match steps with Some t => to_i64_vec t = Some [step] | None => step = 1%Z end) /\ step <> 0%Z /\
      (match axes with Some t => to_i64_vec t = Some [0%Z] \/ to_i64_vec t = Some [(-1)%Z] | None => True end) /\
      r = mkFD [N.of_nat (length (slice_list l a b step))] (XI64 (slice_list l a b step)).

Definition shapes_mean (sem : string -> list (string * attr) -> nat -> list (option fdata) -> option (list fdata)) : Prop :=
  (forall attrs vs outs, sem "Shape"%string attrs 1%nat vs = Some outs -> exists x r, vs = [Some x] /\ outs = [r] /\ shape_of attrs x r) /\
  (forall attrs vs outs, sem "Gather"%string attrs 1%nat vs = Some outs ->
     exists x idx r, vs = [Some x; Some idx] /\ outs = [r] /\ (attr_int attrs "axis" 0 = 0%Z -> gather_list x idx r)) /\
  (forall attrs vs outs, sem "Slice"%string attrs 1%nat vs = Some outs ->
     exists x a b more r, vs = Some x :: Some a :: Some b :: more /\ (length more <= 2)%nat /\ outs = [r] /\
       slice_1d x a b (nth 0 more None) (nth 1 more None) r).

(** The statically known shapes of the inputs of Shape nodes are right. *)
Definition shapes_known (nodes : list rnode) (static : N -> option fdata) (e : string -> option fdata) : Prop :=
  forall n i more x s, In n nodes -> ntype n = "Shape"%string -> ninputs n = i :: more ->
    arg_eval static e i = Some (Some x) -> ty_shape_known (aty i) = Some s -> fd_shape x = s.
(** Embedded and absent inputs do not carry the name of an output. *)
Definition apart (nodes : list rnode) : Prop :=
  forall n i, In n nodes -> In i (ninputs n) ->
    match asrc i with VStatic _ | VOptional => ~ In (aname i) (flat_map (fun m => map aname (noutputs m)) nodes) | _ => True end.

(** No Shape node stops early, and constant steps of Slice nodes that compute
    with constants and shapes alone go forward. *)
Definition whole_shapes (nodes : list rnode) : Prop :=
  forall m, In m nodes -> ntype m = "Shape"%string -> sget (nattrs m) "end" = None.
Definition forward_slices (s : store) (nodes : list rnode) : Prop :=
  forall n a v ks, In n nodes -> ntype n = "Slice"%string -> settled_inputs nodes n -> nth_error (ninputs n) 4 = Some a ->
    st_value s a = Some v -> to_i64_vec v = Some ks -> Forall (fun k => 0 < k)%Z ks.
Definition shape_ops : list string := ["Shape"; "Gather"; "Slice"]%string.

(** The four binary operators by name. *)
Definition arithmetic (t : string) (x y r : fdata) : Prop :=
  ((t = "Add" /\ add_of x y r) \/ (t = "Sub" /\ sub_of x y r) \/ (t = "Mul" /\ mul_of x y r) \/ (t = "Div" /\ div_of x y r))%string.

(** [r] is the float32 nearest to the real [v], ties to even; too large values
    become the infinity of their sign. *)
Definition near32 (v : R) : R := round radix2 (FLT_exp (-149) 24) ZnearestE v.
Definition rounded32 (v : R) (r : f32) : Prop :=
  ((Rabs (near32 v) < bpow radix2 128)%R -> nearest32 v r) /\
  ((bpow radix2 128 <= Rabs (near32 v))%R -> r = B754_infinity (Rlt_bool v 0)).
