(** What ONNX prescribes for operators that move, repeat or add up the elements
    of tensors, and for graphs made of them, of the operators on shapes
    (ShapeRun_Spec) and of GatherND and ScatterND (Index_Spec).  Nothing here
    mentions the generated code. *)
From Verif Require Export Permute_Spec Index_Spec.
Local Open Scope N_scope.

(** [idx] with [k] at position [a]. *)
Definition at_axis (a : nat) (k : N) (idx : list N) : list N := firstn a idx ++ [k] ++ skipn (S a) idx.

(** ** Expand: broadcasting to the requested shape and back. *)
Definition onnx_expand (req : list Z) (x : tensor elt) : option (tensor elt) :=
  if forallb (fun v => 0 <=? v)%Z req then
    match bshape (tshape x) (map Z.to_N req) with
    | Some s => tab s (fun idx => get x (bproj (tshape x) idx))
    | None => None
    end
  else None.

(** ** Tile *)
Definition onnx_tile (reps : list Z) (x : tensor elt) : option (tensor elt) :=
  if Nat.eqb (length reps) (length (tshape x)) && forallb (fun v => 0 <=? v)%Z reps then
    tab (map (fun dr => fst dr * Z.to_N (snd dr)) (combine (tshape x) reps))
        (fun idx => get x (map (fun di => snd di mod fst di) (combine (tshape x) idx)))
  else None.

(** ** Split: the parts one after the other along the axis. *)
Definition part_of (a : nat) (x : tensor elt) (from size : N) : option (tensor elt) :=
  tab (at_axis a size (tshape x)) (fun idx => get x (at_axis a (from + nth a idx 0) idx)).
Fixpoint parts_from (a : nat) (x : tensor elt) (from : N) (sizes : list N) : option (list (tensor elt)) :=
  match sizes with
  | [] => Some []
  | d :: r => match part_of a x from d, parts_from a x (from + d) r with
              | Some z, Some zs => Some (z :: zs)
              | _, _ => None
              end
  end.
Definition onnx_split (axis : Z) (sizes : list N) (x : tensor elt) : option (list (tensor elt)) :=
  let a := position (length (tshape x)) axis in
  if axis_ok (length (tshape x)) axis && (total sizes =? nth a (tshape x) 0) then parts_from a x 0 sizes else None.
(** The sizes: the second input, the attribute, or [outs] equal chunks (the
    number of outputs may be stated again). *)
Definition sizes_given (n : rnode) (rest : list otensor) (d : N) (outs : nat) (sizes : list N) : Prop :=
  match rest with
  | [(I64, s)] => exists l, as_ints s = Some l /\ Forall (fun z => 0 <= z)%Z l /\ sizes = map Z.to_N l
  | [] => match get_attr n "split" with
          | Some (AInts l) => Forall (fun z => 0 <= z)%Z l /\ sizes = map Z.to_N l
          | None => (get_attr n "num_outputs" = None \/ get_attr n "num_outputs" = Some (AInt (Z.of_nat outs))) /\
                    outs <> 0%nat /\ onnx_even d (N.of_nat outs) sizes
          | Some _ => False
          end
  | _ => False
  end.

(** ** DepthToSpace and SpaceToDepth *)
Definition onnx_depth_to_space (crd : bool) (bs : N) (x : tensor elt) : option (tensor elt) :=
  match tshape x with
  | [b; c; h; w] =>
      if (0 <? bs) && (c mod (bs * bs) =? 0) then
        let c' := c / (bs * bs) in
        tab [b; c'; h * bs; w * bs]
            (fun idx => match idx with
                        | [n; k; y; v] =>
                            let i := y mod bs in let j := v mod bs in
                            get x [n; if crd then k * (bs * bs) + (i * bs + j) else (i * bs + j) * c' + k; y / bs; v / bs]
                        | _ => None end)
      else None
  | _ => None
  end.
Definition onnx_space_to_depth (bs : N) (x : tensor elt) : option (tensor elt) :=
  match tshape x with
  | [b; c; h; w] =>
      if (0 <? bs) && (h mod bs =? 0) && (w mod bs =? 0) then
        tab [b; c * (bs * bs); h / bs; w / bs]
            (fun idx => match idx with
                        | [n; k; y; v] =>
                            let p := k / c in
                            get x [n; k mod c; y * bs + p / bs; v * bs + p mod bs]
                        | _ => None end)
      else None
  | _ => None
  end.

(** ** CumSum of integers: the sum of the elements before (or after) a place
    along the axis, with or without the place itself. *)
Definition int_of (x : elt) : option Z := match x with EI z => Some z | _ => None end.
Definition zsum (l : list Z) : Z := fold_right Z.add 0%Z l.
Definition summed (exclusive reverse : bool) (p k : N) : bool :=
  if reverse then (if exclusive then p <? k else p <=? k) else (if exclusive then k <? p else k <=? p).
(** The integers of [x] at the places [ks] along the axis. *)
Definition along (a : nat) (x : tensor elt) (idx ks : list N) : option (list Z) :=
  mapo (fun k => match get x (at_axis a k idx) with Some v => int_of v | None => None end) ks.
Definition onnx_cumsum (d : dtype) (axis : Z) (exclusive reverse : bool) (x : tensor elt) : option (tensor elt) :=
  let a := position (length (tshape x)) axis in
  if axis_ok (length (tshape x)) axis then
    tab (tshape x)
        (fun idx => match along a x idx (filter (summed exclusive reverse (nth a idx 0)) (upto (nth a (tshape x) 0))) with
                    | Some l => if BinOps_Spec.fits d (EI (zsum l)) then Some (EI (zsum l)) else None
                    | None => None end)
  else None.

(** ** A node: the values of its inputs and of its outputs. *)
Definition flag (n : rnode) (k : string) : option bool := option_map (fun z => negb (z =? 0)%Z) (int_attr n k 0%Z).
Definition crd_mode (n : rnode) : option bool :=
  match get_attr n "mode" with
  | None => Some false
  | Some (AString s) => if String.eqb s "DCR" then Some false else if String.eqb s "CRD" then Some true else None
  | Some _ => None
  end.
Inductive onnx_any_node (n : rnode) : list otensor -> list otensor -> Prop :=
| an_one ins out : onnx_node n ins out -> onnx_any_node n ins [out]
| an_index ins out : onnx_index_node n ins out -> onnx_any_node n ins [out]
| an_transpose d x p z : ntype n = "Transpose"%string ->
    get_attr n "perm" = Some (AInts p) \/ (get_attr n "perm" = None /\ p = rev (map Z.of_nat (seq 0 (length (tshape x))))) ->
    Forall (fun i => 0 <= i)%Z p -> transposed (positions p) x z ->
    onnx_any_node n [(d, x)] [(d, z)]
| an_flatten d x a s : ntype n = "Flatten"%string -> int_attr n "axis" 1%Z = Some a -> flatten_of a (tshape x) s ->
    onnx_any_node n [(d, x)] [(d, mkT s (tdata x))]
| an_expand d x req l z : ntype n = "Expand"%string -> tshape req = [N.of_nat (length l)] -> as_ints req = Some l -> onnx_expand l x = Some z ->
    onnx_any_node n [(d, x); (I64, req)] [(d, z)]
| an_tile d x reps l z : ntype n = "Tile"%string -> tshape reps = [N.of_nat (length l)] -> as_ints reps = Some l -> onnx_tile l x = Some z ->
    onnx_any_node n [(d, x); (I64, reps)] [(d, z)]
| an_split d x rest a sizes zs : ntype n = "Split"%string -> int_attr n "axis" 0%Z = Some a ->
    sizes_given n rest (nth (position (length (tshape x)) a) (tshape x) 0) (length (noutputs n)) sizes ->
    onnx_split a sizes x = Some zs -> onnx_any_node n ((d, x) :: rest) (map (pair d) zs)
| an_depth d x crd bs z : ntype n = "DepthToSpace"%string -> crd_mode n = Some crd -> get_attr n "blocksize" = Some (AInt (Z.of_N bs)) ->
    onnx_depth_to_space crd bs x = Some z -> onnx_any_node n [(d, x)] [(d, z)]
| an_space d x bs z : ntype n = "SpaceToDepth"%string -> get_attr n "blocksize" = Some (AInt (Z.of_N bs)) ->
    onnx_space_to_depth bs x = Some z -> onnx_any_node n [(d, x)] [(d, z)]
| an_cumsum d x di ax a ex re z : ntype n = "CumSum"%string -> flag n "exclusive" = Some ex -> flag n "reverse" = Some re ->
    di = I64 \/ di = I32 -> ax = mkT [] [EI a] -> onnx_cumsum d a ex re x = Some z ->
    onnx_any_node n [(d, x); (di, ax)] [(d, z)].

(** ** A straight-line graph whose nodes may have several outputs. *)
Fixpoint bind_all {A} (e : string -> option A) (xs : list string) (vs : list A) : string -> option A :=
  match xs, vs with x :: xs, v :: vs => bind_all (bind e x v) xs vs | _, _ => e end.
Section Graph.
  Variable constant : arg -> option otensor.
  Inductive runs_any (step : rnode -> list otensor -> list otensor -> Prop) : list rnode -> oenv -> oenv -> Prop :=
  | ra_nil e : runs_any step [] e e
  | ra_cons n ns e e' ins outs : mapo (input_of constant e) (ninputs n) = Some ins -> step n ins outs ->
      length outs = length (noutputs n) -> runs_any step ns (bind_all e (map aname (noutputs n)) outs) e' ->
      runs_any step (n :: ns) e e'.
End Graph.

(** The variables [vs] of the outputs [os] hold the ONNX values [outs]. *)
Fixpoint all_stand (os : list arg) (vs : list rv) (outs : list otensor) : Prop :=
  match os, vs, outs with
  | [], [], [] => True
  | o :: os, v :: vs, out :: outs => stands_for (fst out) (aty o) v (snd out) /\ all_stand os vs outs
  | _, _, _ => False
  end.

(** ** The nodes the theorems are about.  [is_tensor a]: a device tensor held in
    a variable.  Left out: what BinOps_Spec, ShapeRun_Spec and Index_Props leave
    out, and for tensors: negative indices of Gather given in a tensor or an
    array, an empty result of Slice, steps that are not positive, Squeeze without axes,
    negative axes of Unsqueeze, empty parts of Split, Flatten at axis 0 or of
    an empty tensor, Reshape that infers a size of an empty tensor, Expand of an empty tensor or to
    a lower rank, zero repeats, and a CumSum of floats or that overflows. *)
Local Open Scope Z_scope.
Definition i64_max : Z := 9223372036854775807.
Definition i32_max : Z := 2147483647.
Definition is_tensor (a : arg) (r : nat) : Prop :=
  run_time a /\ Z.of_nat r <= i64_max /\ exists t, aty a = TensorT t /\ tt_rank t = N.of_nat r.
Definition indices_in (x ix : tensor elt) (axis : Z) : Prop :=
  forall z, In (EI z) (tdata ix) -> 0 <= z < Z.of_N (nth (position (length (tshape x)) axis) (tshape x) 0%N).
(** A slice that takes something and whose bounds can be written in the code. *)
Definition cut_ok (s : list N) (c : cut) : Prop :=
  let d := Z.of_N (nth (position (length s) (c_axis c)) s 0%N) in
  0 < c_step c /\ (c_stop c <= i32_max \/ c_stop c = i64_max) /\ d <= i64_max /\
  clamp 0 d (from_end d (c_start c)) < clamp 0 d (from_end d (c_stop c)).
Section Covered.
  Variable known : arg -> Prop.
  Inductive covered_any (n : rnode) : list otensor -> list otensor -> Prop :=
  | ca_shapes ins out : onnx_node n ins out -> covered known n ins -> covered_any n ins [out]
  | ca_gather_nd a ix d x i out : ntype n = "GatherND"%string -> ninputs n = [a; ix] -> is_tensor a (length (tshape x)) ->
      is_tensor ix (length (tshape i)) -> Shapes_Spec.fits (aty ix) (tshape i) -> Z.of_N (prodN (tshape x)) <= 2147483648 -> covered_any n [(d, x); (I64, i)] [out]
  | ca_scatter_nd a ix u d x i upd out : ntype n = "ScatterND"%string -> (forall k v, In (k, v) (nattrs n) -> k = "reduction"%string) -> ninputs n = [a; ix; u] -> is_tensor a (length (tshape x)) ->
      is_tensor ix (length (tshape i)) -> is_tensor u (length (tshape upd)) ->
      prodN (tshape x) <> 0%N -> covered_any n [(d, x); (I64, i); (d, upd)] [out]
  | ca_transpose a d x outs : ntype n = "Transpose"%string -> ninputs n = [a] -> is_tensor a (length (tshape x)) ->
      covered_any n [(d, x)] outs
  | ca_flatten a d x axis outs : ntype n = "Flatten"%string -> ninputs n = [a] -> is_tensor a (length (tshape x)) ->
      int_attr n "axis" 1 = Some axis -> axis <> 0 -> axis <> - Z.of_nat (length (tshape x)) ->
      prodN (tshape x) <> 0%N -> Z.of_N (prodN (tshape x)) <= i32_max -> covered_any n [(d, x)] outs
  | ca_reshape a b d x req l outs : ntype n = "Reshape"%string -> ninputs n = [a; b] -> is_tensor a (length (tshape x)) ->
      known b -> as_ints req = Some l -> int_attr n "allowzero" 0 = Some 0 ->
      prodN (tshape x) <> 0%N -> (forall v, In v l -> -1 <= v) -> (l = [] -> In d [F32; F64; I32; I64; BoolT]) ->
      covered_any n [(d, x); (I64, req)] outs
  | ca_squeeze a rest d x xs axes outs : ntype n = "Squeeze"%string -> ninputs n = a :: rest -> is_tensor a (length (tshape x)) ->
      Forall known rest -> axes_of n ((d, x) :: xs) = Some (Some axes) -> axes <> [] -> covered_any n ((d, x) :: xs) outs
  | ca_unsqueeze a rest d x xs axes outs : ntype n = "Unsqueeze"%string -> ninputs n = a :: rest -> is_tensor a (length (tshape x)) ->
      Forall known rest -> axes_of n ((d, x) :: xs) = Some (Some axes) -> Forall (fun z => 0 <= z) axes -> covered_any n ((d, x) :: xs) outs
  | ca_concat d xs outs : ntype n = "Concat"%string -> Forall2 (fun a x => is_tensor a (length (tshape x))) (ninputs n) xs ->
      covered_any n (map (pair d) xs) outs
  | ca_slice a rest d x xs cuts outs : ntype n = "Slice"%string -> ninputs n = a :: rest -> is_tensor a (length (tshape x)) ->
      Forall known rest -> slice_inputs ((d, x) :: xs) = Some cuts -> cuts <> [] -> Forall (cut_ok (tshape x)) cuts -> covered_any n ((d, x) :: xs) outs
  | ca_gather a b d x di ix axis outs : ntype n = "Gather"%string -> ninputs n = [a; b] -> is_tensor a (length (tshape x)) ->
      int_attr n "axis" 0 = Some axis -> run_time b -> indices_in x ix axis -> covered_any n [(d, x); (di, ix)] outs
  | ca_gather_known a b d x ix i axis outs : ntype n = "Gather"%string -> ninputs n = [a; b] -> is_tensor a (length (tshape x)) ->
      (2 <= length (tshape x))%nat -> int_attr n "axis" 0 = Some axis -> known b -> aty b = ScalarNative I64 -> ix = mkT [] [EI i] ->
      - Z.of_N (nth (position (length (tshape x)) axis) (tshape x) 0%N) <= i < Z.of_N (nth (position (length (tshape x)) axis) (tshape x) 0%N) ->
      covered_any n [(d, x); (I64, ix)] outs
  | ca_where a b c d u x y outs : ntype n = "Where"%string -> ninputs n = [a; b; c] -> is_tensor a (length (tshape u)) ->
      is_tensor b (length (tshape x)) -> is_tensor c (length (tshape y)) -> covered_any n [(BoolT, u); (d, x); (d, y)] outs
  | ca_expand a b d x req l outs : ntype n = "Expand"%string -> ninputs n = [a; b] -> is_tensor a (length (tshape x)) ->
      known b \/ (run_time b /\ exists k, aty b = ShapeT k) -> as_ints req = Some l -> (length (tshape x) <= length l)%nat ->
      prodN (tshape x) <> 0%N -> covered_any n [(d, x); (I64, req)] outs
  | ca_tile a b d x reps l outs : ntype n = "Tile"%string -> ninputs n = [a; b] -> is_tensor a (length (tshape x)) -> known b ->
      as_ints reps = Some l -> Forall (fun v => 0 < v) l -> covered_any n [(d, x); (I64, reps)] outs
  | ca_split a rest d x xs outs : ntype n = "Split"%string -> ninputs n = a :: rest -> is_tensor a (length (tshape x)) ->
      Forall (fun b => known b /\ exists t, aty b = TensorT t /\ tt_rank t = 1%N /\ tt_dtype t = I64) rest ->
      noutputs n <> [] -> (get_attr n "num_outputs" = None \/ get_attr n "num_outputs" = Some (AInt (Z.of_nat (length (noutputs n))))) ->
      Shapes_Spec.fits (aty a) (tshape x) -> Forall (fun k => Z.of_N k <= i64_max) (tshape x) ->
      Forall (fun o => prodN (tshape (snd o)) <> 0%N) outs -> covered_any n ((d, x) :: xs) outs
  | ca_depth a d x outs : ntype n = "DepthToSpace"%string -> ninputs n = [a] -> is_tensor a 4 ->
      (forall b, get_attr n "blocksize" = Some (AInt b) -> b <= i64_max) -> covered_any n [(d, x)] outs
  | ca_space a d x outs : ntype n = "SpaceToDepth"%string -> ninputs n = [a] -> is_tensor a 4 ->
      (forall b, get_attr n "blocksize" = Some (AInt b) -> b <= i64_max) -> covered_any n [(d, x)] outs
  | ca_cumsum a b d x ax axis outs : ntype n = "CumSum"%string -> ninputs n = [a; b] -> is_tensor a (length (tshape x)) -> known b ->
      ax = mkT [] [EI axis] ->
      (forall ex re, exists z, onnx_cumsum d axis ex re x = Some z) -> covered_any n [(d, x); (I64, ax)] outs.
End Covered.
