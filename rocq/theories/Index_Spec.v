(** GatherND and ScatterND as ONNX defines them, element by element.  Nothing
    here mentions the generated code. *)
From Verif Require Export ShapeRun_Spec.
Local Open Scope N_scope.

(** The index tuple that [ix] holds at position [at_]: one number for each of
    the first [k] dimensions [dims]; negative numbers count from the end, others
    out of range are errors. *)
Definition one_index (d : N) (i : Z) : option N :=
  if ((- Z.of_N d <=? i) && (i <? Z.of_N d))%Z then Some (Z.to_N (from_end (Z.of_N d) i)) else None.
Definition index_tuple (ix : tensor elt) (dims at_ : list N) (k : N) : option (list N) :=
  mapo (fun jd => match get ix (at_ ++ [fst jd]) with Some (EI i) => one_index (snd jd) i | _ => None end)
       (combine (upto k) dims).

(** The length of the tuples is the last dimension of the indices. *)
Definition tuple_size (ix : tensor elt) : N := last (tshape ix) 0.
Definition tuple_places (ix : tensor elt) : list N := removelast (tshape ix).

(** Every tuple is within bounds. *)
Definition tuples_ok (ix : tensor elt) (dims : list N) : bool :=
  forallb (fun u => match index_tuple ix dims u (tuple_size ix) with Some _ => true | None => false end)
          (indices (tuple_places ix)).

(** ** GatherND with [b] batch dimensions. *)
Definition gather_nd (b : nat) (x ix : tensor elt) : option (tensor elt) :=
  let r := length (tshape x) in let q := length (tshape ix) in let k := tuple_size ix in
  if (b <? Nat.min q r)%nat && (1 <=? k) && (N.of_nat b + k <=? N.of_nat r) && tuples_ok ix (skipn b (tshape x)) &&
     (if list_eq_dec N.eq_dec (firstn b (tshape x)) (firstn b (tshape ix)) then true else false)
  then
    tab (tuple_places ix ++ skipn (b + N.to_nat k) (tshape x))
        (fun idx => let at_ := firstn (q - 1) idx in
                    match index_tuple ix (skipn b (tshape x)) at_ k with
                    | Some t => get x (firstn b idx ++ t ++ skipn (q - 1) idx)
                    | None => None end)
  else None.

(** ** ScatterND: the updates are applied in the order of their positions; the
    element at [p] is updated at the positions whose tuple starts [p]. *)
Inductive reduction := RedNone | RedAdd | RedMul | RedMax | RedMin.
Definition reduce_elt (d : dtype) (red : reduction) (old new : elt) : option elt :=
  match red with
  | RedNone => Some new
  | RedAdd => onnx_elt d OAdd old new
  | RedMul => onnx_elt d OMul old new
  | RedMax => onnx_elt d OMax old new
  | RedMin => onnx_elt d OMin old new
  end.
Definition scatter_nd (d : dtype) (red : reduction) (x ix upd : tensor elt) : option (tensor elt) :=
  let r := length (tshape x) in let k := tuple_size ix in
  if negb (Nat.eqb (length (tshape ix)) 0) && negb (Nat.eqb r 0) && (1 <=? k) && (k <=? N.of_nat r) && tuples_ok ix (tshape x) &&
     (if list_eq_dec N.eq_dec (tshape upd) (tuple_places ix ++ skipn (N.to_nat k) (tshape x)) then true else false)
  then
    tab (tshape x)
        (fun p => fold_left
           (fun old u => match old, index_tuple ix (tshape x) u k with
                         | Some a, Some t =>
                             if list_eq_dec N.eq_dec t (firstn (N.to_nat k) p)
                             then match get upd (u ++ skipn (N.to_nat k) p) with
                                  | Some v => reduce_elt d red a v
                                  | None => None end
                             else Some a
                         | _, _ => None end)
           (indices (tuple_places ix)) (get x p))
  else None.

(** ** The nodes *)
Definition reduction_name (s : string) : option reduction :=
  if String.eqb s "none" then Some RedNone else if String.eqb s "add" then Some RedAdd
  else if String.eqb s "mul" then Some RedMul else if String.eqb s "max" then Some RedMax
  else if String.eqb s "min" then Some RedMin else None.
Definition reduction_attr (n : rnode) : option reduction :=
  match get_attr n "reduction" with None => Some RedNone | Some (AString s) => reduction_name s | Some _ => None end.
Inductive onnx_index_node (n : rnode) : list otensor -> otensor -> Prop :=
| on_gather_nd d x ix b z : ntype n = "GatherND"%string -> int_attr n "batch_dims" 0%Z = Some b -> (0 <= b <= 9223372036854775807)%Z ->
    gather_nd (Z.to_nat b) x ix = Some z -> onnx_index_node n [(d, x); (I64, ix)] (d, z)
| on_scatter_nd d x ix upd red z : ntype n = "ScatterND"%string -> reduction_attr n = Some red ->
    (d = BoolT -> red = RedNone) ->
    scatter_nd d red x ix upd = Some z -> onnx_index_node n [(d, x); (I64, ix); (d, upd)] (d, z).
