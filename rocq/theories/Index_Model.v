(** The importer's and the code generator's parts for GatherND and ScatterND:
    crates/onnx-ir/src/node/{gathernd,scatter_nd}.rs and
    crates/burn-onnx/src/burn/node/{gathernd,scatter_nd}.rs.  Sizes and offsets
    ([usize] in the code) are unbounded here: those computed are bounded by the
    number of elements of an existing tensor. *)
From Verif Require Export ShapeRun_Model Index_Spec.
Local Open Scope N_scope.

(** ** Type inference *)

Definition only_attrs (n : rnode) (ks : list string) : bool :=
  forallb (fun kv => existsb (String.eqb (fst kv)) ks) (nattrs n).

(** crates/onnx-ir/src/node/gathernd.rs:80-91, 144-157: other attributes are
    errors, [into_i64] panics on another kind of value. *)
Definition batch_dims (n : rnode) : ires N :=
  if only_attrs n ["batch_dims"%string] then
    match get_attr n "batch_dims" with None => IOk 0 | Some (AInt z) => IOk (to_usize z) | Some _ => IPanic end
  else IErr.
(** gathernd.rs:48-142. *)
Definition infer_gathernd (n : rnode) : ires argty :=
  match ninputs n with
  | a :: i :: _ =>
      match aty a, aty i with
      | TensorT x, TensorT ix =>
          ibind (batch_dims n) (fun b =>
            let r := tt_rank x in let q := tt_rank ix in
            if N.min q r <=? b then IErr
            else match tt_shape ix with
                 | None => IErr
                 | Some l =>
                     match l, last l None with
                     | _ :: _, Some k =>
                         if r - b <? k then IErr
                         else let rank := q + r - k - 1 - b in
                              IOk (if rank =? 0 then ScalarTensor (tt_dtype x) else TensorT (mkTT (tt_dtype x) rank None))
                     | _, _ => IErr
                     end
                 end)
      | _, _ => IErr
      end
  | _ => IPanic
  end.

(** crates/onnx-ir/src/node/scatter_nd.rs:76-109. *)
Definition scatter_reduction (n : rnode) : ires reduction :=
  if only_attrs n ["reduction"%string] then
    match get_attr n "reduction" with
    | None => IOk RedNone
    | Some (AString s) =>
        if String.eqb s "none" then IOk RedNone
        else if String.eqb s "add" then IOk RedAdd
        else if String.eqb s "mul" then IOk RedMul
        else if String.eqb s "max" then IOk RedMax
        else if String.eqb s "min" then IOk RedMin
        else IErr
    | Some _ => IPanic
    end
  else IErr.
(** scatter_nd.rs:64-74: with data that is not a tensor the type stays. *)
Definition infer_scatternd (n : rnode) : ires argty :=
  match ninputs n, noutputs n with
  | a :: _, o :: _ => match aty a with TensorT t => IOk (TensorT t) | _ => IOk (aty o) end
  | _, _ => IPanic
  end.

(** ** The emitted code *)
Inductive istmt :=
| IGather (x ix : string) (b rank : N)      (* gathernd.rs:80-153 *)
| IGatherOne (x ix : string) (b : N)        (* gathernd.rs:44-71, kept on the device *)
| IScatter (d : dtype) (x ix upd : string) (red : reduction).

(** The strides, from the last dimension to the first: gathernd.rs:92-95. *)
Fixpoint strides (dims : list N) : list N :=
  match dims with
  | [] => []
  | _ :: rest => match rest with [] => [1] | d :: _ => hd 1 (strides rest) * d :: strides rest end
  end.

(** The loop over [j] that adds up an offset: gathernd.rs:62-66, 115-119,
    scatter_nd.rs:92-96.  An index that is still negative is a panic or a huge
    number, either way no result. *)
Definition add_index (vals : list Z) (dims : list N) (b : nat) (from : nat) (acc : option N) (j : nat) : option N :=
  obind acc (fun o =>
  obind (nth_error vals (from + j)) (fun i =>
  obind (nth_error dims (b + j)) (fun d =>
  obind (nth_error (strides dims) (b + j)) (fun s =>
    let i := if (i <? 0)%Z then (i + Z.of_N d)%Z else i in
    if (i <? 0)%Z then None else Some (o + Z.to_N i * s))))).
Definition tuple_offset (vals : list Z) (dims : list N) (b : nat) (from k : nat) (start : N) : option N :=
  fold_left (add_index vals dims b from) (seq 0 k) (Some start).

(** [as i32]; [select] on a flat tensor: a negative index or one beyond the end
    has no result. *)
Definition as_i32 (n : N) : Z := ((Z.of_N n + 2147483648) mod 4294967296 - 2147483648)%Z.
Definition select_flat (data : list elt) (is : list Z) : option (list elt) :=
  mapo (fun i => if (i <? 0)%Z then None else nth_error data (Z.to_nat i)) is.
(** [reshape]: the number of elements must agree. *)
Definition reshape_flat {A} (s : list N) (l : list A) : option (tensor A) :=
  if N.of_nat (length l) =? prodN s then Some (mkT s l) else None.
(** Writing one after the other into [[0; rank]]. *)
Definition into_array (rank : N) (l : list N) : option (list N) :=
  if N.of_nat (length l) <=? rank then Some (l ++ repeat 0 (N.to_nat rank - length l)) else None.

(** gathernd.rs:80-153. *)
Definition gather_code (b rank : N) (x : tensor elt) (idims : list N) (vals : list Z) : option (tensor elt) :=
  let dims := tshape x in let r := length dims in let q := length idims in let bn := N.to_nat b in
  obind (nth_error idims (q - 1)) (fun k =>
  let kn := N.to_nat k in
  obind (if b =? 0 then Some 1 else option_map prodN (range dims 0 b)) (fun batch_count =>
  obind (option_map prodN (range idims b (N.of_nat (q - 1)))) (fun lookups =>
  let slice := if b + k <? N.of_nat r then prodN (skipn (bn + kn) dims) else 1 in
  let total := prodN dims in
  let bstride := if b =? 0 then total else prodN (skipn bn dims) in
  obind (mapo (fun bi =>
           option_map (@concat Z) (mapo (fun li =>
             option_map (fun o => map (fun s => as_i32 (o + s)) (upto slice))
               (tuple_offset vals dims bn (N.to_nat ((bi * lookups + li) * k)) kn (bi * bstride)))
             (upto lookups)))
           (upto batch_count)) (fun flat =>
  obind (reshape_flat [total] (tdata x)) (fun xf =>
  obind (select_flat (tdata xf) (concat flat)) (fun out =>
  obind (into_array rank (firstn bn dims ++ firstn (q - 1 - bn) (skipn bn idims) ++ skipn (bn + kn) dims)) (fun s =>
    reshape_flat s out))))))).

(** gathernd.rs:44-71. *)
Definition gather_one_code (b : N) (x : tensor elt) (vals : list Z) : option (tensor elt) :=
  let dims := tshape x in let r := length dims in
  obind (tuple_offset vals dims (N.to_nat b) 0 (r - N.to_nat b) 0) (fun o =>
  obind (reshape_flat [prodN dims] (tdata x)) (fun xf =>
    option_map (mkT [1]) (select_flat (tdata xf) [as_i32 o]))).

(** scatter_nd.rs:35-73: [update_slice] or a combination with the part of the
    output it replaces. *)
Definition combine_elt (d : dtype) (red : reduction) (old new : elt) : option elt :=
  match red with
  | RedNone => Some new
  | RedAdd => burn_elt d MAdd old new
  | RedMul => burn_elt d MMul old new
  | RedMax => match burn_elt d MGreaterEqual new old with Some (EB m) => Some (if m then new else old) | _ => None end
  | RedMin => match burn_elt d MLowerEqual new old with Some (EB m) => Some (if m then new else old) | _ => None end
  end.
(** [narrow] refuses an empty range. *)
Definition narrow_flat (l : list elt) (from len : N) : option (list elt) :=
  if len =? 0 then None else range l from (from + len).
Definition assign_flat (l : list elt) (from : N) (new : list elt) : option (list elt) :=
  if from + N.of_nat (length new) <=? N.of_nat (length l)
  then Some (firstn (N.to_nat from) l ++ new ++ skipn (N.to_nat from + length new) l) else None.
(** scatter_nd.rs:76-103. *)
Definition scatter_code (d : dtype) (red : reduction) (x : tensor elt) (idims : list N) (vals : list Z) (upd : tensor elt)
  : option (tensor elt) :=
  let dims := tshape x in let r := length dims in let q := length idims in
  obind (nth_error idims (q - 1)) (fun k =>
  let kn := N.to_nat k in
  let count := prodN (firstn (q - 1) idims) in
  let slice := if k <? N.of_nat r then prodN (skipn kn dims) else 1 in
  obind (reshape_flat [prodN dims] (tdata x)) (fun xf =>
  obind (reshape_flat [count * slice] (tdata upd)) (fun uf =>
  obind (fold_left (fun acc i => obind acc (fun out =>
           obind (tuple_offset vals dims 0 (N.to_nat (i * k)) kn 0) (fun o =>
           obind (narrow_flat (tdata uf) (i * slice) slice) (fun new =>
           obind (narrow_flat out o slice) (fun old =>
           obind (mapo (fun on => combine_elt d red (fst on) (snd on)) (combine old new)) (fun res =>
             assign_flat out o res))))))
         (upto count) (Some (tdata xf))) (fun out =>
    reshape_flat dims out)))).

Section IExec.
  Variable e : renv.
  Definition tens (x : string) : option (tensor elt) := match e x with Some (RTensor t) => Some t | _ => None end.
  (** [to_data().convert::<i64>().into_vec()]. *)
  Definition iexec (t : istmt) : option rv :=
    match t with
    | IGather x ix b rank =>
        obind (tens x) (fun x => obind (tens ix) (fun ix => obind (as_ints ix) (fun vals =>
          option_map RTensor (gather_code b rank x (tshape ix) vals))))
    | IGatherOne x ix b =>
        obind (tens x) (fun x => obind (tens ix) (fun ix => obind (as_ints ix) (fun vals =>
          option_map RTensor (gather_one_code b x vals))))
    | IScatter d x ix upd red =>
        obind (tens x) (fun x => obind (tens ix) (fun ix => obind (tens upd) (fun upd => obind (as_ints ix) (fun vals =>
          option_map RTensor (scatter_code d red x (tshape ix) vals upd)))))
    end.
End IExec.

(** ** The generators.  [None] is a panic. *)

(** gathernd.rs:12-154; a native scalar result is left out: inference does not
    record it. *)
Definition gen_gathernd (n : rnode) : option istmt :=
  match ninputs n, noutputs n, batch_dims n with
  | a :: i :: _, o :: _, IOk b =>
      match aty o with
      | ScalarTensor _ => Some (IGatherOne (aname a) (aname i) b)
      | TensorT t => Some (IGather (aname a) (aname i) b (tt_rank t))
      | _ => None
      end
  | _, _, _ => None
  end.
(** scatter_nd.rs:14-105. *)
Definition gen_scatternd (n : rnode) : option istmt :=
  match ninputs n, noutputs n, scatter_reduction n with
  | a :: i :: u :: _, o :: _, IOk red =>
      match aty a with
      | TensorT t =>
          match tt_dtype t, red with
          | BoolT, (RedAdd | RedMul | RedMax | RedMin) => None
          | d, _ => Some (IScatter d (aname a) (aname i) (aname u) red)
          end
      | _ => None
      end
  | _, _, _ => None
  end.

Definition infer_index_node (n : rnode) : ires argty :=
  if String.eqb (ntype n) "GatherND" then infer_gathernd n
  else if String.eqb (ntype n) "ScatterND" then infer_scatternd n else IErr.
Definition gen_index_node (n : rnode) : option istmt :=
  if String.eqb (ntype n) "GatherND" then gen_gathernd n
  else if String.eqb (ntype n) "ScatterND" then gen_scatternd n else None.
