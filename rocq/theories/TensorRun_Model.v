(** The statements emitted for operators on device tensors:
    crates/burn-onnx/src/burn/node/{transpose,flatten,reshape,squeeze,unsqueeze,
    concat,slice,gather,where_op,expand,tile,split,depth_to_space,
    space_to_depth,cumsum}.rs, function [forward] of each, where the operands
    are tensors; the type inference not modelled elsewhere; and the program made
    of these, of the statements of ShapeRun_Model and of those of Index_Model. *)
From Verif Require Export Index_Model.
From Verif Require Import TensorRun_Spec.
Import Tensor_Spec BinOps_Spec RankOps_Spec ShapeRun_Spec.
Local Open Scope N_scope.

(** ** Burn's tensor methods.  They are not part of this code base: this is what
    its documentation says they do; [None] is a panic, or a case the
    documentation leaves open. *)

Definition all2 {A B} (f : A -> B -> bool) (l : list A) (r : list B) : bool :=
  Nat.eqb (length l) (length r) && forallb (fun xy => f (fst xy) (snd xy)) (combine l r).
(** A dimension given by a signed number. *)
Definition dim_of (r : nat) (z : Z) : Z := if (z <? 0)%Z then (z + Z.of_nat r)%Z else z.

(** [permute]: dimension [k] of the result is dimension [p k]. *)
Fixpoint where_is (i : nat) (p : list nat) : nat :=
  match p with [] => O | j :: r => if Nat.eqb i j then O else S (where_is i r) end.
Definition b_permute (p : list Z) (x : tensor elt) : option (tensor elt) :=
  let r := length (tshape x) in
  let q := map (dim_of r) p in
  if Nat.eqb (length q) r && forallb (fun i => existsb (Z.eqb (Z.of_nat i)) q) (seq 0 r) then
    let q := map Z.to_nat q in
    tab (map (fun i => nth i (tshape x) 0) q) (fun j => get x (map (fun i => nth (where_is i q) j 0) (seq 0 r)))
  else None.

(** [reshape] to sizes, and to signed numbers: 0 keeps the dimension in this
    place, one -1 is inferred. *)
Definition b_reshape {A} (s : list N) (x : tensor A) : option (tensor A) := reshape_flat s (tdata x).
Definition asked (s : list N) (iv : nat * Z) : option (option N) :=
  let (i, v) := iv in
  if (0 <? v)%Z then Some (Some (Z.to_N v))
  else if (v =? 0)%Z then option_map Some (nth_error s i)
  else if (v =? -1)%Z then Some None else None.
Definition fill (k : N) (o : option N) : N := match o with Some d => d | None => k end.
Definition b_reshape_to {A} (l : list Z) (x : tensor A) : option (tensor A) :=
  obind (mapo (asked (tshape x)) (enumerate l)) (fun ds =>
  match length (filter (fun o => match o with None => true | _ => false end) ds) with
  | O => b_reshape (map (fill 1) ds) x
  | S O => let p := prodN (map (fill 1) ds) in
           let n := prodN (tshape x) in
           if (p =? 0) || negb (n mod p =? 0) then None else b_reshape (map (fill (n / p)) ds) x
  | _ => None
  end).

(** [slice]: [..] or a range with a step for each dimension.  Negative bounds
    count from the end, all are clamped.  An empty range and a step that is not
    positive are left out. *)
Record brange := mkRange { r_start : Z; r_end : option Z; r_step : Z }.
Definition bound (d : N) (z : Z) : N := Z.to_N (Z.max 0 (Z.min (Z.of_N d) (if z <? 0 then z + Z.of_N d else z)%Z)).
Definition in_range (d : N) (r : option brange) : option (list N) :=
  match r with
  | None => Some (upto d)
  | Some r =>
      let a := bound d (r_start r) in
      let b := match r_end r with Some e => bound d e | None => d end in
      if ((r_step r <? 1)%Z || (b <=? a))%bool then None
      else let k := Z.to_N (r_step r) in Some (map (fun i => a + i * k) (upto ((b - a + (k - 1)) / k)))
  end.
Definition b_slice (rs : list (option brange)) (x : tensor elt) : option (tensor elt) :=
  if Nat.eqb (length rs) (length (tshape x)) then
    obind (mapo (fun dr => in_range (fst dr) (snd dr)) (combine (tshape x) rs)) (fun ks =>
      tab (map (fun l => N.of_nat (length l)) ks)
          (fun idx => get x (map (fun li => nth (N.to_nat (snd li)) (fst li) 0) (combine ks idx))))
  else None.
(** One index in place of a range; -1 is the last. *)
Definition one_place (i : Z) : brange := mkRange i (if (i =? -1)%Z then None else Some (i + 1)%Z) 1.

(** [squeeze_dims], with at least one axis, and [squeeze_dim]. *)
Definition b_squeeze_dims {A} (rank : N) (axes : list Z) (x : tensor A) : option (tensor A) :=
  let r := length (tshape x) in
  let q := map (dim_of r) axes in
  let dims := enumerate (tshape x) in
  let out := filter (fun id => negb (existsb (Z.eqb (Z.of_nat (fst id))) q)) in
  if negb (Nat.eqb (length axes) 0) && forallb (fun a => (0 <=? a)%Z && (a <? Z.of_nat r)%Z)%bool q &&
     forallb (fun id => negb (existsb (Z.eqb (Z.of_nat (fst id))) q) || (snd id =? 1)) dims &&
     (N.of_nat (length (out dims)) =? rank)
  then b_reshape (map snd (out dims)) x else None.
(** [unsqueeze_dims]: ones at the given places of the result, the dimensions in
    the others.  Negative axes are left out. *)
Fixpoint ones_in (axes : list Z) (i : Z) (todo : nat) (s : list N) : option (list N) :=
  match todo with
  | O => match s with [] => Some [] | _ => None end
  | S k => if existsb (Z.eqb i) axes then option_map (cons 1) (ones_in axes (i + 1) k s)
           else match s with d :: s => option_map (cons d) (ones_in axes (i + 1) k s) | [] => None end
  end.
Definition b_unsqueeze_dims (rank : N) (axes : list Z) (x : tensor elt) : option (tensor elt) :=
  if forallb (fun a => (0 <=? a)%Z && (a <? Z.of_N rank)%Z)%bool axes
  then obind (ones_in axes 0 (N.to_nat rank) (tshape x)) (fun s => b_reshape s x) else None.

(** [cat] *)
Fixpoint part_get (a : nat) (idx : list N) (k : N) (xs : list (tensor elt)) : option elt :=
  match xs with
  | [] => None
  | x :: r => let d := nth a (tshape x) 0 in
              if k <? d then get x (firstn a idx ++ k :: skipn (S a) idx) else part_get a idx (k - d) r
  end.
Definition b_cat (a : N) (xs : list (tensor elt)) : option (tensor elt) :=
  let a := N.to_nat a in
  match xs with
  | [] => None
  | x :: _ =>
      let s := tshape x in
      if (a <? length s)%nat &&
         forallb (fun y => all2 N.eqb (firstn a (tshape y)) (firstn a s) && all2 N.eqb (skipn (S a) (tshape y)) (skipn (S a) s) &&
                           Nat.eqb (length (tshape y)) (length s)) xs
      then tab (firstn a s ++ fold_right N.add 0 (map (fun y => nth a (tshape y) 0) xs) :: skipn (S a) s)
               (fun idx => part_get a idx (nth a idx 0) xs)
      else None
  end.

(** [select] and [take]: negative indices are left out. *)
Definition b_select (a : N) (is : list Z) (x : tensor elt) : option (tensor elt) :=
  let a := N.to_nat a in
  if (a <? length (tshape x))%nat then
    let d := nth a (tshape x) 0 in
    tab (firstn a (tshape x) ++ N.of_nat (length is) :: skipn (S a) (tshape x))
        (fun idx => match nth_error is (N.to_nat (nth a idx 0)) with
                    | Some k => if ((0 <=? k)%Z && (k <? Z.of_N d)%Z)%bool then get x (firstn a idx ++ Z.to_N k :: skipn (S a) idx) else None
                    | None => None end)
  else None.
Definition b_take (a : N) (ix x : tensor elt) : option (tensor elt) :=
  obind (as_ints ix) (fun is => obind (b_select a is x) (fun y =>
    b_reshape (firstn (N.to_nat a) (tshape x) ++ tshape ix ++ skipn (S (N.to_nat a)) (tshape x)) y)).

(** [expand]: new dimensions in front; -1 keeps a dimension, others must be
    those of the tensor or replace a 1. *)
Definition expand_dim (d : N) (v : Z) : option N :=
  if (v =? -1)%Z then Some d
  else if (v <? 0)%Z then None
  else if (Z.to_N v =? d) || (d =? 1) then Some (Z.to_N v) else None.
Definition b_expand {A} (l : list Z) (x : tensor A) : option (tensor A) :=
  let r := length (tshape x) in let k := (length l - r)%nat in
  if (r <=? length l)%nat && forallb (fun v => 0 <=? v)%Z (firstn k l) then
    obind (mapo (fun dv => expand_dim (fst dv) (snd dv)) (combine (tshape x) (skipn k l))) (fun s =>
      tab (map Z.to_N (firstn k l) ++ s)
          (fun idx => get x (map (fun di => if fst di =? 1 then 0 else snd di) (combine (tshape x) (skipn k idx)))))
  else None.

(** [repeat]: one count for each dimension, none of them 0. *)
Definition b_repeat (reps : list N) (x : tensor elt) : option (tensor elt) :=
  if Nat.eqb (length reps) (length (tshape x)) && forallb (fun r => negb (r =? 0)) reps then
    tab (map (fun dr => fst dr * snd dr) (combine (tshape x) reps))
        (fun idx => get x (map (fun di => snd di mod fst di) (combine (tshape x) idx)))
  else None.

(** [narrow] refuses an empty range; [split_with_sizes] skips empty parts. *)
Definition b_narrow (a : N) (from len : N) (x : tensor elt) : option (tensor elt) :=
  let a := N.to_nat a in
  if (a <? length (tshape x))%nat && (0 <? len) && (from + len <=? nth a (tshape x) 0) then
    tab (firstn a (tshape x) ++ len :: skipn (S a) (tshape x))
        (fun idx => get x (firstn a idx ++ (from + nth a idx 0) :: skipn (S a) idx))
  else None.
Fixpoint b_split (a : N) (from : N) (sizes : list N) (x : tensor elt) : option (list (tensor elt)) :=
  match sizes with
  | [] => if from =? nth (N.to_nat a) (tshape x) 0 then Some [] else None
  | d :: r => if d =? 0 then b_split a from r x
              else obind (b_narrow a from d x) (fun y => option_map (cons y) (b_split a (from + d) r x))
  end.

(** [mask_where]: the three operands have one rank and are broadcast. *)
Definition b_mask_where (c x y : tensor elt) : option (tensor elt) :=
  if Nat.eqb (length (tshape c)) (length (tshape x)) && Nat.eqb (length (tshape c)) (length (tshape y)) then
    obind (bshape (tshape c) (tshape x)) (fun s1 => obind (bshape s1 (tshape y)) (fun s =>
      tab s (fun idx => match get c (bproj (tshape c) idx) with
                        | Some (EB b) => if b then get x (bproj (tshape x) idx) else get y (bproj (tshape y) idx)
                        | _ => None end)))
  else None.

(** [cumsum] of integers: an overflow has no result; [flip]; [zeros_like]. *)
Fixpoint running (d : dtype) (acc : Z) (l : list Z) : option Z :=
  match l with
  | [] => Some acc
  | z :: r => if BinOps_Spec.fits d (EI (acc + z)) then running d (acc + z) r else None
  end.
Definition b_cumsum (d : dtype) (a : N) (x : tensor elt) : option (tensor elt) :=
  let a := N.to_nat a in
  if (a <? length (tshape x))%nat then
    tab (tshape x)
        (fun idx => obind (mapo (fun k => match get x (firstn a idx ++ k :: skipn (S a) idx) with Some (EI z) => Some z | _ => None end)
                                (upto (nth a idx 0 + 1)))
                          (fun l => option_map EI (running d 0 l)))
  else None.
Definition b_flip (a : N) (x : tensor elt) : option (tensor elt) :=
  let a := N.to_nat a in
  if (a <? length (tshape x))%nat then
    tab (tshape x) (fun idx => get x (firstn a idx ++ (nth a (tshape x) 0 - 1 - nth a idx 0) :: skipn (S a) idx))
  else None.
Definition b_zeros_like (x : tensor elt) : tensor elt := mkT (tshape x) (map (fun _ => EI 0) (tdata x)).

(** ** The emitted code *)
Inductive index := ILiteral (z : Z) | IExp (s : sexp).
Inductive request := QLiteral (l : list Z) | QVar (x : string).
Inductive tstmt :=
| UShapes (s : stmt)
| UIndex (s : istmt)
| UPermute (x : string) (p : list Z)
| UFlatten (x : string) (axis : N)
| UReshape (x : string) (l : list Z)
| UOne (x : string)                                    (* x.reshape([1]) *)
| UScalar (x : string)                                 (* x.into_scalar().elem() *)
| USqueeze (x : string) (axes : list Z) (rank : N)
| UUnsqueeze (x : string) (axes : list Z) (rank : N)
| UCat (xs : list string) (axis : N)
| USlice (x : string) (rs : list (option brange))
| UTake (x : string) (axis : N) (ix : string) (rank : N)
| USelect (x : string) (axis : N) (ix : string)        (* Tensor::from_data(ix) of an array *)
| USelectOne (x : string) (axis : N) (i : sexp)
| UPlace (x : string) (rank : N) (axis : N) (i : index)   (* slice, then squeeze_dim *)
| UWhere (c x y : string) (cr xr yr : N)               (* unsqueeze each by that many leading ones *)
| UExpand (x : string) (q : request) (in_rank out_rank : N)
| URepeat (x : string) (reps : list N)
| USplit (x : string) (sizes : list N) (axis : N) (outs : nat)
| USplitEven (x : string) (axis n : N) (outs : nat)
| UDepthToSpace (crd : bool) (x : string) (bs : N)
| USpaceToDepth (x : string) (bs : N)
| UCumSum (d : dtype) (x : string) (axis : N) (exclusive reverse : bool)
| UUncompilable.

(** flatten.rs:21-27: [as i32]. *)
Definition flatten_code (axis : N) (x : tensor elt) : option (tensor elt) :=
  obind (range (tshape x) 0 axis) (fun lead =>
  obind (b_reshape_to [as_i32 (prodN lead); (-1)%Z] x) (fun y => if Nat.eqb (length (tshape y)) 2 then Some y else None)).

(** expand.rs:64-80. *)
Definition expand_request (dims : list N) (l : list Z) (off : nat) : list Z :=
  fold_left (fun l i => match nth_error l (off + i), nth_error dims i with
                        | Some v, Some d => if ((v =? 1)%Z && (1 <? d))%bool then set_nth l (off + i) (Z.of_N d) else l
                        | _, _ => l end)
            (seq 0 (length dims)) l.
Definition expand_code (l : list Z) (in_rank out_rank : N) (x : tensor elt) : option (tensor elt) :=
  if (N.of_nat (length l) =? out_rank) && (in_rank <=? out_rank) && (N.of_nat (length (tshape x)) =? in_rank)
  then b_expand (expand_request (tshape x) l (N.to_nat (out_rank - in_rank))) x else None.

(** split.rs:41-52. *)
Definition even_sizes (d n : N) : list N :=
  let chunk := (d + (n - 1)) / n in map (fun i => N.min chunk (d - i * chunk)) (upto n).

(** depth_to_space.rs:18-37, space_to_depth.rs:17-25. *)
Definition depth_code (crd : bool) (bs : N) (x : tensor elt) : option (tensor elt) :=
  match tshape x with
  | [b; c; h; w] =>
      let c' := c / (bs * bs) in
      let r := if crd then obind (b_reshape [b; c'; bs; bs; h; w] x) (b_permute [0; 1; 4; 2; 5; 3]%Z)
               else obind (b_reshape [b; bs; bs; c'; h; w] x) (b_permute [0; 3; 4; 1; 5; 2]%Z) in
      obind r (b_reshape [b; c'; h * bs; w * bs])
  | _ => None
  end.
Definition space_code (bs : N) (x : tensor elt) : option (tensor elt) :=
  match tshape x with
  | [b; c; h; w] =>
      obind (obind (b_reshape [b; c; h / bs; bs; w / bs; bs] x) (b_permute [0; 3; 5; 1; 2; 4]%Z))
            (b_reshape [b; c * bs * bs; h / bs; w / bs])
  | _ => None
  end.

(** cumsum.rs:63-113. *)
Definition cumsum_code (d : dtype) (a : N) (exclusive reverse : bool) (x : tensor elt) : option (tensor elt) :=
  obind (if reverse then obind (b_flip a x) (fun y => obind (b_cumsum d a y) (b_flip a)) else b_cumsum d a x) (fun s =>
    if exclusive then
      let n := nth (N.to_nat a) (tshape s) 0 in
      if n <=? 1 then Some (b_zeros_like s)
      else obind (b_narrow a (if reverse then 1 else 0) (n - 1) s) (fun sliced =>
           obind (b_narrow a 0 1 (b_zeros_like sliced)) (fun zeros =>
             b_cat a (if reverse then [sliced; zeros] else [zeros; sliced])))
    else Some s).

(** where_op.rs:159-178: leading ones up to the common rank. *)
Definition lead (rank : N) (x : tensor elt) : option (tensor elt) :=
  let r := N.of_nat (length (tshape x)) in
  if r <? rank then b_unsqueeze_dims rank (map Z.of_N (upto (rank - r))) x else Some x.

Section TExec.
  Variable e : renv.
  Definition one (o : option (tensor elt)) : option (list rv) := option_map (fun t => [RTensor t]) o.
  Definition ranked (rank : N) (t : tensor elt) : option (tensor elt) := if N.of_nat (length (tshape t)) =? rank then Some t else None.
  Definition texec (t : tstmt) : option (list rv) :=
    match t with
    | UShapes s => option_map (fun v => [v]) (exec e s)
    | UIndex s => option_map (fun v => [v]) (iexec e s)
    | UPermute x p => one (obind (tens e x) (b_permute p))
    | UFlatten x a => one (obind (tens e x) (flatten_code a))
    | UReshape x l => one (obind (tens e x) (b_reshape_to l))
    | UOne x => one (obind (tens e x) (b_reshape_to [1%Z]))
    | UScalar x => obind (tens e x) (fun t => match tdata t with [v] => Some [RNative v] | _ => None end)
    | USqueeze x axes rank => one (obind (tens e x) (b_squeeze_dims rank axes))
    | UUnsqueeze x axes rank => one (obind (tens e x) (b_unsqueeze_dims rank axes))
    | UCat xs a => one (obind (mapo (tens e) xs) (b_cat a))
    | USlice x rs => one (obind (tens e x) (b_slice rs))
    | UTake x a ix rank => one (obind (tens e x) (fun t => obind (tens e ix) (fun i => obind (b_take a i t) (ranked rank))))
    | USelect x a ix => one (obind (tens e x) (fun t => obind (arr e ix) (fun is => b_select a is t)))
    | USelectOne x a i =>
        one (obind (tens e x) (fun t => match scalar e i with Some (EI z) => b_select a [z] t | _ => None end))
    | UPlace x rank a i =>
        one (obind (tens e x) (fun t =>
             obind (match i with ILiteral z => Some z | IExp s => match scalar e s with Some (EI z) => Some z | _ => None end end) (fun z =>
             obind (b_slice (map (fun k => if N.eqb k a then Some (one_place z) else None) (upto rank)) t)
                   (b_squeeze_dims (rank - 1) [Z.of_N a]))))
    | UWhere c x y rc rx ry =>
        one (obind (tens e c) (fun c => obind (tens e x) (fun x => obind (tens e y) (fun y =>
             obind (lead rc c) (fun c => obind (lead rx x) (fun x => obind (lead ry y) (fun y => b_mask_where c x y)))))))
    | UExpand x q ri ro =>
        one (obind (tens e x) (fun t => obind (match q with QLiteral l => Some l | QVar s => arr e s end) (fun l => expand_code l ri ro t)))
    | URepeat x reps => one (obind (tens e x) (b_repeat reps))
    | USplit x sizes a outs =>
        obind (tens e x) (fun t => obind (b_split a 0 sizes t) (fun ys => if Nat.eqb (length ys) outs then Some (map RTensor ys) else None))
    | USplitEven x a n outs =>
        obind (tens e x) (fun t => obind (nth_error (tshape t) (N.to_nat a)) (fun d =>
        obind (b_split a 0 (even_sizes d n) t) (fun ys => if Nat.eqb (length ys) outs then Some (map RTensor ys) else None)))
    | UDepthToSpace crd x bs => one (obind (tens e x) (depth_code crd bs))
    | USpaceToDepth x bs => one (obind (tens e x) (space_code bs))
    | UCumSum d x a ex re => one (obind (tens e x) (cumsum_code d a ex re))
    | UUncompilable => None
    end.
End TExec.

(** ** Type inference of the operators not modelled elsewhere *)

(** crates/onnx-ir/src/node/depth_to_space.rs:42-49, 156-181: the [expect]s make
    its errors panics. *)
Definition block_size (n : rnode) : ires N :=
  match get_attr n "blocksize" with None => IPanic | Some (AInt z) => IOk (to_usize z) | Some _ => IPanic end.
Definition depth_mode (n : rnode) : ires bool :=
  match get_attr n "mode" with
  | None => IOk false
  | Some (AString s) => if String.eqb s "DCR" then IOk false else if String.eqb s "CRD" then IOk true else IPanic
  | Some _ => IPanic
  end.
(** depth_to_space.rs:75-154 and space_to_depth.rs:56-133, without the static
    shape: [blocks] is what happens to it. *)
Definition infer_blocks (attrs : list string) (blocks : N -> list (option N) -> option (list (option N))) (ok : ires bool) (n : rnode) : ires argty :=
  if only_attrs n attrs then
    ibind (block_size n) (fun bs => ibind ok (fun ok =>
    ibind (first_input n) (fun i0 =>
      if negb ok || (bs =? 0) then IErr
      else match aty i0 with
           | TensorT t =>
               if negb (tt_rank t =? 4) then IErr
               else match tt_shape t with
                    | None => IOk (TensorT (mkTT (tt_dtype t) (tt_rank t) None))
                    | Some l => match blocks bs l with
                                | Some l' => IOk (TensorT (mkTT (tt_dtype t) (tt_rank t) (Some l')))
                                | None => IPanic end
                    end
           | _ => IErr
           end)))
  else IErr.
Definition infer_depth (opset : N) (n : rnode) : ires argty :=
  infer_blocks ["blocksize"; "mode"]%string
    (fun bs l => match l with
                 | [b; c; h; w] => Some [b; option_map (fun v => v / (bs * bs)) c; option_map (fun v => v * bs) h; option_map (fun v => v * bs) w]
                 | _ => None end)
    (ibind (depth_mode n) (fun crd => IOk (negb (crd && (opset <? 11))))) n.
Definition infer_space (n : rnode) : ires argty :=
  infer_blocks ["blocksize"]%string
    (fun bs l => match l with
                 | [b; c; h; w] => Some [b; option_map (fun v => v * bs * bs) c; option_map (fun v => v / bs) h; option_map (fun v => v / bs) w]
                 | _ => None end)
    (IOk true) n.

Section TNodes.
  Variable value : arg -> option cval.
  Variable opset : N.

  (** crates/onnx-ir/src/node/cumsum.rs:83-155. *)
  Definition cumsum_axis (n : rnode) : ires (option N) :=
    match ninputs n with
    | i0 :: i1 :: _ =>
        match value i1 with
        | None => IOk None
        | Some v =>
            match cv_ints v, aty i0 with
            | Some [a], TensorT t =>
                let a' := to_usize (if (a <? 0)%Z then (Z.of_N (tt_rank t) + a)%Z else a) in
                if tt_rank t <=? a' then IErr else IOk (Some a')
            | _, _ => IErr
            end
        end
    | _ => IPanic
    end.
  Definition attr_flag (n : rnode) (k : string) : ires bool :=
    match get_attr n k with None => IOk false | Some (AInt z) => IOk (negb (z =? 0)%Z) | Some _ => IPanic end.

  (** The types recorded for the outputs.  Tile and CumSum: the input's
      (crates/onnx-ir/src/node/tile.rs:86-105, cumsum.rs:72-81). *)
  Definition one_type (r : ires argty) : ires (list argty) := ibind r (fun ty => IOk [ty]).
  Definition infer_any (n : rnode) : ires (list argty) :=
    if String.eqb (ntype n) "Transpose" then one_type (infer_transpose n)
    else if String.eqb (ntype n) "Flatten" then one_type (infer_flatten n)
    else if String.eqb (ntype n) "Expand" then one_type (infer_expand value n)
    else if String.eqb (ntype n) "Tile" then one_type (infer_same n)
    else if String.eqb (ntype n) "Split" then infer_split value n
    else if String.eqb (ntype n) "DepthToSpace" then one_type (infer_depth opset n)
    else if String.eqb (ntype n) "SpaceToDepth" then one_type (infer_space n)
    else if String.eqb (ntype n) "CumSum" then one_type (infer_same n)
    else if String.eqb (ntype n) "GatherND" || String.eqb (ntype n) "ScatterND" then one_type (infer_index_node n)
    else one_type (infer_node value opset n).

  (** ** The generators.  [None] is a panic of the generator, or code that is
      not modelled. *)

  (** transpose.rs:12-20. *)
  Definition gen_transpose (n : rnode) (x : arg) : option tstmt :=
    match transpose_perm n with IOk p => Some (UPermute (aname x) p) | _ => None end.
  (** flatten.rs:12-29: with axis 0, [reshape] is written with one generic
      argument, elsewhere with two; it has two. *)
  Definition gen_flatten (n : rnode) (x : arg) : option tstmt :=
    match flatten_axis n with
    | IOk a => Some (if to_usize a =? 0 then UUncompilable else UFlatten (aname x) (to_usize a))
    | _ => None
    end.
  (** reshape.rs:22-56, with a tensor; the shape known when the code is
      generated. *)
  Definition gen_reshape_tensor (n : rnode) (x o : arg) : option tstmt :=
    match get_static_shape value n with
    | IOk (Some l) =>
        match aty o with
        | TensorT _ => Some (UReshape (aname x) l)
        | ScalarTensor _ => Some (UOne (aname x))
        | ScalarNative d => if existsb (dtype_beq d) [F32; F64; I32; I64; BoolT] then Some (UScalar (aname x)) else None
        | ShapeT _ => None
        end
    | _ => None
    end.
  (** squeeze.rs:19-43, 75-81; without axes it is left out. *)
  Definition gen_squeeze_tensor (n : rnode) (x o : arg) : option tstmt :=
    match aty o, squeeze_axes value opset n with
    | TensorT t, IOk (Some l) => Some (USqueeze (aname x) l (tt_rank t))
    | ScalarTensor _, _ => Some (UOne (aname x))
    | _, _ => None
    end.
  (** unsqueeze.rs:20-61; axes known only at run time are left out. *)
  Definition gen_unsqueeze_tensor (n : rnode) (x o : arg) : option tstmt :=
    match aty o, unsqueeze_axes value opset n with
    | TensorT t, IOk (Some l) => Some (UUnsqueeze (aname x) l (tt_rank t))
    | _, _ => None
    end.
  (** concat.rs:83-90. *)
  Definition gen_concat_tensor (n : rnode) : option tstmt :=
    match concat_axis n with IOk a => Some (UCat (map aname (ninputs n)) a) | _ => None end.

  (** slice.rs:45-113, static bounds: the range of each axis, [..] elsewhere. *)
  Definition range_of (start stop step : Z) : option brange :=
    if (stop =? 9223372036854775807)%Z then Some (mkRange start None step)
    else if (2147483647 <? stop)%Z then None
    else Some (mkRange start (Some stop) step).
  Fixpoint set_ranges (rank : N) (axes starts stops steps : list Z) (rs : list (option brange)) : option (list (option brange)) :=
    match starts, stops with
    | s :: starts, e :: stops =>
        match axes with
        | [] => set_ranges rank [] starts stops (tl steps) rs
        | a :: axes =>
            if to_usize a <? rank then
              match steps with
              | [] => None
              | k :: steps => obind (range_of s e k) (fun r => set_ranges rank axes starts stops steps (set_nth rs (N.to_nat (to_usize a)) (Some r)))
              end
            else set_ranges rank axes starts stops (tl steps) rs
        end
    | _, _ => Some rs
    end.
  Definition gen_slice_tensor (n : rnode) (t : tensor_type) (x : arg) : option tstmt :=
    match slice_config value n with
    | IOk c =>
        match sl_starts c, sl_ends c, sl_axes c, sl_steps c with
        | LStatic starts, LStatic stops, Some (LStatic axes), Some (LStatic steps) =>
            option_map (USlice (aname x)) (set_ranges (tt_rank t) axes starts stops steps (repeat None (N.to_nat (tt_rank t))))
        | _, _, _, _ => None
        end
    | _ => None
    end.

  (** gather.rs:197-335; a native scalar result is left out: inference does not
      record it. *)
  Definition literal_index (ix : arg) : option Z :=
    match value ix with Some v => match cv_ints v with Some [z] => Some z | _ => None end | None => None end.
  Definition gen_gather_tensor (n : rnode) (t : tensor_type) (x ix o : arg) : option tstmt :=
    match gather_axis n with
    | IOk a =>
        match aty o with
        | ScalarTensor _ => option_map (USelectOne (aname x) a) (index_exp ix)
        | TensorT _ =>
            match aty ix with
            | ScalarNative _ | ScalarTensor _ =>
                match literal_index ix with
                | Some z => Some (UPlace (aname x) (tt_rank t) a (ILiteral z))
                | None => option_map (fun s => UPlace (aname x) (tt_rank t) a (IExp s)) (index_exp ix)
                end
            | TensorT ti => Some (UTake (aname x) a (aname ix) (N.max 1 (tt_rank ti + tt_rank t - 1)))
            | ShapeT _ => Some (USelect (aname x) a (aname ix))
            end
        | _ => None
        end
    | _ => None
    end.
  (** where_op.rs:20-69, tensors. *)
  Definition gen_where_tensor (c x y o : arg) : option tstmt :=
    match aty c, aty x, aty y, aty o with
    | TensorT _, TensorT _, TensorT _, TensorT t => Some (UWhere (aname c) (aname x) (aname y) (tt_rank t) (tt_rank t) (tt_rank t))
    | _, _, _, _ => None
    end.
  (** expand.rs:12-81; scalars and a shape held in a tensor are left out. *)
  Definition gen_expand (n : rnode) (x q o : arg) : option tstmt :=
    match aty x, aty o with
    | TensorT t, TensorT to =>
        match value q with
        | Some v => option_map (fun l => UExpand (aname x) (QLiteral l) (tt_rank t) (tt_rank to)) (cv_ints v)
        | None => match aty q with ShapeT _ => Some (UExpand (aname x) (QVar (aname q)) (tt_rank t) (tt_rank to)) | _ => None end
        end
    | _, _ => None
    end.
  (** tile.rs:12-28 with crates/onnx-ir/src/node/tile.rs:107-133: [to_vec] of
      64-bit integers. *)
  Definition gen_tile (n : rnode) (x : arg) : option tstmt :=
    match ninputs n with
    | _ :: r :: _ => match value r with
                     | Some v => option_map (fun l => URepeat (aname x) (map to_usize l)) (cv_i64s v)
                     | None => None end
    | _ => Some (URepeat (aname x) [])
    end.
  (** split.rs:12-57; [split_size] is not set any more by the importer. *)
  Definition gen_split (n : rnode) (x : arg) : option tstmt :=
    match split_config value n with
    | IOk c =>
        match sp_sizes c, sp_num c with
        | Some (SStatic l), _ => Some (USplit (aname x) l (sp_axis c) (length (noutputs n)))
        | Some (SRuntime _), _ => None
        | None, Some k => Some (USplitEven (aname x) (sp_axis c) k (length (noutputs n)))
        | None, None => None
        end
    | _ => None
    end.
  Definition gen_depth (n : rnode) (x : arg) : option tstmt :=
    match block_size n, depth_mode n with IOk bs, IOk crd => Some (UDepthToSpace crd (aname x) bs) | _, _ => None end.
  Definition gen_space (n : rnode) (x : arg) : option tstmt :=
    match block_size n with IOk bs => Some (USpaceToDepth (aname x) bs) | _ => None end.
  (** cumsum.rs:19-43; an axis known only at run time is left out. *)
  Definition gen_cumsum (n : rnode) (x : arg) : option tstmt :=
    match cumsum_axis n, attr_flag n "exclusive", attr_flag n "reverse" with
    | IOk (Some a), IOk ex, IOk re => Some (UCumSum (input_dtype (aty x)) (aname x) a ex re)
    | _, _, _ => None
    end.

  Definition gen_any (n : rnode) : option tstmt :=
    match ninputs n, noutputs n with
    | x :: more, o :: _ =>
        if String.eqb (ntype n) "Transpose" then gen_transpose n x
        else if String.eqb (ntype n) "Flatten" then gen_flatten n x
        else if String.eqb (ntype n) "Expand" then match more with q :: _ => gen_expand n x q o | [] => None end
        else if String.eqb (ntype n) "Tile" then gen_tile n x
        else if String.eqb (ntype n) "Split" then gen_split n x
        else if String.eqb (ntype n) "DepthToSpace" then gen_depth n x
        else if String.eqb (ntype n) "SpaceToDepth" then gen_space n x
        else if String.eqb (ntype n) "CumSum" then gen_cumsum n x
        else if String.eqb (ntype n) "GatherND" || String.eqb (ntype n) "ScatterND" then option_map UIndex (gen_index_node n)
        else
          match kind_of n, aty x, more with
          | Some KReshape, TensorT _, _ => gen_reshape_tensor n x o
          | Some KSqueeze, TensorT _, _ => gen_squeeze_tensor n x o
          | Some KUnsqueeze, TensorT _, _ => gen_unsqueeze_tensor n x o
          | Some KSlice, TensorT t, _ => gen_slice_tensor n t x
          | Some KGather, TensorT t, ix :: _ => gen_gather_tensor n t x ix o
          | Some KConcat, _, _ =>
              match aty o with
              | TensorT _ => if existsb (fun a => is_scalar (aty a)) (ninputs n) then None else gen_concat_tensor n
              | _ => option_map UShapes (gen_node value n)
              end
          | Some KWhere, _, a :: b :: _ =>
              match aty o with TensorT _ => gen_where_tensor x a b o | _ => option_map UShapes (gen_node value n) end
          | _, _, _ => option_map UShapes (gen_node value n)
          end
    | _, _ => None
    end.

  (** crates/burn-onnx/src/burn/graph.rs:548-553. *)
  Fixpoint gen_program (ns : list rnode) : option (list (list string * tstmt)) :=
    match ns with
    | [] => Some []
    | n :: r => match gen_any n, gen_program r with
                | Some s, Some b => Some ((map aname (noutputs n), s) :: b)
                | _, _ => None
                end
    end.
End TNodes.

Fixpoint exec_program (b : list (list string * tstmt)) (e : renv) : option renv :=
  match b with
  | [] => Some e
  | (xs, s) :: r => obind (texec e s) (fun vs => if Nat.eqb (length vs) (length xs) then exec_program r (bind_all e xs vs) else None)
  end.
