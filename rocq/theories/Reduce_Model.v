(** The code emitted for reductions: crates/burn-onnx/src/burn/node/reduce.rs.
    The configuration and the recorded types are in RankOps_Model
    ([reduce_config], [infer_reduce]). *)
From Verif Require Export TensorRun_Model.
From Verif Require Import Reduce_Spec.
Import Tensor_Spec BinOps_Spec RankOps_Spec ShapeRun_Spec TensorRun_Spec.
Local Open Scope N_scope.

(** reduce.rs:4-15. *)
Inductive reduction_type := TMin | TMax | TSum | TProd | TMean | TL1 | TL2 | TLogSum | TLogSumExp | TSumSquare.

(** ** The emitted expressions *)
(** Burn's reductions ([sum] and [sum_dim], ...), its element-wise functions,
    and the expressions made of them.  [XLet x e f]: [let x = e; f]; [XHide x f]: [let]
    of [x] to the type or the shape of a tensor. *)
Inductive meth := MSum | MProd | MMax | MMin | MMean | MAny | MAll.
Inductive fn := FAbs | FSquare | FSqrt | FLog | FExp.
Inductive rexp :=
| XVar (x : string)
| XFn (f : fn) (e : rexp)
| XAll (m : meth) (e : rexp)
| XDim (m : meth) (e : rexp) (d : N)
| XOnes (e : rexp) (rank : N)                (* e.expand([1; rank]) *)
| XSqueeze (e : rexp) (rank : N) (dims : list N)   (* e.squeeze_dims::<rank>(&dims) *)
| XOne (e : rexp)                            (* e.reshape([1]) *)
| XExpandAs (e : rexp) (x : rexp)            (* e.expand(x.shape()) *)
| XSub (a b : rexp)
| XAdd (a b : rexp)
| XLet (x : string) (e f : rexp)
| XHide (x : string) (f : rexp).

(** reduce.rs:19-40: [panic!] and [None] for the others. *)
Definition meth_of (t : reduction_type) : option meth :=
  match t with TMin => Some MMin | TMax => Some MMax | TSum => Some MSum | TProd => Some MProd | TMean => Some MMean | _ => None end.
(** reduce.rs:42-71. *)
Definition reduce_by_dims (m : meth) (e : rexp) (dims : list N) (keep : bool) (out_rank : N) : rexp :=
  let r := fold_left (XDim m) dims e in
  if keep then r else if out_rank =? 0 then r else XSqueeze r out_rank dims.
(** reduce.rs:73-97, with one of the five methods; [input_rank] plays no role then. *)
Definition forward_reduce (m : meth) (e : rexp) (dims : list N) (keep : bool) (out_rank : N) : rexp :=
  match dims with
  | [] => if keep then XOnes (XAll m e) out_rank else XAll m e
  | _ => reduce_by_dims m e dims keep out_rank
  end.

(** reduce.rs:120-125. *)
Definition out_rank_of (ty : argty) : option N :=
  match ty with TensorT t => Some (tt_rank t) | ScalarTensor _ => Some 1 | ScalarNative _ => Some 0 | ShapeT _ => None end.
(** reduce.rs:134-185: booleans under Min and Max. *)
Definition bool_reduce (m : meth) (x : string) (dims : list N) (keep : bool) (ty : argty) (out_rank : N) : rexp :=
  let r := match dims with [] => XAll m (XVar x) | _ => fold_left (XDim m) dims (XVar x) end in
  if keep then match dims with [] => XOnes r out_rank | _ => r end
  else match ty with
       | ScalarTensor _ => XOne r
       | _ => if out_rank =? 0 then r else XSqueeze r out_rank dims
       end.
(** reduce.rs:187-343.  The casts to 32-bit floats and back are not modelled:
    on real numbers they do nothing.  [LogSumExp]: 271-315. *)
Definition raw_reduce (t : reduction_type) (x : string) (dims : list N) (keep : bool) (out_rank : N) : option rexp :=
  match t with
  | TSumSquare => Some (forward_reduce MSum (XFn FSquare (XVar x)) dims keep out_rank)
  | TL1 => Some (forward_reduce MSum (XFn FAbs (XVar x)) dims keep out_rank)
  | TL2 => Some (XHide "input_dtype" (XFn FSqrt (forward_reduce MSum (XFn FSquare (XVar x)) dims keep out_rank)))
  | TLogSum => Some (XHide "input_dtype" (XFn FLog (forward_reduce MSum (XVar x) dims keep out_rank)))
  | TLogSumExp =>
      Some (XHide "input_dtype" (XHide "input_shape" (
            XLet "input_double" (XVar x) (
            XLet "input_max_reduced" (forward_reduce MMax (XVar "input_double") dims keep out_rank) (
            XLet "input_exp_reduced" (XFn FExp (XSub (XVar "input_double") (XExpandAs (XVar "input_max_reduced") (XVar "input_double")))) (
            XLet "exp_sum_reduced" (forward_reduce MSum (XVar "input_exp_reduced") dims keep out_rank) (
            XAdd (XVar "input_max_reduced") (XFn FLog (XVar "exp_sum_reduced")))))))))
  | _ => option_map (fun m => forward_reduce m (XVar x) dims keep out_rank) (meth_of t)
  end%string.

Definition reduction_of (ty : string) : option reduction_type :=
  if String.eqb ty "ReduceMax" then Some TMax
  else if String.eqb ty "ReduceMin" then Some TMin
  else if String.eqb ty "ReduceSum" then Some TSum
  else if String.eqb ty "ReduceProd" then Some TProd
  else if String.eqb ty "ReduceMean" then Some TMean
  else if String.eqb ty "ReduceL1" then Some TL1
  else if String.eqb ty "ReduceL2" then Some TL2
  else if String.eqb ty "ReduceLogSum" then Some TLogSum
  else if String.eqb ty "ReduceLogSumExp" then Some TLogSumExp
  else if String.eqb ty "ReduceSumSquare" then Some TSumSquare
  else None.

Section Nodes.
  Variable value : arg -> option cval.
  (** reduce.rs:110-358.  A native scalar result is left out: inference does not
      record it (crates/onnx-ir/src/node/reduce.rs:202-247). *)
  Definition gen_reduce (n : rnode) : option rexp :=
    match reduction_of (ntype n), ninputs n, noutputs n, reduce_config value n with
    | Some t, x :: _, o :: _, IOk (dims, keep) =>
        match aty x, out_rank_of (aty o) with
        | TensorT ti, Some r =>
            match tt_dtype ti, t with
            | BoolT, TMin => match aty o with ScalarNative _ => None | _ => Some (bool_reduce MAll (aname x) dims keep (aty o) r) end
            | BoolT, TMax => match aty o with ScalarNative _ => None | _ => Some (bool_reduce MAny (aname x) dims keep (aty o) r) end
            | _, _ =>
                match aty o with
                | TensorT _ => raw_reduce t (aname x) dims keep r
                | ScalarTensor _ => option_map XOne (raw_reduce t (aname x) dims keep r)
                | _ => None
                end
            end
        | _, _ => None
        end
    | _, _, _, _ => None
    end.
End Nodes.

(** ** Running it.  What the methods do with elements is a parameter. *)
Record algebra (A : Type) := mkAlg { fold_of : meth -> list A -> option A; map_of : fn -> A -> option A; add_of : A -> A -> option A; sub_of : A -> A -> option A }.
Arguments fold_of {A}. Arguments map_of {A}. Arguments add_of {A}. Arguments sub_of {A}.
Section Run.
  Context {A : Type}.
  Variable alg : algebra A.

  (** Burn's methods (not part of this code base): all elements into one; along
      one dimension, whose size becomes 1; element by element; two tensors of
      one shape. *)
  Definition b_all (m : meth) (x : tensor A) : option (tensor A) := option_map (fun v => mkT [1] [v]) (fold_of alg m (tdata x)).
  Definition b_dim (m : meth) (d : N) (x : tensor A) : option (tensor A) :=
    let a := N.to_nat d in
    if (a <? length (tshape x))%nat then
      tab (firstn a (tshape x) ++ 1 :: skipn (S a) (tshape x))
          (fun idx => obind (mapo (fun k => get x (firstn a idx ++ k :: skipn (S a) idx)) (upto (nth a (tshape x) 0))) (fold_of alg m))
    else None.
  Definition b_map (f : fn) (x : tensor A) : option (tensor A) := option_map (mkT (tshape x)) (mapo (map_of alg f) (tdata x)).
  Definition b_two (f : A -> A -> option A) (x y : tensor A) : option (tensor A) :=
    if all2 N.eqb (tshape x) (tshape y)
    then option_map (mkT (tshape x)) (mapo (fun xy => f (fst xy) (snd xy)) (combine (tdata x) (tdata y))) else None.

  Definition tenv := string -> option (tensor A).
  Definition hide (e : tenv) (x : string) : tenv := fun y => if String.eqb y x then None else e y.
  Fixpoint reval (e : tenv) (r : rexp) : option (tensor A) :=
    match r with
    | XVar x => e x
    | XFn f r => obind (reval e r) (b_map f)
    | XAll m r => obind (reval e r) (b_all m)
    | XDim m r d => obind (reval e r) (b_dim m d)
    | XOnes r k => obind (reval e r) (b_expand (repeat 1%Z (N.to_nat k)))
    | XSqueeze r k dims => obind (reval e r) (b_squeeze_dims k (map Z.of_N dims))
    | XOne r => obind (reval e r) (b_reshape_to [1%Z])
    | XExpandAs r x => obind (reval e r) (fun t => obind (reval e x) (fun y => b_expand (map Z.of_N (tshape y)) t))
    | XSub a b => obind (reval e a) (fun x => obind (reval e b) (b_two (sub_of alg) x))
    | XAdd a b => obind (reval e a) (fun x => obind (reval e b) (b_two (add_of alg) x))
    | XLet x r f => obind (reval e r) (fun t => reval (bind e x t) f)
    | XHide x f => reval (hide e x) f
    end.
End Run.

(** Integers and booleans: no result when a number on the way leaves the type;
    no maximum of nothing. *)
Fixpoint fold_fits (d : dtype) (f : Z -> Z -> Z) (acc : Z) (l : list Z) : option elt :=
  match l with
  | [] => Some (EI acc)
  | z :: r => if BinOps_Spec.fits d (EI (f acc z)) then fold_fits d f (f acc z) r else None
  end.
Definition int_fold (d : dtype) (m : meth) (l : list Z) : option elt :=
  match m, l with
  | MSum, _ => fold_fits d Z.add 0 l
  | MProd, _ => fold_fits d Z.mul 1 l
  | MMax, z :: r => fold_fits d Z.max z r
  | MMin, z :: r => fold_fits d Z.min z r
  | _, _ => None
  end.
Definition bool_fold (m : meth) (l : list bool) : option elt :=
  match m with
  | MAny => Some (EB (fold_left orb l false))
  | MAll => Some (EB (fold_left andb l true))
  | _ => None
  end.
Definition int_map (d : dtype) (f : fn) (x : elt) : option elt :=
  let put z := if BinOps_Spec.fits d (EI z) then Some (EI z) else None in
  match x, f with
  | EI z, FAbs => put (Z.abs z)
  | EI z, FSquare => put (z * z)%Z
  | _, _ => None
  end.
Definition elements (d : dtype) : algebra elt :=
  mkAlg elt (fun m l => match d with
                        | BoolT => obind (mapo bool_of l) (bool_fold m)
                        | _ => obind (mapo int_of l) (int_fold d m)
                        end)
        (int_map d) (fun _ _ => None) (fun _ _ => None).

(** The program's variables. *)
Definition tensors (e : renv) : tenv := fun x => match e x with Some (RTensor t) => Some t | _ => None end.
Definition exec_reduce (d : dtype) (e : renv) (r : rexp) : option (list rv) := option_map (fun t => [RTensor t]) (reval (elements d) (tensors e) r).
