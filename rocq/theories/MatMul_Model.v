(** The expressions emitted for matrix products:
    crates/burn-onnx/src/burn/node/{matmul,matmul_integer,gemm}.rs, and the types
    recorded for them: crates/onnx-ir/src/node/{matmulinteger,gemm}.rs (MatMul:
    [infer_matmul], RankOps_Model). *)
From Verif Require Export RankOps_Model BinOps_Model TensorRun_Model.
From Verif Require Import Import_Model Linear_Spec.
From Verif Require Export MatMul_Spec.
Import MatMul_Spec Tensor_Spec.
Local Open Scope N_scope.

(** ** The emitted expressions *)
Inductive mexp :=
| MVar (x : string)
| MLead (rank : N) (e : mexp)                      (* e.unsqueeze::<rank>() *)
| MUnsqueeze (rank : N) (axes : list Z) (e : mexp) (* e.unsqueeze_dims(&axes), of this rank *)
| MProduct (a b : mexp)                            (* a.matmul(b) *)
| MSqueeze (rank : N) (d : N) (e : mexp)           (* e.squeeze_dim::<rank>(d) *)
| MCast (e : mexp)                                 (* e.cast(i32) *)
| MSub (a b : mexp)
| MTranspose (e : mexp)
| MScale (e : mexp) (by_ : N)                      (* e * literal: the bits of an f32 *)
| MAdd (a b : mexp).

(** matmul.rs:46-93, matmul_integer.rs:59-107.  The rank of the result is the
    recorded one in the first, computed in the second. *)
Definition product_code (l r : mexp) (lr rr out_left out_right : N) : mexp :=
  match (lr ?= rr) with
  | Gt => if rr =? 1
          then MSqueeze out_left (lr - 1) (MProduct l (MUnsqueeze lr ((-1)%Z :: repeat 0%Z (N.to_nat (lr - rr - 1))) r))
          else MProduct l (MLead lr r)
  | Lt => if lr =? 1
          then MSqueeze out_right (rr - 2) (MProduct (MLead rr l) r)
          else MProduct (MLead rr l) r
  | Eq => MProduct l r
  end.
(** matmul.rs:13-95: [None] is a panic of the generator. *)
Definition gen_matmul (n : rnode) : option mexp :=
  match ninputs n, noutputs n with
  | a :: b :: _, o :: _ =>
      match aty a, aty b, aty o with
      | TensorT ta, TensorT tb, TensorT to =>
          if float_type (tt_dtype ta)
          then Some (product_code (MVar (aname a)) (MVar (aname b)) (tt_rank ta) (tt_rank tb) (tt_rank to) (tt_rank to))
          else None
      | _, _, _ => None
      end
  | _, _ => None
  end.

(** matmul_integer.rs:34-56; an omitted input has no identifier.  A native zero
    point does not compile; running it fails. *)
Definition centered (x : arg) (rank : N) (zp : option arg) : option mexp :=
  match zp with
  | None => Some (MCast (MVar (aname x)))
  | Some z => if String.eqb (aname z) "" then None
              else Some (MSub (MCast (MVar (aname x)))
                              (if 1 <? rank then MLead rank (MCast (MVar (aname z))) else MCast (MVar (aname z))))
  end.
(** matmul_integer.rs:12-109. *)
Definition gen_matmul_integer (n : rnode) : option mexp :=
  match ninputs n, noutputs n with
  | a :: b :: zs, o :: _ =>
      match aty a, aty b with
      | TensorT ta, TensorT tb =>
          obind (centered a (tt_rank ta) (nth_error zs 0)) (fun l =>
          obind (centered b (tt_rank tb) (nth_error zs 1)) (fun r =>
          Some (product_code l r (tt_rank ta) (tt_rank tb) (tt_rank ta - 1) (tt_rank tb - 1))))
      | _, _ => None
      end
  | _, _ => None
  end.
(** matmulinteger.rs:35-92; the opset is taken to be 10 or more. *)
Definition infer_matmul_integer (n : rnode) : ires argty :=
  match ninputs n, noutputs n with
  | a :: b :: _, [_] =>
      match aty a, aty b with
      | TensorT ta, TensorT tb =>
          let out := N.max (tt_rank ta) (tt_rank tb) in
          IOk (TensorT (mkTT I32 (if (((2 <=? tt_rank ta) && (tt_rank tb =? 1)) || ((tt_rank ta =? 1) && (2 <=? tt_rank tb)))%bool
                                  then out - 1 else out) None))
      | _, _ => IErr
      end
  | _, _ => IErr
  end.

(** crates/onnx-ir/src/node/gemm.rs:128-151.  An attribute of another type is a
    panic; the loop over the attributes is a lookup of each. *)
Record gemm_config := mkGemm { g_alpha : N; g_beta : N; g_ta : Z; g_tb : Z }.
Definition gemm_known (k : string) : bool := existsb (String.eqb k) ["alpha"; "beta"; "transA"; "transB"]%string.
Definition gemm_config_of (n : rnode) : option gemm_config :=
  if forallb (fun kv => gemm_known (fst kv)) (nattrs n) then
    let fl k := match get_attr n k with None => Some f32_one | Some (AFloat b) => Some b | _ => None end in
    let it k := match get_attr n k with None => Some 0%Z | Some (AInt z) => Some z | _ => None end in
    obind (fl "alpha"%string) (fun al => obind (fl "beta"%string) (fun be =>
    obind (it "transA"%string) (fun ta => obind (it "transB"%string) (fun tb => Some (mkGemm al be ta tb)))))
  else None.
(** gemm.rs:75-126. *)
Definition infer_gemm (n : rnode) : ires argty :=
  match ninputs n with
  | a :: b :: _ =>
      match aty a, aty b with
      | TensorT ta, TensorT tb => IOk (TensorT (mkTT (tt_dtype ta) (N.max (tt_rank ta) (tt_rank tb)) None))
      | _, _ => IErr
      end
  | _ => IPanic
  end.
(** crates/burn-onnx/src/burn/node/gemm.rs:12-75.  [c.unsqueeze()]: the rank is
    that of the sum, two. *)
Definition gen_gemm (n : rnode) : option mexp :=
  match ninputs n, gemm_config_of n with
  | a :: b :: r, Some g =>
      let side tr x := if Z.eqb tr 0 then MVar (aname x) else MTranspose (MVar (aname x)) in
      let product := MProduct (side (g_ta g) a) (side (g_tb g) b) in
      let scaled := if g_alpha g =? f32_one then product else MScale product (g_alpha g) in
      match r with
      | [] => Some scaled
      | c :: _ =>
          if String.eqb (aname c) "" then None else
          obind (match aty c with
                 | TensorT _ => Some (MLead 2 (MVar (aname c)))
                 | ScalarNative _ => Some (MVar (aname c))
                 | _ => None end) (fun c' =>
          Some (MAdd scaled (if g_beta g =? f32_one then c' else MScale c' (g_beta g))))
      end
  | _, _ => None
  end.

(** ** Running it.  Burn's methods (not part of this code base), as documented;
    [None] is a panic. *)
Section Run.
  Context {T : Type}.
  Variable dot : list T -> list T -> option T.
  Variables (add sub mul : T -> T -> T) (of_f32 : N -> T).

  (** [unsqueeze]: ones in front up to the rank. *)
  Definition b_lead (rank : N) (x : tensor T) : option (tensor T) :=
    if (length (tshape x) <=? N.to_nat rank)%nat then Some (unsqueeze (N.to_nat rank - length (tshape x)) x) else None.
  (** [unsqueeze_dims]: at most one negative axis, counted from the end of the
      result; in ascending order, each axis puts a one at its place or, when that
      is taken, at the next. *)
  Fixpoint insert_z (a : Z) (l : list Z) : list Z :=
    match l with [] => [a] | b :: l' => if (a <=? b)%Z then a :: l else b :: insert_z a l' end.
  Fixpoint put_ones (axes : list Z) (at_ : Z) (s : list N) : option (list N) :=
    match axes with
    | [] => Some s
    | a :: r =>
        let k := Z.to_nat (a - at_) in
        if (k <=? length s)%nat
        then option_map (fun t => firstn k s ++ 1 :: t) (put_ones r (at_ + Z.of_nat k + 1) (skipn k s)) else None
    end.
  Definition b_unsqueeze_at (rank : N) (axes : list Z) (x : tensor T) : option (tensor T) :=
    if ((length (filter (fun a => a <? 0)%Z axes) <=? 1)%nat && (length (tshape x) + length axes =? N.to_nat rank)%nat &&
        forallb (fun a => (- Z.of_N rank <=? a) && (a <? Z.of_N rank))%Z axes)%bool
    then option_map (fun s => mkT s (tdata x))
           (put_ones (fold_right insert_z [] (map (fun a => if (a <? 0)%Z then (a + Z.of_N rank)%Z else a) axes)) 0 (tshape x))
    else None.
  (** [matmul]: on tensors of one rank, at least two, the batched product with
      batch dimensions broadcast. *)
  Definition b_matmul (x y : tensor T) : option (tensor T) :=
    if ((length (tshape x) =? length (tshape y)) && (2 <=? length (tshape x)))%nat%bool then matrix_product dot x y else None.
  Definition b_transpose (x : tensor T) : option (tensor T) :=
    match rev (tshape x) with
    | n :: m :: b => tab (rev b ++ [n; m]) (fun idx =>
        let p := firstn (length b) idx in
        get x (p ++ [nth (S (length b)) idx 0; nth (length b) idx 0]))
    | _ => None
    end.
  (** An operation on two tensors of one rank, dimensions of size one repeated. *)
  Definition b_zip (op : T -> T -> T) (x y : tensor T) : option (tensor T) :=
    if (length (tshape x) =? length (tshape y))%nat then broadcast2 (fun a b => Some (op a b)) x y else None.
  Definition b_map (f : T -> T) (x : tensor T) : tensor T := mkT (tshape x) (map f (tdata x)).

  (** Casting integers to the wider i32 keeps them. *)
  Fixpoint mrun (e : menv T) (c : mexp) : option (mval T) :=
    let tens c k := match mrun e c with Some (VTensor t) => option_map VTensor (k t) | _ => None end in
    match c with
    | MVar x => e x
    | MLead rank c => tens c (b_lead rank)
    | MUnsqueeze rank axes c => tens c (b_unsqueeze_at rank axes)
    | MProduct a b => match mrun e a, mrun e b with
                      | Some (VTensor x), Some (VTensor y) => option_map VTensor (b_matmul x y) | _, _ => None end
    | MSqueeze rank d c => tens c (b_squeeze_dims rank [Z.of_N d])
    | MCast c => tens c Some
    | MSub a b => match mrun e a, mrun e b with
                  | Some (VTensor x), Some (VTensor y) => option_map VTensor (b_zip sub x y) | _, _ => None end
    | MTranspose c => tens c b_transpose
    | MScale c by_ => match mrun e c with
                      | Some (VTensor x) => Some (VTensor (b_map (fun v => mul v (of_f32 by_)) x))
                      | Some (VNative v) => Some (VNative (mul v (of_f32 by_)))
                      | None => None end
    | MAdd a b => match mrun e a, mrun e b with
                  | Some (VTensor x), Some (VTensor y) => option_map VTensor (b_zip add x y)
                  | Some (VTensor x), Some (VNative v) => Some (VTensor (b_map (fun u => add u v) x))
                  | _, _ => None end
    end.
End Run.
