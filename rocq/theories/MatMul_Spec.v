(** What ONNX prescribes for MatMul and MatMulInteger (Gemm: Linear_Spec).
    Nothing here mentions the generated code. *)
From Verif Require Export Tensor_Spec IR_Model.
From Verif Require Import Linear_Spec.
Import Tensor_Spec.
Local Open Scope N_scope.

Section Product.
  Context {T : Type}.
  (** The sum of the products of a row and a column, in whatever order it is
      added up; [None] when it is not a value of the type. *)
  Variable dot : list T -> list T -> option T.

  (** Matrices in the last two dimensions, the others are broadcast. *)
  Definition matrix_product (x y : tensor T) : option (tensor T) :=
    match rev (tshape x), rev (tshape y) with
    | k :: m :: bx, n :: k' :: by_ =>
        match bshape (rev bx) (rev by_) with
        | Some b =>
            if k =? k' then
              tab (b ++ [m; n]) (fun idx =>
                let here := firstn (length b) idx in
                let i := nth (length b) idx 0 in
                let j := nth (S (length b)) idx 0 in
                match mapo (fun l => get x (bproj (rev bx) here ++ [i; l])) (upto k),
                      mapo (fun l => get y (bproj (rev by_) here ++ [l; j])) (upto k) with
                | Some row, Some column => dot row column
                | _, _ => None
                end)
            else None
        | None => None
        end
    | _, _ => None
    end.

  (** numpy.matmul: a vector on the left is a matrix of one row, on the right a
      matrix of one column; the added dimension is dropped from the result. *)
  Definition is_vector (x : tensor T) : bool := Nat.eqb (length (tshape x)) 1.
  Definition as_row (x : tensor T) : tensor T := if is_vector x then mkT (1 :: tshape x) (tdata x) else x.
  Definition as_column (x : tensor T) : tensor T := if is_vector x then mkT (tshape x ++ [1]) (tdata x) else x.
  Definition onnx_matmul (x y : tensor T) : option (tensor T) :=
    match matrix_product (as_row x) (as_column y) with
    | Some p =>
        let b := (length (tshape p) - 2)%nat in
        Some (mkT (firstn b (tshape p) ++ (if is_vector x then [] else [nth b (tshape p) 0]) ++
                   (if is_vector y then [] else [nth (S b) (tshape p) 0])) (tdata p))
    | None => None
    end.
End Product.

(** ** MatMulInteger: the zero points are subtracted first: one number, or one
    for each row of the left matrix or each column of the right one. *)
Definition zero_point (z : option (tensor Z)) (k : N) : option Z :=
  match z with
  | None => Some 0%Z
  | Some z => match tshape z with
              | [] => nth_error (tdata z) 0
              | _ => nth_error (tdata z) (N.to_nat k)
              end
  end.
Definition enough (z : option (tensor Z)) (count : N) : bool :=
  match z with
  | None => true
  | Some z => match tshape z with [] => true | [c] => c =? count | _ => false end
  end.
(** [which] picks the row or the column out of an index, and their number out of
    a shape. *)
Definition shifted (z : option (tensor Z)) (which : list N -> N) (x : tensor Z) : option (tensor Z) :=
  if enough z (which (tshape x))
  then tab (tshape x) (fun idx => lift2 Z.sub (get x idx) (zero_point z (which idx)))
  else None.
Definition row_of (idx : list N) : N := last (removelast idx) 0.
Definition column_of (idx : list N) : N := last idx 0.
(** Products are summed in 32 bits. *)
Definition sum32 (u v : list Z) : option Z :=
  let s := fold_right Z.add 0%Z (map (fun p => (fst p * snd p)%Z) (combine u v)) in
  if ((-2147483648 <=? s) && (s <=? 2147483647))%Z then Some s else None.
Definition onnx_matmul_integer (a b : tensor Z) (za zb : option (tensor Z)) : option (tensor Z) :=
  match shifted za row_of a, shifted zb column_of b with
  | Some a', Some b' => onnx_matmul sum32 a' b'
  | _, _ => None
  end.

(** ** The variables of the program: tensors on the device, native numbers. *)
Inductive mval (T : Type) := VTensor (t : tensor T) | VNative (v : T).
Arguments VTensor {T}. Arguments VNative {T}.
Definition menv (T : Type) := string -> option (mval T).
(** The variable of [a] holds [x], in the form its type prescribes. *)
Definition mholds {T} (e : menv T) (a : arg) (x : tensor T) : Prop :=
  twf x /\
  match aty a with
  | TensorT t => e (aname a) = Some (VTensor x) /\ tt_rank t = N.of_nat (length (tshape x)) /\ (0 < length (tshape x))%nat
  | ScalarTensor _ => tshape x = [] /\ e (aname a) = Some (VTensor (mkT [1] (tdata x)))
  | ScalarNative _ => tshape x = [] /\ exists v, tdata x = [v] /\ e (aname a) = Some (VNative v)
  | ShapeT _ => False
  end.
(** A result of type [ty] is the ONNX value [z]. *)
Definition result_ok {T} (ty : argty) (v : mval T) (z : tensor T) : Prop :=
  exists t, ty = TensorT t /\ v = VTensor z /\ tt_rank t = N.of_nat (length (tshape z)).

(** ** The nodes the theorems are about.  Left out: the product of two vectors,
    products of integers (both fail, see MatMul_Props). *)
Definition float_type (d : dtype) : bool := match d with F64 | F32 | F16 | BF16 => true | _ => false end.
Definition covered_matmul {T} (n : rnode) (x y : tensor T) : Prop :=
  exists a b ta tb, ninputs n = [a; b] /\ aty a = TensorT ta /\ aty b = TensorT tb /\ float_type (tt_dtype ta) = true /\
    ~ (length (tshape x) = 1%nat /\ length (tshape y) = 1%nat).
(** Left out: zero points held as native numbers, omitted between others, one
    for each row, and zero points for a vector other than a single one. *)
Definition on_device (a : arg) : Prop := match aty a with ScalarTensor _ | TensorT _ => True | _ => False end.
Inductive zero_points (e : menv Z) : list arg -> option (tensor Z) -> option (tensor Z) -> nat -> Prop :=
| zp_none r : zero_points e [] None None r
| zp_left a z r : mholds e a z -> on_device a -> aname a <> ""%string -> tshape z = [] -> zero_points e [a] (Some z) None r
| zp_both a z b w r : mholds e a z -> on_device a -> aname a <> ""%string -> tshape z = [] ->
    mholds e b w -> on_device b -> aname b <> ""%string -> tshape w = [] \/ ((2 <= r)%nat /\ length (tshape w) = 1%nat) ->
    zero_points e [a; b] (Some z) (Some w) r.
(** Gemm.  Left out: a third input that is a scalar on the device, or omitted
    by an empty name. *)
Definition gemm_attrs (n : rnode) : Prop :=
  Forall (fun kv => match snd kv with
                    | AFloat _ => In (fst kv) ["alpha"; "beta"]%string
                    | AInt _ => In (fst kv) ["transA"; "transB"]%string
                    | _ => False end) (nattrs n).
Definition third_input {T} (e : menv T) (cs : list arg) (C : option (tensor T)) : Prop :=
  match cs, C with
  | [], None => True
  | [c], Some t => mholds e c t /\ aname c <> ""%string /\ match aty c with TensorT _ | ScalarNative _ => True | _ => False end
  | _, _ => False
  end.
