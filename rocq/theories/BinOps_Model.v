(** The expressions emitted for the two-operand element-wise operators:
    crates/burn-onnx/src/burn/node/{add,sub,mul,div,modulo,equal,greater,greater_equal,
    lower,lower_equal,bool_and,bool_or,bool_xor,max,min,bitwiseand,bitwiseor,
    bitwisexor,bitshift}.rs, function [forward] of each.  [Mod] is modelled
    without its [fmod] attribute. *)
From Coq Require Import SpecFloat.
From Verif Require Export BinOps_Spec Infer_Model.
Local Open Scope Z_scope.

(** ** The emitted code *)

(** The two operands. *)
Inductive who := L | R.

(** Methods of Burn tensors; the variants ending in [_scalar] or [_elem] take a
    native scalar and are the same method in [CScalar]. *)
Inductive method :=
| MAdd | MSub | MMul | MDiv | MRemainder
| MEqual | MGreater | MGreaterEqual | MLower | MLowerEqual
| MBoolAnd | MBoolOr | MNotEqual | MMaxPair | MMinPair
| MBitwiseAnd | MBitwiseOr | MBitwiseXor | MLeftShift | MRightShift.

(** Rust's infix operators. *)
Inductive infix :=
| IPlus | IMinus | ITimes | ISlash | IPercent | IEqEq | IGt | IGe | ILt | ILe
| IAndAnd | IOrOr | ICaret | IAmp | IBar | IShl | IShr.

(** The right-hand side of [*result_item = ..] in the loops over arrays; the
    variants ending in [Rev] have the operands in the other order. *)
Inductive update :=
| USatAdd | USatSub | USatSubRev | USatMul | UDivOr | UDivOrRev
| UEq | UGt | UGe | ULt | ULe | UAnd | UOr | UXor.

(** Tensor expressions. *)
Inductive dexp :=
| DVar (w : who)
| DUnsqueeze (k : nat) (e : dexp)      (* e.unsqueeze_dims(&[0, .., k-1]) *)
| DFromShape (w : who)                 (* Tensor::<B, 1, Int>::from_data_dtype(array) *)
| DFromNative (w : who)                (* Tensor::<B, 1, _>::from_data_dtype([x]) *)
| DFullLike (t x : who).               (* t.full_like(x) *)
(** The branches of [if x { .. } else { .. }]. *)
Inductive mexp := MKeep (w : who) | MZeros (w : who) | MOnes (w : who) | MBoolNot (w : who).
Inductive code :=
| CBinary (m : method) (a b : dexp)    (* a.m(b) *)
| CScalar (m : method) (t x : who)     (* t.m_scalar(x) *)
| CInfixTensor (i : infix)             (* lhs i rhs, a native scalar and a tensor *)
| CF32Slash                            (* (lhs as f32) / rhs *)
| CNative (i : infix)                  (* lhs i rhs, native scalars *)
| CZip (u : update)                    (* result = lhs; for (r, x) in zip(result, rhs) { r = u } *)
| CEach (u : update) (arr x : who)     (* result = arr; for r in result { r = u } *)
| CIf (c : who) (t e : mexp).

(** ** What the emitted code does.  [None] is code that does not compile or a
    run-time panic. *)

(** Burn on one pair of elements of type [d]; integer results outside the type
    are not described. *)
Definition burn_int (m : method) (a b : Z) : option elt :=
  match m with
  | MAdd => Some (EI (a + b)) | MSub => Some (EI (a - b)) | MMul => Some (EI (a * b))
  | MDiv => if b =? 0 then None else Some (EI (Z.quot a b))
  | MRemainder => if b =? 0 then None else Some (EI (a mod b))
  | MEqual => Some (EB (a =? b)) | MNotEqual => Some (EB (negb (a =? b)))
  | MGreater => Some (EB (b <? a)) | MGreaterEqual => Some (EB (b <=? a))
  | MLower => Some (EB (a <? b)) | MLowerEqual => Some (EB (a <=? b))
  | MMaxPair => Some (EI (if a <? b then b else a)) | MMinPair => Some (EI (if b <? a then b else a))
  | MBitwiseAnd => Some (EI (Z.land a b)) | MBitwiseOr => Some (EI (Z.lor a b)) | MBitwiseXor => Some (EI (Z.lxor a b))
  | MLeftShift => if b <? 0 then None else Some (EI (Z.shiftl a b))
  | MRightShift => if b <? 0 then None else Some (EI (Z.shiftr a b))
  | MBoolAnd | MBoolOr => None
  end.
Definition burn_bool (m : method) (a b : bool) : option elt :=
  match m with
  | MBoolAnd => Some (EB (a && b)) | MBoolOr => Some (EB (a || b))
  | MEqual => Some (EB (Bool.eqb a b)) | MNotEqual => Some (EB (negb (Bool.eqb a b)))
  | _ => None
  end%bool.
Definition burn_float (f : Z * Z) (m : method) (a b : spec_float) : option elt :=
  let (p, e) := f in
  match m with
  | MAdd => Some (EF (SFadd p e a b)) | MSub => Some (EF (SFsub p e a b))
  | MMul => Some (EF (SFmul p e a b)) | MDiv => Some (EF (SFdiv p e a b))
  | MEqual => Some (EB (SFeqb a b)) | MNotEqual => Some (EB (negb (SFeqb a b)))
  | MGreater => Some (EB (SFltb b a)) | MGreaterEqual => Some (EB (SFleb b a))
  | MLower => Some (EB (SFltb a b)) | MLowerEqual => Some (EB (SFleb a b))
  | MMaxPair => Some (EF (if SFltb a b then b else a)) | MMinPair => Some (EF (if SFltb b a then b else a))
  | _ => None
  end.
Definition burn_elt (d : dtype) (m : method) (x y : elt) : option elt :=
  match x, y with
  | EI a, EI b => match burn_int m a b with Some r => if fits d r then Some r else None | None => None end
  | EB a, EB b => burn_bool m a b
  | EF a, EF b => match float_format d with Some f => burn_float f m a b | None => None end
  | _, _ => None
  end.

(** Rust on native scalars: [%] truncates; an overflow or a division by zero
    panics. *)
Definition native_int (i : infix) (a b : Z) : option elt :=
  match i with
  | IPlus => Some (EI (a + b)) | IMinus => Some (EI (a - b)) | ITimes => Some (EI (a * b))
  | ISlash => if b =? 0 then None else Some (EI (Z.quot a b))
  | IPercent => if b =? 0 then None else Some (EI (Z.rem a b))
  | IEqEq => Some (EB (a =? b)) | IGt => Some (EB (b <? a)) | IGe => Some (EB (b <=? a))
  | ILt => Some (EB (a <? b)) | ILe => Some (EB (a <=? b))
  | IAmp => Some (EI (Z.land a b)) | IBar => Some (EI (Z.lor a b)) | ICaret => Some (EI (Z.lxor a b))
  | IShl => if b <? 0 then None else Some (EI (Z.shiftl a b))
  | IShr => if b <? 0 then None else Some (EI (Z.shiftr a b))
  | IAndAnd | IOrOr => None
  end.
Definition native_bool (i : infix) (a b : bool) : option elt :=
  match i with
  | IAndAnd | IAmp => Some (EB (a && b)) | IOrOr | IBar => Some (EB (a || b)) | ICaret => Some (EB (xorb a b))
  | IEqEq => Some (EB (Bool.eqb a b))
  | _ => None
  end%bool.
Definition native_float (f : Z * Z) (i : infix) (a b : spec_float) : option elt :=
  let (p, e) := f in
  match i with
  | IPlus => Some (EF (SFadd p e a b)) | IMinus => Some (EF (SFsub p e a b))
  | ITimes => Some (EF (SFmul p e a b)) | ISlash => Some (EF (SFdiv p e a b))
  | IEqEq => Some (EB (SFeqb a b)) | IGt => Some (EB (SFltb b a)) | IGe => Some (EB (SFleb b a))
  | ILt => Some (EB (SFltb a b)) | ILe => Some (EB (SFleb a b))
  | _ => None
  end.
Definition native_elt (d : dtype) (i : infix) (x y : elt) : option elt :=
  match x, y with
  | EI a, EI b => match native_int i a b with Some r => if fits d r then Some r else None | None => None end
  | EB a, EB b => native_bool i a b
  | EF a, EF b => match float_format d with Some f => native_float f i a b | None => None end
  | _, _ => None
  end.

(** [scalar + tensor] and so on, by element; a division is a multiplication by
    the reciprocal, of floats only (the comment on div.rs:42). *)
Definition sf_one (f : Z * Z) : spec_float := let (p, e) := f in binary_normalize p e 1 0 false.
Definition infix_tensor_elt (d : dtype) (i : infix) (x y : elt) : option elt :=
  match i, x, y with
  | (IPlus | IMinus | ITimes), _, _ => native_elt d i x y
  | ISlash, EF a, EF b =>
      match float_format d with
      | Some (p, e) => Some (EF (SFmul p e (SFdiv p e (sf_one (p, e)) b) a))
      | None => None
      end
  | _, _, _ => None
  end.

(** i64 arithmetic on array items. *)
Definition imin : Z := -9223372036854775808.
Definition imax : Z := 9223372036854775807.
Definition saturate (z : Z) : Z := Z.max imin (Z.min imax z).
Definition div_i64 (a b : Z) : option Z := if (a =? imin) && (b =? -1) then None else Some (Z.quot a b).
Definition item (u : update) (r x : Z) : option Z :=
  match u with
  | USatAdd => Some (saturate (r + x))
  | USatSub => Some (saturate (r - x))
  | USatSubRev => Some (saturate (x - r))
  | USatMul => Some (saturate (r * x))
  | UDivOr => if x =? 0 then Some r else div_i64 r x
  | UDivOrRev => if r =? 0 then Some x else div_i64 x r
  | UEq => Some (if r =? x then 1 else 0) | UGt => Some (if x <? r then 1 else 0) | UGe => Some (if x <=? r then 1 else 0)
  | ULt => Some (if r <? x then 1 else 0) | ULe => Some (if r <=? x then 1 else 0)
  | UAnd => Some (if negb (r =? 0) && negb (x =? 0) then 1 else 0)
  | UOr => Some (if negb (r =? 0) || negb (x =? 0) then 1 else 0)
  | UXor => Some (if xorb (negb (r =? 0)) (negb (x =? 0)) then 1 else 0)
  end%bool.
(** [for (r, x) in result.iter_mut().zip(xs.iter())]: the items of [result]
    beyond the length of [xs] stay. *)
Fixpoint zip_update (u : update) (result xs : list Z) : option (list Z) :=
  match result, xs with
  | r :: rs, x :: xs' =>
      match item u r x, zip_update u rs xs' with Some y, Some ys => Some (y :: ys) | _, _ => None end
  | _, _ => Some result
  end.

Definition unsqueeze {A} (k : nat) (t : tensor A) : tensor A := mkT (repeat 1%N k ++ tshape t) (tdata t).
Definition tmapo {A B} (f : A -> option B) (t : tensor A) : option (tensor B) := option_map (mkT (tshape t)) (mapo f (tdata t)).

Section Run.
  (** The element type of the operands and their values. *)
  Variable d : dtype.
  Variables lhs rhs : rv.

  Definition var (w : who) : rv := match w with L => lhs | R => rhs end.

  Fixpoint deval (e : dexp) : option (tensor elt) :=
    match e with
    | DVar w => match var w with RTensor t => Some t | _ => None end
    | DUnsqueeze k e => option_map (unsqueeze k) (deval e)
    | DFromShape w => match var w with RShape l => Some (mkT [N.of_nat (length l)] (map EI l)) | _ => None end
    | DFromNative w => match var w with RNative x => Some (mkT [1%N] [x]) | _ => None end
    | DFullLike t x => match var t, var x with
                       | RTensor t, RNative x => Some (mkT (tshape t) (map (fun _ => x) (tdata t)))
                       | _, _ => None end
    end.

  Definition meval (e : mexp) : option (tensor elt) :=
    match e with
    | MKeep w => match var w with RTensor t => Some t | _ => None end
    | MZeros w => match var w with RTensor t => Some (mkT (tshape t) (map (fun _ => EB false) (tdata t))) | _ => None end
    | MOnes w => match var w with RTensor t => Some (mkT (tshape t) (map (fun _ => EB true) (tdata t))) | _ => None end
    | MBoolNot w => match var w with
                    | RTensor t => tmapo (fun x => match x with EB b => Some (EB (negb b)) | _ => None end) t
                    | _ => None end
    end.

  (** A native integer, or a device scalar read back with [into_scalar]. *)
  Definition scalar_i64 (v : rv) : option Z :=
    match v with
    | RNative (EI z) => Some z
    | RTensor (mkT [1%N] [EI z]) => Some z
    | _ => None
    end.

  (** The two tensors of a binary method have the same number of dimensions,
      of which those of size 1 are repeated. *)
  Definition run (c : code) : option rv :=
    match c with
    | CBinary m a b =>
        match deval a, deval b with
        | Some x, Some y =>
            if Nat.eqb (length (tshape x)) (length (tshape y))
            then option_map RTensor (broadcast2 (burn_elt d m) x y) else None
        | _, _ => None
        end
    | CScalar m t x =>
        match var t, var x with
        | RTensor t, RNative x => option_map RTensor (tmapo (fun a => burn_elt d m a x) t)
        | _, _ => None
        end
    | CInfixTensor i =>
        match lhs, rhs with
        | RNative x, RTensor t => option_map RTensor (tmapo (fun b => infix_tensor_elt d i x b) t)
        | _, _ => None
        end
    | CF32Slash => None
    | CNative i =>
        match lhs, rhs with RNative x, RNative y => option_map RNative (native_elt d i x y) | _, _ => None end
    | CZip u =>
        match lhs, rhs with RShape a, RShape b => option_map RShape (zip_update u a b) | _, _ => None end
    | CEach u arr x =>
        match var arr, scalar_i64 (var x) with
        | RShape a, Some z => option_map RShape (mapo (fun r => item u r z) a)
        | _, _ => None
        end
    | CIf c t e =>
        match var c with
        | RNative (EB b) => option_map RTensor (meval (if b then t else e))
        | _ => None
        end
    end.
End Run.

(** ** The generators *)

(** crates/onnx-ir/src/ir/argument.rs:273-296. *)
Definition on_device (ty : argty) : bool := match ty with TensorT _ | ScalarTensor _ => true | _ => false end.
Definition rank_of (ty : argty) : N :=
  match ty with ScalarTensor _ | ShapeT _ => 1 | ScalarNative _ => 0 | TensorT t => tt_rank t end.

(** add.rs:22-37 and the same lines of the other files. *)
Definition device_pair (m : method) (lty rty : argty) : code :=
  let l := rank_of lty in let r := rank_of rty in
  if N.eqb l r then CBinary m (DVar L) (DVar R)
  else if N.ltb r l then CBinary m (DVar L) (DUnsqueeze (N.to_nat (l - r)) (DVar R))
  else CBinary m (DUnsqueeze (N.to_nat (r - l)) (DVar L)) (DVar R).

(** add.rs:21-111, sub.rs, mul.rs; div.rs differs for [native], the code for a
    native scalar and a tensor (div.rs:41-54). *)
Definition gen_arith (m : method) (i : infix) (u urev : update) (native : code) (lty rty : argty) : option code :=
  match lty, rty with
  | (TensorT _ | ScalarTensor _), (TensorT _ | ScalarTensor _) => Some (device_pair m lty rty)
  | (TensorT _ | ScalarTensor _), ScalarNative _ => Some (CScalar m L R)
  | ScalarNative _, (TensorT _ | ScalarTensor _) => Some native
  | ScalarNative _, ScalarNative _ => Some (CNative i)
  | ShapeT _, ShapeT _ => Some (CZip u)
  | ShapeT _, (ScalarTensor _ | ScalarNative _) => Some (CEach u L R)
  | (ScalarTensor _ | ScalarNative _), ShapeT _ => Some (CEach urev R L)
  | ShapeT _, TensorT _ => Some (CBinary m (DFromShape L) (DVar R))
  | TensorT _, ShapeT _ => Some (CBinary m (DVar L) (DFromShape R))
  end.

(** equal.rs:21-85 and the same lines of the other comparisons; [rev] is the
    method with the operands exchanged. *)
Definition gen_compare (m rev : method) (i : infix) (u : update) (lty rty : argty) : option code :=
  match lty, rty with
  | (TensorT _ | ScalarTensor _), (TensorT _ | ScalarTensor _) => Some (device_pair m lty rty)
  | (TensorT _ | ScalarTensor _), ScalarNative _ => Some (CScalar m L R)
  | ScalarNative _, (TensorT _ | ScalarTensor _) => Some (CScalar rev R L)
  | ScalarNative _, ScalarNative _ => Some (CNative i)
  | ShapeT _, ShapeT _ => Some (CZip u)
  | ShapeT _, (TensorT _ | ScalarTensor _) => Some (CBinary m (DFromShape L) (DVar R))
  | (TensorT _ | ScalarTensor _), ShapeT _ => Some (CBinary m (DVar L) (DFromShape R))
  | ShapeT _, ScalarNative _ | ScalarNative _, ShapeT _ => None
  end.

(** bool_and.rs:21-66, bool_or.rs:21-63, bool_xor.rs:21-58; [t], [e] are the
    branches on a native scalar. *)
Definition gen_logic (m : method) (i : infix) (u : update) (t e : who -> mexp) (lty rty : argty) : option code :=
  match lty, rty with
  | (TensorT _ | ScalarTensor _), (TensorT _ | ScalarTensor _) => Some (device_pair m lty rty)
  | ScalarNative _, (TensorT _ | ScalarTensor _) => Some (CIf L (t R) (e R))
  | (TensorT _ | ScalarTensor _), ScalarNative _ => Some (CIf R (t L) (e L))
  | ScalarNative _, ScalarNative _ => Some (CNative i)
  | ShapeT _, ShapeT _ => Some (CZip u)
  | _, _ => None
  end.

(** max.rs:20-38 and min.rs. *)
Definition gen_pair (m : method) (lty rty : argty) : option code :=
  if on_device lty && on_device rty then Some (device_pair m lty rty) else None.

(** bitwiseand.rs:21-48, bitwiseor.rs, bitwisexor.rs. *)
Definition gen_bitwise (m : method) (i : infix) (lty rty : argty) : option code :=
  match lty, rty with
  | (TensorT _ | ScalarTensor _), (TensorT _ | ScalarTensor _) => Some (device_pair m lty rty)
  | (TensorT _ | ScalarTensor _), ScalarNative _ => Some (CScalar m L R)
  | ScalarNative _, (TensorT _ | ScalarTensor _) => Some (CScalar m R L)
  | ScalarNative _, ScalarNative _ => Some (CNative i)
  | _, _ => None
  end.

(** bitshift.rs:22-63: the ranks are not compared. *)
Definition gen_shift (m : method) (i : infix) (lty rty : argty) : option code :=
  match lty, rty with
  | (TensorT _ | ScalarTensor _), (TensorT _ | ScalarTensor _) => Some (CBinary m (DVar L) (DVar R))
  | (TensorT _ | ScalarTensor _), ScalarNative _ => Some (CScalar m L R)
  | ScalarNative _, (TensorT _ | ScalarTensor _) => Some (CBinary m (DFullLike R L) (DVar R))
  | ScalarNative _, ScalarNative _ => Some (CNative i)
  | _, _ => None
  end.

(** modulo.rs:19-133. *)
Definition gen_mod (m : method) (lty rty : argty) : option code :=
  match lty, rty with
  | (TensorT _ | ScalarTensor _), (TensorT _ | ScalarTensor _) => Some (device_pair m lty rty)
  | (TensorT _ | ScalarTensor _), ScalarNative _ => Some (CScalar m L R)
  | ScalarNative _, ScalarNative _ => Some (CNative IPercent)
  | ScalarNative _, (TensorT _ | ScalarTensor _) =>
      Some (CBinary m (if N.ltb 1 (rank_of rty) then DUnsqueeze (N.to_nat (rank_of rty - 1)) (DFromNative L) else DFromNative L) (DVar R))
  | _, _ => None
  end.

(** div.rs:41-54. *)
Definition is_float_dtype (d : dtype) : bool := match d with F64 | F32 | F16 | BF16 => true | _ => false end.
Definition native_div (lty : argty) : code :=
  match lty with ScalarNative d => if is_float_dtype d then CInfixTensor ISlash else CF32Slash | _ => CF32Slash end.

Definition generate (op : bop) : argty -> argty -> option code :=
  match op with
  | OAdd => gen_arith MAdd IPlus USatAdd USatAdd (CInfixTensor IPlus)
  | OSub => gen_arith MSub IMinus USatSub USatSubRev (CInfixTensor IMinus)
  | OMul => gen_arith MMul ITimes USatMul USatMul (CInfixTensor ITimes)
  | ODiv => fun lty => gen_arith MDiv ISlash UDivOr UDivOrRev (native_div lty) lty
  | OMod => gen_mod MRemainder
  | OEqual => gen_compare MEqual MEqual IEqEq UEq
  | OGreater => gen_compare MGreater MLower IGt UGt
  | OGreaterOrEqual => gen_compare MGreaterEqual MLowerEqual IGe UGe
  | OLess => gen_compare MLower MGreater ILt ULt
  | OLessOrEqual => gen_compare MLowerEqual MGreaterEqual ILe ULe
  | OAnd => gen_logic MBoolAnd IAndAnd UAnd MKeep MZeros
  | OOr => gen_logic MBoolOr IOrOr UOr MOnes MKeep
  | OXor => gen_logic MNotEqual ICaret UXor MBoolNot MKeep
  | OMax => gen_pair MMaxPair
  | OMin => gen_pair MMinPair
  | OBitAnd => gen_bitwise MBitwiseAnd IAmp
  | OBitOr => gen_bitwise MBitwiseOr IBar
  | OBitXor => gen_bitwise MBitwiseXor ICaret
  | OShiftLeft => gen_shift MLeftShift IShl
  | OShiftRight => gen_shift MRightShift IShr
  end.

(** The type recorded for the result: crates/onnx-ir/src/node/arithmetic.rs:146-157,
    comparison.rs:146-173 and the files of the other operators. *)
Definition infer_binary (op : bop) (lty rty : argty) : option argty :=
  broadcast_output_type [lty; rty] (if is_compare op then Some BoolT else None).
