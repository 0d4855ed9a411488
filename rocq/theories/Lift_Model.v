(** The code emitted for Unsqueeze of a native scalar:
    crates/burn-onnx/src/burn/node/unsqueeze.rs:62-112 and
    crates/burn-onnx/src/burn/argument_helpers.rs:96-98. *)
From Verif Require Import IR_Model Tensor_Spec BinOps_Spec.
Local Open Scope N_scope.

(** unsqueeze.rs:62-112: the expression written for a native scalar [x]. *)
Inductive lift :=
| LInt (rank : N) (d : dtype)     (* Tensor::<B, rank, Int>::from_data_dtype(TensorData::from([x as i64]), .., d).unsqueeze() *)
| LFloat (rank : N) (d : dtype)   (* Tensor::<B, rank>::from_data_dtype(TensorData::from([x as f64]), .., d).unsqueeze() *)
| LBool (rank : N) (d : dtype)    (* Tensor::<B, rank, Bool>::from_data_dtype(TensorData::from([x != 0]), .., d).unsqueeze() *)
| LShape.                         (* [x as i64] *)

(** Lines 62-112; [None]: the panic of lines 119-122 (no other type is inferred). *)
Definition gen_lift (o : argty) : option lift :=
  match o with
  | TensorT t =>
      Some (match tt_dtype t with
            | I64 | I32 | I16 | I8 | U64 | U32 | U16 | U8 => LInt (tt_rank t) (tt_dtype t)
            | F64 | F32 | F16 | BF16 => LFloat (tt_rank t) (tt_dtype t)
            | BoolT => LBool (tt_rank t) (tt_dtype t)
            end)
  | ShapeT _ => Some LShape
  | _ => None
  end.

(** Rust: which casts and comparisons are written for a native scalar of type
    [d] (argument_helpers.rs:44-61 names the Rust type).  [half::f16] and
    [half::bf16] are structs and cannot be cast; a [bool] cannot be cast to a
    float; [!= 0] needs an integer. *)
Definition casts_to_i64 (d : dtype) : bool := match d with F16 | BF16 => false | _ => true end.
Definition casts_to_f64 (d : dtype) : bool := match d with F16 | BF16 | BoolT => false | _ => true end.
Definition compares_to_0 (d : dtype) : bool := match d with F64 | F32 | F16 | BF16 | BoolT => false | _ => true end.

(** [as i64]: modulo 2^64 (of floats: not needed here, left open). *)
Definition cast_i64 (v : elt) : option Z :=
  match v with
  | EI z => Some ((z + 2 ^ 63) mod 2 ^ 64 - 2 ^ 63)%Z
  | EB b => Some (if b then 1 else 0)%Z
  | EF _ => None
  end.
(** [as f64], and back to the type [to]: exact when the scalar has that type
    ([f32] values are [f64] values).  Integers: left open. *)
Definition cast_f64 (from to : dtype) (v : elt) : option elt :=
  match v with EF x => if dtype_beq from to then Some (EF x) else None | _ => None end.
(** burn's conversion of i64 data to an integer type; out of range: left open
    (a panic or another number). *)
Definition convert_int (d : dtype) (z : Z) : option elt :=
  match int_range d with
  | Some (lo, hi) => if ((lo <=? z) && (z <=? hi))%bool%Z then Some (EI z) else None
  | None => None
  end.

(** What becomes of the program. *)
Inductive outcome := NoCompile | Fails | Gives (v : rv).
(** burn's [from_data_dtype]: data of shape [1] for a tensor of rank [rank]
    panics unless the rank is one ("given dimensions differ from the tensor
    rank"); [unsqueeze()] then adds nothing. *)
Definition from_one (rank : N) (v : option elt) : outcome :=
  if rank =? 1 then match v with Some v => Gives (RTensor (mkT [1] [v])) | None => Fails end else Fails.
Definition obind' {A B} (o : option A) (f : A -> option B) : option B := match o with Some a => f a | None => None end.
Definition run_lift (d : dtype) (v : elt) (c : lift) : outcome :=
  match c with
  | LInt rank o => if casts_to_i64 d then from_one rank (obind' (cast_i64 v) (convert_int o)) else NoCompile
  | LFloat rank o => if casts_to_f64 d then from_one rank (cast_f64 d o v) else NoCompile
  | LBool rank _ => if compares_to_0 d
                    then from_one rank (match v with EI z => Some (EB (negb (Z.eqb z 0))) | _ => None end) else NoCompile
  | LShape => if casts_to_i64 d then match cast_i64 v with Some z => Gives (RShape [z]) | None => Fails end else NoCompile
  end.
(** Inference and code together, for an inferred type. *)
Definition unsqueeze_native (d : dtype) (v : elt) (o : argty) : outcome :=
  match gen_lift o with Some c => run_lift d v c | None => Fails end.
