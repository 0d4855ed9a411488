(** The code emitted for Reshape of a native scalar to a constant shape:
    crates/burn-onnx/src/burn/node/reshape.rs:124-181. *)
From Verif Require Import IR_Model Tensor_Spec BinOps_Spec TensorRun_Model Lift_Model.
Local Open Scope N_scope.

Inductive rlift :=
| RFloat (rank : N) (d : dtype)   (* Tensor::<B, rank>::from_data_dtype(TensorData::from([x as f64]), .., d).reshape(shape) *)
| RInt (rank : N) (d : dtype)     (* Tensor::<B, rank, Int>::from_data_dtype(TensorData::from([x as i64]), .., d).reshape(shape) *)
| RSame (rank : N) (d : dtype)    (* Tensor::<B, rank, Bool>::from_data_dtype(TensorData::from([x]), .., d).reshape(shape) *)
| RTest (rank : N) (d : dtype)    (* .. TensorData::from([x != 0]) .. *)
| RCopy.                          (* x *)

(** Lines 128-180; [None]: the panics of lines 174-179. *)
Definition gen_rlift (d : dtype) (o : argty) : option rlift :=
  match o with
  | TensorT t =>
      Some (match tt_dtype t with
            | F64 | F32 | F16 | BF16 => RFloat (tt_rank t) (tt_dtype t)
            | BoolT => if dtype_beq d BoolT then RSame (tt_rank t) (tt_dtype t) else RTest (tt_rank t) (tt_dtype t)
            | _ => RInt (tt_rank t) (tt_dtype t)
            end)
  | ScalarNative _ => Some RCopy
  | _ => None
  end.

(** [.reshape(shape)] of the tensor made. *)
Definition then_reshape (shape : list Z) (o : outcome) : outcome :=
  match o with
  | Gives (RTensor t) => match b_reshape_to shape t with Some t' => Gives (RTensor t') | None => Fails end
  | o => o
  end.
Definition run_rlift (d : dtype) (v : elt) (shape : list Z) (c : rlift) : outcome :=
  match c with
  | RFloat rank o => then_reshape shape (run_lift d v (LFloat rank o))
  | RInt rank o => then_reshape shape (run_lift d v (LInt rank o))
  | RSame rank _ => then_reshape shape (from_one rank (Some v))
  | RTest rank o => then_reshape shape (run_lift d v (LBool rank o))
  | RCopy => Gives (RNative v)
  end.
Definition reshape_native (d : dtype) (v : elt) (shape : list Z) (o : argty) : outcome :=
  match gen_rlift d o with Some c => run_rlift d v shape c | None => Fails end.
