(** The code emitted for Expand of a scalar:
    crates/burn-onnx/src/burn/node/expand.rs:16-62. *)
From Verif Require Import IR_Model Tensor_Spec BinOps_Spec TensorRun_Model Lift_Model.
Local Open Scope N_scope.

(** Lines 45-61: one statement for both kinds of scalar ([is_scalar],
    crates/onnx-ir/src/ir/argument.rs:259-261):
    [Tensor::<B, 1, kind>::from_data_dtype(TensorData::from([x]), .., d).expand(shape)].
    [None]: not a scalar. *)
Definition gen_expand_scalar (x : argty) : option dtype :=
  match x with ScalarTensor d | ScalarNative d => Some d | _ => None end.

(** What [x] is in the program: [TensorData::from([x])] needs a number or a
    boolean (also [half::f16], [half::bf16]); for a device scalar [x] is a
    tensor (crates/burn-onnx/src/burn/scope.rs:156-166). *)
Definition is_element (x : argty) : bool := match x with ScalarNative _ => true | _ => false end.

(** Compile and run; the data has the element type asked for, so nothing is
    converted.  [shape]: the value of the shape expression, lines 20-41. *)
Definition expand_scalar (x : argty) (v : elt) (shape : list Z) : outcome :=
  match gen_expand_scalar x with
  | None => Fails
  | Some _ =>
      if is_element x then
        match b_expand shape (mkT [1] [v]) with Some t => Gives (RTensor t) | None => Fails end
      else NoCompile
  end.
