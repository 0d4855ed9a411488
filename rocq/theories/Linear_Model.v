(** Model of the linear layers that Gemm and MatMul nodes become. *)
From Verif Require Import IR_Model Tensor_Spec Import_Model.
Local Open Scope N_scope.

(** crates/onnx-ir/src/ir/argument.rs:190-194, 318-323 [static_shape_known]. *)
Definition static_shape_known (ty : argty) : option (list N) :=
  match ty with
  | TensorT t => match tt_shape t with Some l => all_some l | None => None end
  | _ => None
  end.

(** crates/onnx-ir/src/node/linear.rs:155-168 [extract_config]. *)
Definition transpose_weight (n : rnode) : bool := is_int (get_attr n "transpose_weight") 1.

(** crates/onnx-ir/src/node/linear.rs:82-153 [infer_types]: the type of the
    output; [wshape] is the shape of the weight's value, if it has one.
    [None]: an error or an index out of bounds. *)
Definition infer_linear (n : rnode) (wshape : option (list N)) : option argty :=
  if negb (forallb (fun kv => String.eqb (fst kv) "transpose_weight") (nattrs n)) then None
  else match ninputs n with
  | x :: w :: _ =>
      match aty x with
      | TensorT t =>
          let i := if transpose_weight n then 0%nat else 1%nat in
          let from_ty := match aty w with
                         | TensorT wt => match tt_shape wt with
                                         | Some ws => match nth_error ws i with Some o => o | None => None end
                                         | None => None
                                         end
                         | _ => None
                         end in
          let out := match wshape with
                     | Some s => match nth_error s i with Some d => Some d | None => from_ty end
                     | None => from_ty
                     end in
          let shape := match tt_shape t with Some s => s | None => repeat None (N.to_nat (tt_rank t)) end in
          let shape' := match shape with [] => [] | _ => removelast shape ++ [out] end in
          Some (TensorT (mkTT (tt_dtype t) (tt_rank t) (Some shape')))
      | _ => None
      end
  | _ => None
  end.

Section Layer.
  Context {T : Type}.
  Variables (add : T -> T -> T) (dot : list T -> list T -> T).
  (** [Argument::value] (ir/argument.rs:351-382): the data of a constant. *)
  Variable value : arg -> option (tensor T).

  (** A [burn::nn::Linear] with its parameters loaded: [l_col] is
      [LinearLayout::Col], the weight stored as [out, in]. *)
  Record layer := mkL { l_col : bool; l_weight : tensor T; l_bias : option (tensor T) }.

  Definition eqs (a b : list N) : bool := if list_eq_dec N.eq_dec a b then true else false.

  (** crates/burn-onnx/src/burn/node_traits.rs:195-245 [create_lazy_snapshot]:
      the data that is loaded.  [None]: no snapshot, or an error when it is
      read. *)
  Definition snapshot (a : arg) : option (tensor T) :=
    match aty a with
    | TensorT _ => value a
    | ScalarTensor _ | ScalarNative _ =>
        match value a with
        | Some v => Some (match tshape v with [] => mkT [1] (tdata v) | _ => v end)
        | None => None
        end
    | ShapeT _ => None
    end.

  (** crates/burn-onnx/src/burn/node/linear.rs:13-72 [field] and
      [collect_snapshots].  The loader (burn-store, not part of this
      repository) is taken to refuse data whose shape is not that of the
      parameter: [d_input, d_output] for the weight ([d_output, d_input] in
      column layout) and [d_output] for the bias.  [None]: a panic or such an
      error. *)
  Definition linear_layer (n : rnode) : option layer :=
    match ninputs n with
    | _ :: w :: rest =>
        match static_shape_known (aty w) with
        | Some (s0 :: s1 :: _) =>
            let d_output := if transpose_weight n then s0 else s1 in
            match snapshot w with
            | Some W =>
                if eqs (tshape W) [s0; s1] then
                  match rest with
                  | [] => Some (mkL (transpose_weight n) W None)
                  | b :: _ =>
                      match snapshot b with
                      | Some B => if eqs (tshape B) [d_output] then Some (mkL (transpose_weight n) W (Some B)) else None
                      | None => None
                      end
                  end
                else None
            | None => None
            end
        | _ => None
        end
    | _ => None
    end.

  (** burn/node/linear.rs:74-82 [forward] calls [burn::nn::Linear::forward]
      (not part of this repository): the last dimension of the input is
      multiplied with the weight, the bias is added to every row. *)
  Definition layer_forward (l : layer) (x : tensor T) : option (tensor T) :=
    match rev (tshape x), tshape (l_weight l) with
    | k :: s, [w0; w1] =>
        let d_input := if l_col l then w1 else w0 in
        let d_output := if l_col l then w0 else w1 in
        if k =? d_input then
          tab (rev s ++ [d_output]) (fun idx =>
            let o := last idx 0 in
            let y := lift2 dot (mapo (fun i => get x (removelast idx ++ [i])) (upto k))
                               (mapo (fun i => get (l_weight l) (if l_col l then [o; i] else [i; o])) (upto k)) in
            match l_bias l with
            | None => y
            | Some b => lift2 add y (get b [o])
            end)
        else None
    | _, _ => None
    end.
End Layer.
