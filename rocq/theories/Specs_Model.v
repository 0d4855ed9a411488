(** The specifications of the operators and their validation, modelled from
    crates/onnx-ir/src/processor.rs and the [spec] functions of
    crates/onnx-ir/src/node. *)
From Verif Require Import IR_Model.
From Coq Require Import NArith ZArith String List Bool.
Import ListNotations.
Local Open Scope string_scope.
Local Open Scope list_scope.
Local Open Scope N_scope.

(** crates/onnx-ir/src/processor.rs:16-27 [InputSpec]. *)
Inductive input_spec :=
  IExact (n : N) | IAtLeast (n : N) | IRange (lo hi : N) | IDep (rows : list (N * input_spec)).
(** crates/onnx-ir/src/processor.rs:29-39 [OutputSpec]. *)
Inductive output_spec :=
  OExact (n : N) | ORange (lo hi : N) | ODep (rows : list (N * output_spec)).
(** crates/onnx-ir/src/processor.rs:41-52 [NodeSpec]. *)
Record node_spec := mkSpec {
  min_opset : N; max_opset : option N; spec_inputs : input_spec; spec_outputs : output_spec }.
(** crates/onnx-ir/src/processor.rs:54-63 [NodeSpec::default]. *)
Definition default_spec : node_spec := mkSpec 1 None (IAtLeast 0) (ORange 0 2147483647).

(** The three errors of crates/onnx-ir/src/processor.rs:127-160 [ProcessError]
    that validation gives. *)
Inductive spec_error :=
  UnsupportedOpset (required actual : N)
| InvalidInputCount (expected actual : N)
| InvalidOutputCount (expected actual : N).

(** What validation reads of a node: how many inputs and outputs it has, and
    its attribute `__onnx_input_count` when that is an integer
    (crates/onnx-ir/src/ir/node.rs [RawNode]; the names and types of the
    arguments are left out, validation does not read them). *)
Record spec_node := mkSpecNode { nd_inputs : N; nd_outputs : N; nd_count_attr : option Z }.

(** `n as usize` for a 64-bit n. *)
Definition as_usize (z : Z) : N := Z.to_N (z mod 18446744073709551616)%Z.

(** crates/onnx-ir/src/processor.rs:480-493 [get_onnx_input_count]; an attribute
    of another type is read as if it were absent, as the code does. *)
Definition get_onnx_input_count (n : spec_node) : N :=
  match nd_count_attr n with Some z => as_usize z | None => nd_inputs n end.

(** crates/onnx-ir/src/processor.rs:385-430 [validate_input_spec].  [None] is
    `Ok(())`.  The rows that apply are those of a version at most the opset;
    `max_by_key` keeps the last of the greatest.  [best] is the row kept so far,
    with what its rule answers. *)
Fixpoint validate_input_spec (actual opset : N) (s : input_spec) {struct s} : option spec_error :=
  match s with
  | IExact e => if actual =? e then None else Some (InvalidInputCount e actual)
  | IAtLeast m => if actual <? m then Some (InvalidInputCount m actual) else None
  | IRange lo hi => if (actual <? lo) || (hi <? actual) then Some (InvalidInputCount lo actual) else None
  | IDep rows =>
      match
        (fix pick (rows : list (N * input_spec)) (best : option (N * option spec_error)) {struct rows} :=
           match rows with
           | [] => best
           | (v, s') :: rest =>
               pick rest
                 (if v <=? opset
                  then match best with
                       | Some (b, _) => if b <=? v then Some (v, validate_input_spec actual opset s') else best
                       | None => Some (v, validate_input_spec actual opset s')
                       end
                  else best)
           end) rows None
      with Some (_, r) => r | None => None end
  end.

(** crates/onnx-ir/src/processor.rs:433-472 [validate_output_spec]. *)
Fixpoint validate_output_spec (actual opset : N) (s : output_spec) {struct s} : option spec_error :=
  match s with
  | OExact e => if actual =? e then None else Some (InvalidOutputCount e actual)
  | ORange lo hi => if (actual <? lo) || (hi <? actual) then Some (InvalidOutputCount lo actual) else None
  | ODep rows =>
      match
        (fix pick (rows : list (N * output_spec)) (best : option (N * option spec_error)) {struct rows} :=
           match rows with
           | [] => best
           | (v, s') :: rest =>
               pick rest
                 (if v <=? opset
                  then match best with
                       | Some (b, _) => if b <=? v then Some (v, validate_output_spec actual opset s') else best
                       | None => Some (v, validate_output_spec actual opset s')
                       end
                  else best)
           end) rows None
      with Some (_, r) => r | None => None end
  end.

(** crates/onnx-ir/src/processor.rs:354-382 [validate_node_spec]. *)
Definition validate_node_spec (n : spec_node) (opset : N) (s : node_spec) : option spec_error :=
  if opset <? min_opset s then Some (UnsupportedOpset (min_opset s) opset) else
  match max_opset s with
  | Some m => if m <? opset then Some (UnsupportedOpset m opset) else
      match validate_input_spec (get_onnx_input_count n) opset (spec_inputs s) with
      | Some e => Some e
      | None => validate_output_spec (nd_outputs n) opset (spec_outputs s) end
  | None =>
      match validate_input_spec (get_onnx_input_count n) opset (spec_inputs s) with
      | Some e => Some e
      | None => validate_output_spec (nd_outputs n) opset (spec_outputs s) end
  end.

(** crates/onnx-ir/src/phases/node_conversion.rs:90-127: the captured values of
    the subgraphs are added to the inputs of a control flow node, and the number
    of inputs before that is stored. *)
Definition add_captures (n : spec_node) (k : N) : spec_node :=
  mkSpecNode (nd_inputs n + k) (nd_outputs n) (Some (Z.of_N (nd_inputs n + k - k))).

(** crates/onnx-ir/src/registry.rs:113-650 [with_standard_processors]: the
    specification of the processor of each type of node. *)
Definition standard_specs : list (string * node_spec) := [
  ("Add", mkSpec 1 None (IExact 2) (OExact 1)); (* node/arithmetic.rs:82-89 *)
  ("Sub", mkSpec 1 None (IExact 2) (OExact 1)); (* node/arithmetic.rs:82-89 *)
  ("Mul", mkSpec 1 None (IExact 2) (OExact 1)); (* node/arithmetic.rs:82-89 *)
  ("Div", mkSpec 1 None (IExact 2) (OExact 1)); (* node/arithmetic.rs:82-89 *)
  ("Pow", mkSpec 1 None (IExact 2) (OExact 1)); (* node/pow.rs:39-46 *)
  ("Max", mkSpec 1 None (IExact 2) (OExact 1)); (* node/max.rs:30-37 *)
  ("Min", mkSpec 1 None (IExact 2) (OExact 1)); (* node/min.rs:30-37 *)
  ("And", mkSpec 1 None (IExact 2) (OExact 1)); (* node/and.rs:37-44 *)
  ("Or", mkSpec 1 None (IExact 2) (OExact 1)); (* node/or.rs:37-44 *)
  ("Xor", mkSpec 1 None (IExact 2) (OExact 1)); (* node/xor.rs:37-44 *)
  ("Sum", mkSpec 1 None (IAtLeast 1) (OExact 1)); (* node/sum.rs:41-48 *)
  ("Mean", mkSpec 1 None (IAtLeast 1) (OExact 1)); (* node/mean.rs:37-44 *)
  ("Abs", mkSpec 1 None (IExact 1) (OExact 1)); (* node/abs.rs:38-45 *)
  ("Neg", mkSpec 1 None (IExact 1) (OExact 1)); (* node/neg.rs:38-45 *)
  ("Ceil", mkSpec 1 None (IExact 1) (OExact 1)); (* node/ceil.rs:38-45 *)
  ("Floor", mkSpec 1 None (IExact 1) (OExact 1)); (* node/floor.rs:38-45 *)
  ("Sqrt", mkSpec 1 None (IExact 1) (OExact 1)); (* node/sqrt.rs:38-45 *)
  ("Exp", mkSpec 1 None (IExact 1) (OExact 1)); (* node/exp.rs:38-45 *)
  ("Log", mkSpec 1 None (IExact 1) (OExact 1)); (* node/log.rs:38-45 *)
  ("Reciprocal", mkSpec 1 None (IExact 1) (OExact 1)); (* node/reciprocal.rs:38-45 *)
  ("Round", mkSpec 11 None (IExact 1) (OExact 1)); (* node/round.rs:36-43 *)
  ("Sign", mkSpec 9 None (IExact 1) (OExact 1)); (* node/sign.rs:37-44 *)
  ("Sin", mkSpec 7 None (IExact 1) (OExact 1)); (* node/sin.rs:36-43 *)
  ("Cos", mkSpec 7 None (IExact 1) (OExact 1)); (* node/cos.rs:36-43 *)
  ("Tan", mkSpec 7 None (IExact 1) (OExact 1)); (* node/tan.rs:36-43 *)
  ("Sinh", mkSpec 9 None (IExact 1) (OExact 1)); (* node/sinh.rs:36-43 *)
  ("Cosh", mkSpec 9 None (IExact 1) (OExact 1)); (* node/cosh.rs:36-43 *)
  ("Tanh", mkSpec 1 None (IExact 1) (OExact 1)); (* node/tanh.rs:37-44 *)
  ("Asin", mkSpec 7 None (IExact 1) (OExact 1)); (* node/asin.rs:36-43 *)
  ("Acos", mkSpec 7 None (IExact 1) (OExact 1)); (* node/acos.rs:36-43 *)
  ("Atan", mkSpec 7 None (IExact 1) (OExact 1)); (* node/atan.rs:36-43 *)
  ("Asinh", mkSpec 9 None (IExact 1) (OExact 1)); (* node/asinh.rs:36-43 *)
  ("Acosh", mkSpec 9 None (IExact 1) (OExact 1)); (* node/acosh.rs:36-43 *)
  ("Atanh", mkSpec 9 None (IExact 1) (OExact 1)); (* node/atanh.rs:36-43 *)
  ("Erf", mkSpec 9 None (IExact 1) (OExact 1)); (* node/erf.rs:37-44 *)
  ("Relu", mkSpec 1 None (IExact 1) (OExact 1)); (* node/relu.rs:36-43 *)
  ("Sigmoid", mkSpec 1 None (IExact 1) (OExact 1)); (* node/sigmoid.rs:37-44 *)
  ("Gelu", mkSpec 20 None (IExact 1) (OExact 1)); (* node/gelu.rs:35-42 *)
  ("Mish", mkSpec 18 None (IExact 1) (OExact 1)); (* node/mish.rs:39-46 *)
  ("Softplus", mkSpec 1 None (IExact 1) (OExact 1)); (* node/softplus.rs:35-42 *)
  ("Softsign", mkSpec 1 None (IExact 1) (OExact 1)); (* node/softsign.rs:35-42 *)
  ("Celu", mkSpec 12 None (IExact 1) (OExact 1)); (* node/celu.rs:44-51 *)
  ("Elu", mkSpec 1 None (IExact 1) (OExact 1)); (* node/elu.rs:45-52 *)
  ("Selu", mkSpec 1 None (IExact 1) (OExact 1)); (* node/selu.rs:52-59 *)
  ("Swish", mkSpec 24 None (IExact 1) (OExact 1)); (* node/swish.rs:41-48 *)
  ("Not", mkSpec 1 None (IExact 1) (OExact 1)); (* node/not.rs:35-42 *)
  ("AveragePool1d", mkSpec 1 None (IExact 1) (OExact 1)); (* node/avg_pool1d.rs:58-65 *)
  ("AveragePool2d", mkSpec 1 None (IExact 1) (OExact 1)); (* node/avg_pool2d.rs:56-63 *)
  ("MaxPool1d", mkSpec 1 None (IAtLeast 1) (OExact 1)); (* node/max_pool1d.rs:89-96 *)
  ("MaxPool2d", mkSpec 1 None (IAtLeast 1) (OExact 1)); (* node/max_pool2d.rs:86-93 *)
  ("GlobalAveragePool", mkSpec 1 None (IExact 1) (OExact 1)); (* node/global_avg_pool.rs:29-36 *)
  ("Identity", mkSpec 1 None (IExact 1) (OExact 1)); (* node/identity.rs:37-44 *)
  ("GlobalMaxPool", mkSpec 1 None (IAtLeast 0) (ORange 0 18446744073709551615)); (* node/unsupported.rs:118-126 *)
  ("GatherND", mkSpec 11 None (IExact 2) (OExact 1)); (* node/gathernd.rs:42-49 *)
  ("Scatter", mkSpec 1 None (IAtLeast 0) (ORange 0 18446744073709551615)); (* node/unsupported.rs:118-126 *)
  ("ScatterElements", mkSpec 11 None (IExact 3) (OExact 1)); (* node/scatter_elements.rs:59-66 *)
  ("ScatterND", mkSpec 11 None (IExact 3) (OExact 1)); (* node/scatter_nd.rs:58-65 *)
  ("Unique", mkSpec 1 None (IAtLeast 0) (ORange 0 18446744073709551615)); (* node/unsupported.rs:118-126 *)
  ("CumSum", mkSpec 11 None (IExact 2) (OExact 1)); (* node/cumsum.rs:54-61 *)
  ("Conv1d", mkSpec 1 None (IRange 2 3) (OExact 1)); (* node/conv1d.rs:54-61 *)
  ("Conv2d", mkSpec 1 None (IRange 2 3) (OExact 1)); (* node/conv2d.rs:53-60 *)
  ("Conv3d", mkSpec 1 None (IRange 2 3) (OExact 1)); (* node/conv3d.rs:53-60 *)
  ("ConvTranspose1d", mkSpec 1 None (IRange 2 3) (OExact 1)); (* node/conv_transpose1d.rs:56-63 *)
  ("ConvTranspose2d", mkSpec 1 None (IRange 2 3) (OExact 1)); (* node/conv_transpose2d.rs:57-64 *)
  ("ConvTranspose3d", mkSpec 1 None (IRange 2 3) (OExact 1)); (* node/conv_transpose3d.rs:52-59 *)
  ("DeformConv", mkSpec 19 None (IRange 3 5) (OExact 1)); (* node/deform_conv.rs:52-59 *)
  ("BatchNormalization", mkSpec 1 None (IExact 5) (ORange 1 5)); (* node/batch_norm.rs:69-79 *)
  ("InstanceNormalization", mkSpec 1 None (IExact 3) (OExact 1)); (* node/instance_norm.rs:52-59 *)
  ("LayerNormalization", mkSpec 17 None (IAtLeast 2) (OExact 1)); (* node/layer_norm.rs:67-74 *)
  ("GroupNormalization", mkSpec 18 None (IExact 3) (OExact 1)); (* node/group_norm.rs:45-52 *)
  ("Reshape", mkSpec 1 None (IAtLeast 1) (OExact 1)); (* node/reshape.rs:265-272 *)
  ("Transpose", mkSpec 1 None (IExact 1) (OExact 1)); (* node/transpose.rs:48-55 *)
  ("Flatten", mkSpec 1 None (IExact 1) (OExact 1)); (* node/flatten.rs:44-51 *)
  ("Squeeze", mkSpec 1 None (IAtLeast 1) (OExact 1)); (* node/squeeze.rs:59-66 *)
  ("Unsqueeze", mkSpec 1 None (IAtLeast 1) (OExact 1)); (* node/unsqueeze.rs:61-68 *)
  ("Clip", mkSpec 1 None (IAtLeast 1) (OExact 1)); (* node/clip.rs:60-67 *)
  ("Col2Im", mkSpec 18 None (IExact 3) (OExact 1)); (* node/col2im.rs:63-70 *)
  ("Dropout", mkSpec 1 None (IDep [(1, IExact 1); (12, IRange 1 3)]) (ORange 1 2)); (* node/dropout.rs:67-77 *)
  ("Pad", mkSpec 1 None (IRange 1 4) (OExact 1)); (* node/pad.rs:133-140 *)
  ("ReduceMax", mkSpec 1 None (IRange 1 2) (OExact 1)); (* node/reduce.rs:131-138 *)
  ("ReduceMin", mkSpec 1 None (IRange 1 2) (OExact 1)); (* node/reduce.rs:131-138 *)
  ("ReduceMean", mkSpec 1 None (IRange 1 2) (OExact 1)); (* node/reduce.rs:131-138 *)
  ("ReduceProd", mkSpec 1 None (IRange 1 2) (OExact 1)); (* node/reduce.rs:131-138 *)
  ("ReduceSum", mkSpec 1 None (IRange 1 2) (OExact 1)); (* node/reduce.rs:131-138 *)
  ("ReduceSumSquare", mkSpec 1 None (IRange 1 2) (OExact 1)); (* node/reduce.rs:131-138 *)
  ("ReduceL1", mkSpec 1 None (IRange 1 2) (OExact 1)); (* node/reduce.rs:131-138 *)
  ("ReduceL2", mkSpec 1 None (IRange 1 2) (OExact 1)); (* node/reduce.rs:131-138 *)
  ("ReduceLogSum", mkSpec 1 None (IRange 1 2) (OExact 1)); (* node/reduce.rs:131-138 *)
  ("ReduceLogSumExp", mkSpec 1 None (IRange 1 2) (OExact 1)); (* node/reduce.rs:131-138 *)
  ("MatMul", mkSpec 1 None (IExact 2) (OExact 1)); (* node/matmul.rs:49-56 *)
  ("Linear", mkSpec 1 None (IAtLeast 2) (OExact 1)); (* node/linear.rs:61-68 *)
  ("Gemm", mkSpec 1 None (IAtLeast 2) (OExact 1)); (* node/gemm.rs:66-73 *)
  ("MatMulInteger", default_spec); (* node/matmulinteger.rs has no `spec`: processor.rs:212-214 *)
  ("Concat", mkSpec 1 None (IAtLeast 1) (OExact 1)); (* node/concat.rs:43-50 *)
  ("Split", mkSpec 1 None (IAtLeast 1) (ORange 1 2147483647)); (* node/split.rs:67-74 *)
  ("Gather", mkSpec 1 None (IExact 2) (OExact 1)); (* node/gather.rs:56-63 *)
  ("GatherElements", mkSpec 11 None (IExact 2) (OExact 1)); (* node/gather_elements.rs:65-72 *)
  ("Slice", mkSpec 1 None (IAtLeast 1) (OExact 1)); (* node/slice.rs:111-118 *)
  ("Tile", mkSpec 1 None (IAtLeast 1) (OExact 1)); (* node/tile.rs:68-75 *)
  ("Expand", mkSpec 8 None (IExact 2) (OExact 1)); (* node/expand.rs:43-50 *)
  ("Equal", mkSpec 1 None (IExact 2) (OExact 1)); (* node/comparison.rs:105-112 *)
  ("Greater", mkSpec 1 None (IExact 2) (OExact 1)); (* node/comparison.rs:105-112 *)
  ("Less", mkSpec 1 None (IExact 2) (OExact 1)); (* node/comparison.rs:105-112 *)
  ("GreaterOrEqual", mkSpec 1 None (IExact 2) (OExact 1)); (* node/comparison.rs:105-112 *)
  ("LessOrEqual", mkSpec 1 None (IExact 2) (OExact 1)); (* node/comparison.rs:105-112 *)
  ("IsInf", mkSpec 10 None (IExact 1) (OExact 1)); (* node/is_inf.rs:44-51 *)
  ("IsNaN", mkSpec 9 None (IExact 1) (OExact 1)); (* node/is_nan.rs:45-52 *)
  ("Cast", mkSpec 1 None (IExact 1) (OExact 1)); (* node/cast.rs:51-58 *)
  ("Shape", mkSpec 1 None (IExact 1) (OExact 1)); (* node/shape.rs:52-59 *)
  ("Size", mkSpec 1 None (IExact 1) (OExact 1)); (* node/size.rs:31-38 *)
  ("Constant", mkSpec 1 None (IAtLeast 0) (OExact 1)); (* node/constant.rs:38-45 *)
  ("ConstantOfShape", mkSpec 9 None (IExact 1) (OExact 1)); (* node/constant_of_shape.rs:59-66 *)
  ("OneHot", mkSpec 9 None (IExact 3) (OExact 1)); (* node/one_hot.rs:92-99 *)
  ("Where", mkSpec 9 None (IExact 3) (OExact 1)); (* node/where_op.rs:67-74 *)
  ("NonZero", mkSpec 9 None (IExact 1) (OExact 1)); (* node/nonzero.rs:41-48 *)
  ("ArgMax", mkSpec 1 None (IExact 1) (OExact 1)); (* node/argmax.rs:45-52 *)
  ("ArgMin", mkSpec 1 None (IExact 1) (OExact 1)); (* node/argmin.rs:45-52 *)
  ("TopK", mkSpec 1 None (IRange 1 2) (OExact 2)); (* node/topk.rs:68-75 *)
  ("Resize", mkSpec 10 None (IRange 1 4) (OExact 1)); (* node/resize.rs:231-238 *)
  ("GridSample", mkSpec 16 None (IExact 2) (OExact 1)); (* node/grid_sample.rs:107-114 *)
  ("DepthToSpace", mkSpec 1 None (IExact 1) (OExact 1)); (* node/depth_to_space.rs:66-73 *)
  ("SpaceToDepth", mkSpec 1 None (IExact 1) (OExact 1)); (* node/space_to_depth.rs:47-54 *)
  ("RandomNormal", mkSpec 1 None (IExact 0) (OExact 1)); (* node/random.rs:82-89 *)
  ("RandomUniform", mkSpec 1 None (IExact 0) (OExact 1)); (* node/random.rs:82-89 *)
  ("RandomNormalLike", mkSpec 1 None (IExact 1) (OExact 1)); (* node/random_like.rs:72-79 *)
  ("RandomUniformLike", mkSpec 1 None (IExact 1) (OExact 1)); (* node/random_like.rs:72-79 *)
  ("Bernoulli", mkSpec 15 None (IExact 1) (OExact 1)); (* node/bernoulli.rs:35-42 *)
  ("EyeLike", mkSpec 9 None (IExact 1) (OExact 1)); (* node/eye_like.rs:41-48 *)
  ("Range", mkSpec 11 None (IExact 3) (OExact 1)); (* node/range.rs:73-80 *)
  ("Attention", default_spec); (* node/attention.rs has no `spec`: processor.rs:212-214 *)
  ("BitShift", mkSpec 11 None (IExact 2) (OExact 1)); (* node/bitshift.rs:67-74 *)
  ("BitwiseAnd", mkSpec 18 None (IExact 2) (OExact 1)); (* node/bitwiseand.rs:36-43 *)
  ("BitwiseOr", mkSpec 18 None (IExact 2) (OExact 1)); (* node/bitwiseor.rs:36-43 *)
  ("BitwiseXor", mkSpec 18 None (IExact 2) (OExact 1)); (* node/bitwisexor.rs:36-43 *)
  ("BitwiseNot", mkSpec 18 None (IExact 1) (OExact 1)); (* node/bitwisenot.rs:36-43 *)
  ("Mod", mkSpec 10 None (IExact 2) (OExact 1)); (* node/modulo.rs:57-64 *)
  ("Trilu", mkSpec 14 None (IRange 1 2) (OExact 1)); (* node/trilu.rs:52-59 *)
  ("LeakyRelu", mkSpec 1 None (IExact 1) (OExact 1)); (* node/leaky_relu.rs:52-59 *)
  ("HardSigmoid", mkSpec 1 None (IExact 1) (OExact 1)); (* node/hard_sigmoid.rs:48-55 *)
  ("HardSwish", mkSpec 14 None (IExact 1) (OExact 1)); (* node/hard_swish.rs:38-45 *)
  ("Hardmax", mkSpec 1 None (IExact 1) (OExact 1)); (* node/hardmax.rs:46-53 *)
  ("Softmax", mkSpec 1 None (IExact 1) (OExact 1)); (* node/softmax.rs:45-52 *)
  ("LogSoftmax", mkSpec 1 None (IExact 1) (OExact 1)); (* node/log_softmax.rs:51-58 *)
  ("PRelu", mkSpec 1 None (IExact 2) (OExact 1)); (* node/prelu.rs:47-54 *)
  ("ThresholdedRelu", mkSpec 10 None (IExact 1) (OExact 1)); (* node/thresholded_relu.rs:44-51 *)
  ("If", mkSpec 1 None (IExact 1) (ORange 1 2147483647)); (* node/if_node.rs:48-55 *)
  ("Loop", default_spec); (* node/loop_node.rs has no `spec`: processor.rs:212-214 *)
  ("Scan", default_spec); (* node/scan_node.rs has no `spec`: processor.rs:212-214 *)
  ("Lstm", mkSpec 1 None (IRange 3 8) (ORange 0 3)); (* node/lstm.rs:166-175 *)
  ("Rnn", mkSpec 1 None (IRange 3 6) (ORange 0 2)); (* node/rnn.rs:122-133 *)
  ("Gru", mkSpec 1 None (IRange 3 6) (ORange 0 2)) (* node/gru.rs:165-174 *)
].

Fixpoint lookup_spec (t : string) (l : list (string * node_spec)) : node_spec :=
  match l with
  | [] => default_spec
  | (u, s) :: r => if String.eqb t u then s else lookup_spec t r
  end.

(** crates/onnx-ir/src/registry.rs:94-99 [get] and
    crates/onnx-ir/src/phases/type_inference.rs:117-119: the check made of every
    node before its types are inferred.  No type is registered twice, so the
    first row is the only one. *)
Definition check_node (t : string) (n : spec_node) (opset : N) : option spec_error :=
  validate_node_spec n opset (lookup_spec t standard_specs).
