(** Model of the path of an operator name through the importer and the code
    generator: crates/onnx-ir/src/ir/node.rs (the names known),
    proto_conversion.rs, phases/node_conversion.rs, registry.rs, the
    [build_node] of the processors, and
    crates/burn-onnx/src/burn/node_codegen.rs (the names with code). *)
From Verif Require Import IR_Model Ops_Spec.
Local Open Scope string_scope.

(** onnx-ir/src/ir/node.rs:161-396: the variants of [NodeType] and of [Node],
    in the order of the source. *)
Definition variants : list string :=
  ["Add"; "Sub"; "Mul"; "Div"; "Neg"; "Abs"; "Pow"; "Reciprocal";
   "Sqrt"; "Exp"; "Log"; "Ceil"; "Floor"; "Round"; "Sign"; "Erf";
   "Sin"; "Cos"; "Tan"; "Asin"; "Acos"; "Atan"; "Sinh"; "Cosh";
   "Tanh"; "Asinh"; "Acosh"; "Atanh"; "Relu"; "Sigmoid"; "Softmax"; "LogSoftmax";
   "LeakyRelu"; "HardSigmoid"; "Elu"; "Selu"; "Celu"; "Gelu"; "Mish"; "Softplus";
   "Softsign"; "ThresholdedRelu"; "HardSwish"; "PRelu"; "Equal"; "Greater"; "GreaterOrEqual"; "Less";
   "LessOrEqual"; "And"; "Or"; "Xor"; "Not"; "Where"; "BitwiseAnd"; "BitwiseOr";
   "BitwiseXor"; "BitwiseNot"; "BitShift"; "ArgMax"; "ArgMin"; "ReduceMax"; "ReduceMin"; "ReduceMean";
   "ReduceSum"; "ReduceProd"; "ReduceL1"; "ReduceL2"; "ReduceLogSum"; "ReduceLogSumExp"; "ReduceSumSquare"; "Max";
   "Min"; "Mean"; "Sum"; "Cast"; "Clip"; "Concat"; "Expand"; "Flatten";
   "Gather"; "GatherElements"; "GatherND"; "Pad"; "Reshape"; "Resize"; "Scatter"; "ScatterElements";
   "ScatterND"; "Shape"; "Size"; "Slice"; "Split"; "Squeeze"; "Tile"; "Transpose";
   "Unsqueeze"; "DepthToSpace"; "SpaceToDepth"; "MatMul"; "MatMulInteger"; "Gemm"; "Conv1d"; "Conv2d";
   "Conv3d"; "ConvTranspose1d"; "ConvTranspose2d"; "ConvTranspose3d"; "AveragePool1d"; "AveragePool2d"; "MaxPool1d"; "MaxPool2d";
   "GlobalAveragePool"; "GlobalMaxPool"; "BatchNormalization"; "InstanceNormalization"; "LayerNormalization"; "GroupNormalization"; "Dropout"; "Linear";
   "Attention"; "Constant"; "ConstantOfShape"; "EyeLike"; "Identity"; "RandomNormal"; "RandomUniform"; "RandomNormalLike";
   "RandomUniformLike"; "Bernoulli"; "Range"; "OneHot"; "If"; "Loop"; "Scan"; "IsInf";
   "IsNaN"; "NonZero"; "TopK"; "Unique"; "Trilu"; "Mod"; "CumSum"; "AffineGrid";
   "AveragePool"; "BlackmanWindow"; "CastLike"; "CenterCropPad"; "Col2Im"; "Compress"; "ConcatFromSequence"; "Conv";
   "ConvInteger"; "ConvTranspose"; "Dft"; "DeformConv"; "DequantizeLinear"; "Det"; "DynamicQuantizeLinear"; "Einsum";
   "GridSample"; "Gru"; "HammingWindow"; "HannWindow"; "Hardmax"; "Im"; "ImageDecoder"; "LpNormalization";
   "LpPool"; "Lrn"; "Lstm"; "MaxPool"; "MaxRoiPool"; "MaxUnpool"; "MeanVarianceNormalization"; "MelWeightMatrix";
   "Multinomial"; "NegativeLogLikelihoodLoss"; "NonMaxSuppression"; "Optional"; "OptionalGetElement"; "OptionalHasElement"; "QLinearConv"; "QLinearMatMul";
   "QuantizeLinear"; "RMSNormalization"; "Rnn"; "RegexFullMatch"; "ReverseSequence"; "RoiAlign"; "RotaryEmbedding"; "SequenceAt";
   "SequenceConstruct"; "SequenceEmpty"; "SequenceErase"; "SequenceInsert"; "SequenceLength"; "SequenceMap"; "Shrink"; "SoftmaxCrossEntropyLoss";
   "SplitToSequence"; "Stft"; "StringConcat"; "StringNormalizer"; "StringSplit"; "Swish"; "TensorScatter"; "TfIdfVectorizer";
   "Upsample"].

(** proto_conversion.rs:607 [NodeType::from_str], derived by strum with
    [ascii_case_insensitive] (node.rs:81-82): the first variant of that name, not
    looking at the case of letters; [None] is the panic "Unknown node type". *)
Definition from_str (op : string) : option string :=
  find (fun v => String.eqb (lower v) (lower op)) variants.

(** phases/node_conversion.rs:358-377 [remap_node_with_kernel_shape] and 380-412
    [remap_node_type]; [dims] is the number of spatial dimensions found there, if
    any; [None] for a panic. *)
Definition remap (v : string) (dims : option nat) : option string :=
  if String.eqb v "Conv" then
    match dims with Some 1 => Some "Conv1d" | Some 2 => Some "Conv2d" | Some 3 => Some "Conv3d" | _ => None end
  else if String.eqb v "ConvTranspose" then
    match dims with Some 1 => Some "ConvTranspose1d" | Some 2 => Some "ConvTranspose2d" | Some 3 => Some "ConvTranspose3d" | _ => None end
  else if String.eqb v "MaxPool" then
    match dims with Some 1 => Some "MaxPool1d" | Some 2 => Some "MaxPool2d" | _ => None end
  else if String.eqb v "AveragePool" then
    match dims with Some 1 => Some "AveragePool1d" | Some 2 => Some "AveragePool2d" | _ => None end
  else Some v.

(** registry.rs:113-646 [with_standard_processors]: the node types registered and
    their processors, in the order of the source. *)
Definition registry : list (string * string) :=
  [("Add", "ArithmeticBinaryProcessor"); ("Sub", "ArithmeticBinaryProcessor"); ("Mul", "ArithmeticBinaryProcessor");
   ("Div", "ArithmeticBinaryProcessor"); ("Pow", "PowProcessor"); ("Max", "MaxProcessor");
   ("Min", "MinProcessor"); ("And", "AndProcessor"); ("Or", "OrProcessor");
   ("Xor", "XorProcessor"); ("Sum", "SumProcessor"); ("Mean", "MeanProcessor");
   ("Abs", "AbsProcessor"); ("Neg", "NegProcessor"); ("Ceil", "CeilProcessor");
   ("Floor", "FloorProcessor"); ("Sqrt", "SqrtProcessor"); ("Exp", "ExpProcessor");
   ("Log", "LogProcessor"); ("Reciprocal", "ReciprocalProcessor"); ("Round", "RoundProcessor");
   ("Sign", "SignProcessor"); ("Sin", "SinProcessor"); ("Cos", "CosProcessor");
   ("Tan", "TanProcessor"); ("Sinh", "SinhProcessor"); ("Cosh", "CoshProcessor");
   ("Tanh", "TanhProcessor"); ("Asin", "AsinProcessor"); ("Acos", "AcosProcessor");
   ("Atan", "AtanProcessor"); ("Asinh", "AsinhProcessor"); ("Acosh", "AcoshProcessor");
   ("Atanh", "AtanhProcessor"); ("Erf", "ErfProcessor"); ("Relu", "ReluProcessor");
   ("Sigmoid", "SigmoidProcessor"); ("Gelu", "GeluProcessor"); ("Mish", "MishProcessor");
   ("Softplus", "SoftplusProcessor"); ("Softsign", "SoftsignProcessor"); ("Celu", "CeluProcessor");
   ("Elu", "EluProcessor"); ("Selu", "SeluProcessor"); ("Swish", "SwishProcessor");
   ("Not", "NotProcessor"); ("AveragePool1d", "AvgPool1dProcessor"); ("AveragePool2d", "AvgPool2dProcessor");
   ("MaxPool1d", "MaxPool1dProcessor"); ("MaxPool2d", "MaxPool2dProcessor"); ("GlobalAveragePool", "GlobalAveragePoolProcessor");
   ("Identity", "IdentityProcessor"); ("GlobalMaxPool", "UnsupportedProcessor"); ("GatherND", "GatherNDProcessor");
   ("Scatter", "UnsupportedProcessor"); ("ScatterElements", "ScatterElementsProcessor"); ("ScatterND", "ScatterNDProcessor");
   ("Unique", "UnsupportedProcessor"); ("CumSum", "CumSumProcessor"); ("Conv1d", "Conv1dProcessor");
   ("Conv2d", "Conv2dProcessor"); ("Conv3d", "Conv3dProcessor"); ("ConvTranspose1d", "Convtranspose1dProcessor");
   ("ConvTranspose2d", "Convtranspose2dProcessor"); ("ConvTranspose3d", "Convtranspose3dProcessor"); ("DeformConv", "DeformConvProcessor");
   ("BatchNormalization", "BatchNormProcessor"); ("InstanceNormalization", "InstanceNormProcessor"); ("LayerNormalization", "LayerNormProcessor");
   ("GroupNormalization", "GroupNormProcessor"); ("Reshape", "ReshapeProcessor"); ("Transpose", "TransposeProcessor");
   ("Flatten", "FlattenProcessor"); ("Squeeze", "SqueezeProcessor"); ("Unsqueeze", "UnsqueezeProcessor");
   ("Clip", "ClipProcessor"); ("Col2Im", "Col2ImProcessor"); ("Dropout", "DropoutProcessor");
   ("Pad", "PadProcessor"); ("ReduceMax", "ReduceProcessor"); ("ReduceMin", "ReduceProcessor");
   ("ReduceMean", "ReduceProcessor"); ("ReduceProd", "ReduceProcessor"); ("ReduceSum", "ReduceProcessor");
   ("ReduceSumSquare", "ReduceProcessor"); ("ReduceL1", "ReduceProcessor"); ("ReduceL2", "ReduceProcessor");
   ("ReduceLogSum", "ReduceProcessor"); ("ReduceLogSumExp", "ReduceProcessor"); ("MatMul", "MatMulProcessor");
   ("Linear", "LinearProcessor"); ("Gemm", "GemmProcessor"); ("MatMulInteger", "MatMulIntegerProcessor");
   ("Concat", "ConcatProcessor"); ("Split", "SplitProcessor"); ("Gather", "GatherProcessor");
   ("GatherElements", "GatherElementsProcessor"); ("Slice", "SliceProcessor"); ("Tile", "TileProcessor");
   ("Expand", "ExpandProcessor"); ("Equal", "ComparisonProcessor"); ("Greater", "ComparisonProcessor");
   ("Less", "ComparisonProcessor"); ("GreaterOrEqual", "ComparisonProcessor"); ("LessOrEqual", "ComparisonProcessor");
   ("IsInf", "IsInfProcessor"); ("IsNaN", "IsNaNProcessor"); ("Cast", "CastProcessor");
   ("Shape", "ShapeProcessor"); ("Size", "SizeProcessor"); ("Constant", "ConstantProcessor");
   ("ConstantOfShape", "ConstantOfShapeProcessor"); ("OneHot", "OneHotProcessor"); ("Where", "WhereProcessor");
   ("NonZero", "NonZeroProcessor"); ("ArgMax", "ArgMaxProcessor"); ("ArgMin", "ArgMinProcessor");
   ("TopK", "TopKProcessor"); ("Resize", "ResizeProcessor"); ("GridSample", "GridSampleProcessor");
   ("DepthToSpace", "DepthToSpaceProcessor"); ("SpaceToDepth", "SpaceToDepthProcessor"); ("RandomNormal", "RandomProcessor");
   ("RandomUniform", "RandomProcessor"); ("RandomNormalLike", "RandomLikeProcessor"); ("RandomUniformLike", "RandomLikeProcessor");
   ("Bernoulli", "BernoulliProcessor"); ("EyeLike", "EyeLikeProcessor"); ("Range", "RangeProcessor");
   ("Attention", "AttentionProcessor"); ("BitShift", "BitShiftProcessor"); ("BitwiseAnd", "BitwiseAndProcessor");
   ("BitwiseOr", "BitwiseOrProcessor"); ("BitwiseXor", "BitwiseXorProcessor"); ("BitwiseNot", "BitwiseNotProcessor");
   ("Mod", "ModuloProcessor"); ("Trilu", "TriluProcessor"); ("LeakyRelu", "LeakyReluProcessor");
   ("HardSigmoid", "HardSigmoidProcessor"); ("HardSwish", "HardSwishProcessor"); ("Hardmax", "HardmaxProcessor");
   ("Softmax", "SoftmaxProcessor"); ("LogSoftmax", "LogSoftmaxProcessor"); ("PRelu", "PReluProcessor");
   ("ThresholdedRelu", "ThresholdedReluProcessor"); ("If", "IfProcessor"); ("Loop", "LoopProcessor");
   ("Scan", "ScanProcessor"); ("Lstm", "LstmProcessor"); ("Rnn", "RnnProcessor");
   ("Gru", "GruProcessor")].

(** The node types a processor's [build_node] makes nodes of, for processors
    that serve several types and choose by [node_type] (arithmetic.rs,
    comparison.rs, reduce.rs, random.rs, random_like.rs, unsupported.rs:142-163);
    any other one makes nodes of the one type named like the processor. *)
Definition shared : list (string * list string) :=
  [("ArithmeticBinaryProcessor", ["Add"; "Sub"; "Mul"; "Div"]);
   ("ComparisonProcessor", ["Equal"; "Greater"; "GreaterOrEqual"; "Less"; "LessOrEqual"]);
   ("ReduceProcessor", ["ReduceMax"; "ReduceMin"; "ReduceMean"; "ReduceSum"; "ReduceProd"; "ReduceSumSquare";
                        "ReduceL1"; "ReduceL2"; "ReduceLogSum"; "ReduceLogSumExp"]);
   ("RandomProcessor", ["RandomNormal"; "RandomUniform"]);
   ("RandomLikeProcessor", ["RandomNormalLike"; "RandomUniformLike"]);
   ("UnsupportedProcessor", ["GlobalMaxPool"; "Scatter"; "Unique"])].

(** The other processors and the variant their [build_node] makes
    (onnx-ir/src/node/*.rs, at the end of each [build_node]). *)
Definition single : list (string * string) :=
  [("PowProcessor", "Pow"); ("MaxProcessor", "Max"); ("MinProcessor", "Min");
   ("AndProcessor", "And"); ("OrProcessor", "Or"); ("XorProcessor", "Xor");
   ("SumProcessor", "Sum"); ("MeanProcessor", "Mean"); ("AbsProcessor", "Abs");
   ("NegProcessor", "Neg"); ("CeilProcessor", "Ceil"); ("FloorProcessor", "Floor");
   ("SqrtProcessor", "Sqrt"); ("ExpProcessor", "Exp"); ("LogProcessor", "Log");
   ("ReciprocalProcessor", "Reciprocal"); ("RoundProcessor", "Round"); ("SignProcessor", "Sign");
   ("SinProcessor", "Sin"); ("CosProcessor", "Cos"); ("TanProcessor", "Tan");
   ("SinhProcessor", "Sinh"); ("CoshProcessor", "Cosh"); ("TanhProcessor", "Tanh");
   ("AsinProcessor", "Asin"); ("AcosProcessor", "Acos"); ("AtanProcessor", "Atan");
   ("AsinhProcessor", "Asinh"); ("AcoshProcessor", "Acosh"); ("AtanhProcessor", "Atanh");
   ("ErfProcessor", "Erf"); ("ReluProcessor", "Relu"); ("SigmoidProcessor", "Sigmoid");
   ("GeluProcessor", "Gelu"); ("MishProcessor", "Mish"); ("SoftplusProcessor", "Softplus");
   ("SoftsignProcessor", "Softsign"); ("CeluProcessor", "Celu"); ("EluProcessor", "Elu");
   ("SeluProcessor", "Selu"); ("SwishProcessor", "Swish"); ("NotProcessor", "Not");
   ("AvgPool1dProcessor", "AveragePool1d"); ("AvgPool2dProcessor", "AveragePool2d"); ("MaxPool1dProcessor", "MaxPool1d");
   ("MaxPool2dProcessor", "MaxPool2d"); ("GlobalAveragePoolProcessor", "GlobalAveragePool"); ("IdentityProcessor", "Identity");
   ("GatherNDProcessor", "GatherND"); ("ScatterElementsProcessor", "ScatterElements"); ("ScatterNDProcessor", "ScatterND");
   ("CumSumProcessor", "CumSum"); ("Conv1dProcessor", "Conv1d"); ("Conv2dProcessor", "Conv2d");
   ("Conv3dProcessor", "Conv3d"); ("Convtranspose1dProcessor", "ConvTranspose1d"); ("Convtranspose2dProcessor", "ConvTranspose2d");
   ("Convtranspose3dProcessor", "ConvTranspose3d"); ("DeformConvProcessor", "DeformConv"); ("BatchNormProcessor", "BatchNormalization");
   ("InstanceNormProcessor", "InstanceNormalization"); ("LayerNormProcessor", "LayerNormalization"); ("GroupNormProcessor", "GroupNormalization");
   ("ReshapeProcessor", "Reshape"); ("TransposeProcessor", "Transpose"); ("FlattenProcessor", "Flatten");
   ("SqueezeProcessor", "Squeeze"); ("UnsqueezeProcessor", "Unsqueeze"); ("ClipProcessor", "Clip");
   ("Col2ImProcessor", "Col2Im"); ("DropoutProcessor", "Dropout"); ("PadProcessor", "Pad");
   ("MatMulProcessor", "MatMul"); ("LinearProcessor", "Linear"); ("GemmProcessor", "Gemm");
   ("MatMulIntegerProcessor", "MatMulInteger"); ("ConcatProcessor", "Concat"); ("SplitProcessor", "Split");
   ("GatherProcessor", "Gather"); ("GatherElementsProcessor", "GatherElements"); ("SliceProcessor", "Slice");
   ("TileProcessor", "Tile"); ("ExpandProcessor", "Expand"); ("IsInfProcessor", "IsInf");
   ("IsNaNProcessor", "IsNaN"); ("CastProcessor", "Cast"); ("ShapeProcessor", "Shape");
   ("SizeProcessor", "Size"); ("ConstantProcessor", "Constant"); ("ConstantOfShapeProcessor", "ConstantOfShape");
   ("OneHotProcessor", "OneHot"); ("WhereProcessor", "Where"); ("NonZeroProcessor", "NonZero");
   ("ArgMaxProcessor", "ArgMax"); ("ArgMinProcessor", "ArgMin"); ("TopKProcessor", "TopK");
   ("ResizeProcessor", "Resize"); ("GridSampleProcessor", "GridSample"); ("DepthToSpaceProcessor", "DepthToSpace");
   ("SpaceToDepthProcessor", "SpaceToDepth"); ("BernoulliProcessor", "Bernoulli"); ("EyeLikeProcessor", "EyeLike");
   ("RangeProcessor", "Range"); ("AttentionProcessor", "Attention"); ("BitShiftProcessor", "BitShift");
   ("BitwiseAndProcessor", "BitwiseAnd"); ("BitwiseOrProcessor", "BitwiseOr"); ("BitwiseXorProcessor", "BitwiseXor");
   ("BitwiseNotProcessor", "BitwiseNot"); ("ModuloProcessor", "Mod"); ("TriluProcessor", "Trilu");
   ("LeakyReluProcessor", "LeakyRelu"); ("HardSigmoidProcessor", "HardSigmoid"); ("HardSwishProcessor", "HardSwish");
   ("HardmaxProcessor", "Hardmax"); ("SoftmaxProcessor", "Softmax"); ("LogSoftmaxProcessor", "LogSoftmax");
   ("PReluProcessor", "PRelu"); ("ThresholdedReluProcessor", "ThresholdedRelu"); ("IfProcessor", "If");
   ("LoopProcessor", "Loop"); ("ScanProcessor", "Scan"); ("LstmProcessor", "Lstm");
   ("RnnProcessor", "Rnn"); ("GruProcessor", "Gru")].

(** [build_node] of a processor on a node type; [None] for a panic. *)
Definition build (proc v : string) : option string :=
  match find (fun p => String.eqb (fst p) proc) shared with
  | Some p => if existsb (String.eqb v) (snd p) then Some v else None
  | None => match find (fun p => String.eqb (fst p) proc) single with Some p => Some (snd p) | None => None end
  end.

(** registry.rs:94-99 [get] and finalization: the processor registered, or the
    default one, whose [build_node] panics (processor.rs:279-287). *)
Definition processor (v : string) : option string :=
  match find (fun p => String.eqb (fst p) v) registry with Some p => Some (snd p) | None => None end.

(** The importer on one node: the variant of the node it ends with.  A node
    carries a domain (onnx.proto, [NodeProto.domain]), which no code reads.
    Fusions and removals of nodes are left out (C13, C14, C29, C39). *)
Definition import (n : node_proto) (dims : option nat) : option string :=
  match from_str (np_op n) with
  | None => None
  | Some v => match remap v dims with
              | None => None
              | Some w => match processor w with Some p => build p w | None => None end
              end
  end.

(** node_codegen.rs:61-251: the variants whose code generators are called. *)
Definition dispatched : list string :=
  ["Add"; "Sub"; "Mul"; "Div"; "Max"; "Min"; "MatMul"; "Equal";
   "Greater"; "GreaterOrEqual"; "Less"; "LessOrEqual"; "And"; "Or"; "Xor"; "Abs";
   "Acos"; "Acosh"; "Asin"; "Asinh"; "Atan"; "Atanh"; "Ceil"; "Cos";
   "Cosh"; "Erf"; "Exp"; "Floor"; "Identity"; "Log"; "Neg"; "Not";
   "Reciprocal"; "Round"; "Sigmoid"; "Sign"; "Sin"; "Sinh"; "Sqrt"; "Tan";
   "Tanh"; "Relu"; "Gelu"; "Mish"; "LeakyRelu"; "HardSigmoid"; "HardSwish"; "Softmax";
   "LogSoftmax"; "PRelu"; "Celu"; "Elu"; "Selu"; "Softplus"; "Softsign"; "ThresholdedRelu";
   "Swish"; "Hardmax"; "Reshape"; "Flatten"; "Squeeze"; "Unsqueeze"; "Transpose"; "Shape";
   "Size"; "Concat"; "Split"; "Slice"; "Gather"; "GatherElements"; "GatherND"; "ScatterElements";
   "ScatterND"; "Tile"; "Expand"; "Pad"; "Conv1d"; "Conv2d"; "Conv3d"; "ConvTranspose1d";
   "ConvTranspose2d"; "ConvTranspose3d"; "DeformConv"; "Col2Im"; "AveragePool1d"; "AveragePool2d"; "MaxPool1d"; "MaxPool2d";
   "GlobalAveragePool"; "BatchNormalization"; "LayerNormalization"; "GroupNormalization"; "InstanceNormalization"; "Cast"; "Clip"; "CumSum";
   "Dropout"; "Where"; "ArgMax"; "ArgMin"; "TopK"; "NonZero"; "OneHot"; "Pow";
   "Mod"; "Trilu"; "BitShift"; "BitwiseAnd"; "BitwiseOr"; "BitwiseXor"; "BitwiseNot"; "Sum";
   "Mean"; "Gemm"; "Linear"; "MatMulInteger"; "Constant"; "ConstantOfShape"; "EyeLike"; "Range";
   "RandomNormal"; "RandomUniform"; "RandomNormalLike"; "RandomUniformLike"; "Bernoulli"; "DepthToSpace"; "SpaceToDepth"; "Resize";
   "GridSample"; "IsInf"; "IsNaN"; "Attention"; "If"; "Loop"; "Scan"; "Lstm";
   "Rnn"; "Gru"; "ReduceMax"; "ReduceMin"; "ReduceMean"; "ReduceProd"; "ReduceSum"; "ReduceSumSquare";
   "ReduceL1"; "ReduceL2"; "ReduceLogSum"; "ReduceLogSumExp"].

(** node_codegen.rs:11-57 [impl_node_codegen_dispatch]: the code generator
    called, or a panic "Unsupported node type". *)
Definition generate (v : string) : option string := find (String.eqb v) dispatched.

(** The importer followed by the code generator: whose code is emitted. *)
Definition compile (n : node_proto) (dims : option nat) : option string :=
  match import n dims with Some v => generate v | None => None end.
