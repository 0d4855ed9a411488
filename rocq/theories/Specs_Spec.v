(** What the ONNX standard says of the numbers of inputs and outputs of the
    operators, and how a specification of counts is read.  The reading of counts
    ([counts]) uses the data types of specifications and nothing of the checker. *)
From Verif Require Import Specs_Model.
From Coq Require Import NArith ZArith String List Bool.
Import ListNotations.
Local Open Scope string_scope.
Local Open Scope list_scope.
Local Open Scope N_scope.

(** The rule for one opset: the row of the greatest version that is not above
    the opset (the later one of two of the same version).  When there is none,
    any number is allowed. *)
Definition governs {A} (opset : N) (rows : list (N * A)) (v : N) (s : A) : Prop :=
  exists before after, rows = before ++ (v, s) :: after /\ v <= opset /\
    (forall u t, In (u, t) before -> u <= opset -> u <= v) /\
    (forall u t, In (u, t) after -> u <= opset -> u < v).
Inductive counts (opset n : N) : input_spec -> Prop :=
| Exactly : counts opset n (IExact n)
| At_least m : m <= n -> counts opset n (IAtLeast m)
| Between lo hi : lo <= n <= hi -> counts opset n (IRange lo hi)
| By_version rows v s : governs opset rows v s -> counts opset n s -> counts opset n (IDep rows)
| Before_all rows : (forall v s, In (v, s) rows -> opset < v) -> counts opset n (IDep rows).
Inductive counts_out (opset n : N) : output_spec -> Prop :=
| Exactly_out : counts_out opset n (OExact n)
| Between_out lo hi : lo <= n <= hi -> counts_out opset n (ORange lo hi)
| By_version_out rows v s : governs opset rows v s -> counts_out opset n s -> counts_out opset n (ODep rows)
| Before_all_out rows : (forall v s, In (v, s) rows -> opset < v) -> counts_out opset n (ODep rows).

(** A signature of the standard: since which version, how many inputs and
    outputs at least and at most ([None]: no limit). *)
Record signature := Sig {
  since : N; in_min : N; in_max : option N; out_min : N; out_max : option N }.

(** The operators of the standard up to version 24 that this library registers,
    the types of nodes they become (by the rank of their weights for
    convolutions and pooling), and their signatures by version.  Optional
    inputs that are left out in the middle count, those at the end need not. *)
Definition standard : list (string * list string * list signature) := [
  ("Add", ["Add"], [Sig 1 2 (Some 2) 1 (Some 1)]);
  ("Sub", ["Sub"], [Sig 1 2 (Some 2) 1 (Some 1)]);
  ("Mul", ["Mul"], [Sig 1 2 (Some 2) 1 (Some 1)]);
  ("Div", ["Div"], [Sig 1 2 (Some 2) 1 (Some 1)]);
  ("Pow", ["Pow"], [Sig 1 2 (Some 2) 1 (Some 1)]);
  ("And", ["And"], [Sig 1 2 (Some 2) 1 (Some 1)]);
  ("Or", ["Or"], [Sig 1 2 (Some 2) 1 (Some 1)]);
  ("Xor", ["Xor"], [Sig 1 2 (Some 2) 1 (Some 1)]);
  ("Equal", ["Equal"], [Sig 1 2 (Some 2) 1 (Some 1)]);
  ("Greater", ["Greater"], [Sig 1 2 (Some 2) 1 (Some 1)]);
  ("Less", ["Less"], [Sig 1 2 (Some 2) 1 (Some 1)]);
  ("Gather", ["Gather"], [Sig 1 2 (Some 2) 1 (Some 1)]);
  ("PRelu", ["PRelu"], [Sig 1 2 (Some 2) 1 (Some 1)]);
  ("MatMul", ["MatMul"], [Sig 1 2 (Some 2) 1 (Some 1)]);
  ("GreaterOrEqual", ["GreaterOrEqual"], [Sig 12 2 (Some 2) 1 (Some 1)]);
  ("LessOrEqual", ["LessOrEqual"], [Sig 12 2 (Some 2) 1 (Some 1)]);
  ("Expand", ["Expand"], [Sig 8 2 (Some 2) 1 (Some 1)]);
  ("Mod", ["Mod"], [Sig 10 2 (Some 2) 1 (Some 1)]);
  ("GatherElements", ["GatherElements"], [Sig 11 2 (Some 2) 1 (Some 1)]);
  ("GatherND", ["GatherND"], [Sig 11 2 (Some 2) 1 (Some 1)]);
  ("BitShift", ["BitShift"], [Sig 11 2 (Some 2) 1 (Some 1)]);
  ("CumSum", ["CumSum"], [Sig 11 2 (Some 2) 1 (Some 1)]);
  ("GridSample", ["GridSample"], [Sig 16 2 (Some 2) 1 (Some 1)]);
  ("BitwiseAnd", ["BitwiseAnd"], [Sig 18 2 (Some 2) 1 (Some 1)]);
  ("BitwiseOr", ["BitwiseOr"], [Sig 18 2 (Some 2) 1 (Some 1)]);
  ("BitwiseXor", ["BitwiseXor"], [Sig 18 2 (Some 2) 1 (Some 1)]);
  ("Max", ["Max"], [Sig 1 1 None 1 (Some 1)]);
  ("Min", ["Min"], [Sig 1 1 None 1 (Some 1)]);
  ("Sum", ["Sum"], [Sig 1 1 None 1 (Some 1)]);
  ("Mean", ["Mean"], [Sig 1 1 None 1 (Some 1)]);
  ("Concat", ["Concat"], [Sig 1 1 None 1 (Some 1)]);
  ("Abs", ["Abs"], [Sig 1 1 (Some 1) 1 (Some 1)]);
  ("Neg", ["Neg"], [Sig 1 1 (Some 1) 1 (Some 1)]);
  ("Ceil", ["Ceil"], [Sig 1 1 (Some 1) 1 (Some 1)]);
  ("Floor", ["Floor"], [Sig 1 1 (Some 1) 1 (Some 1)]);
  ("Sqrt", ["Sqrt"], [Sig 1 1 (Some 1) 1 (Some 1)]);
  ("Exp", ["Exp"], [Sig 1 1 (Some 1) 1 (Some 1)]);
  ("Log", ["Log"], [Sig 1 1 (Some 1) 1 (Some 1)]);
  ("Reciprocal", ["Reciprocal"], [Sig 1 1 (Some 1) 1 (Some 1)]);
  ("Tanh", ["Tanh"], [Sig 1 1 (Some 1) 1 (Some 1)]);
  ("Relu", ["Relu"], [Sig 1 1 (Some 1) 1 (Some 1)]);
  ("Sigmoid", ["Sigmoid"], [Sig 1 1 (Some 1) 1 (Some 1)]);
  ("Softplus", ["Softplus"], [Sig 1 1 (Some 1) 1 (Some 1)]);
  ("Softsign", ["Softsign"], [Sig 1 1 (Some 1) 1 (Some 1)]);
  ("Elu", ["Elu"], [Sig 1 1 (Some 1) 1 (Some 1)]);
  ("Selu", ["Selu"], [Sig 1 1 (Some 1) 1 (Some 1)]);
  ("Not", ["Not"], [Sig 1 1 (Some 1) 1 (Some 1)]);
  ("LeakyRelu", ["LeakyRelu"], [Sig 1 1 (Some 1) 1 (Some 1)]);
  ("HardSigmoid", ["HardSigmoid"], [Sig 1 1 (Some 1) 1 (Some 1)]);
  ("Hardmax", ["Hardmax"], [Sig 1 1 (Some 1) 1 (Some 1)]);
  ("Softmax", ["Softmax"], [Sig 1 1 (Some 1) 1 (Some 1)]);
  ("LogSoftmax", ["LogSoftmax"], [Sig 1 1 (Some 1) 1 (Some 1)]);
  ("GlobalAveragePool", ["GlobalAveragePool"], [Sig 1 1 (Some 1) 1 (Some 1)]);
  ("Identity", ["Identity"], [Sig 1 1 (Some 1) 1 (Some 1)]);
  ("Transpose", ["Transpose"], [Sig 1 1 (Some 1) 1 (Some 1)]);
  ("Flatten", ["Flatten"], [Sig 1 1 (Some 1) 1 (Some 1)]);
  ("Cast", ["Cast"], [Sig 1 1 (Some 1) 1 (Some 1)]);
  ("Shape", ["Shape"], [Sig 1 1 (Some 1) 1 (Some 1)]);
  ("Size", ["Size"], [Sig 1 1 (Some 1) 1 (Some 1)]);
  ("ArgMax", ["ArgMax"], [Sig 1 1 (Some 1) 1 (Some 1)]);
  ("ArgMin", ["ArgMin"], [Sig 1 1 (Some 1) 1 (Some 1)]);
  ("DepthToSpace", ["DepthToSpace"], [Sig 1 1 (Some 1) 1 (Some 1)]);
  ("SpaceToDepth", ["SpaceToDepth"], [Sig 1 1 (Some 1) 1 (Some 1)]);
  ("RandomNormalLike", ["RandomNormalLike"], [Sig 1 1 (Some 1) 1 (Some 1)]);
  ("RandomUniformLike", ["RandomUniformLike"], [Sig 1 1 (Some 1) 1 (Some 1)]);
  ("Sin", ["Sin"], [Sig 7 1 (Some 1) 1 (Some 1)]);
  ("Cos", ["Cos"], [Sig 7 1 (Some 1) 1 (Some 1)]);
  ("Tan", ["Tan"], [Sig 7 1 (Some 1) 1 (Some 1)]);
  ("Asin", ["Asin"], [Sig 7 1 (Some 1) 1 (Some 1)]);
  ("Acos", ["Acos"], [Sig 7 1 (Some 1) 1 (Some 1)]);
  ("Atan", ["Atan"], [Sig 7 1 (Some 1) 1 (Some 1)]);
  ("Sinh", ["Sinh"], [Sig 9 1 (Some 1) 1 (Some 1)]);
  ("Cosh", ["Cosh"], [Sig 9 1 (Some 1) 1 (Some 1)]);
  ("Asinh", ["Asinh"], [Sig 9 1 (Some 1) 1 (Some 1)]);
  ("Acosh", ["Acosh"], [Sig 9 1 (Some 1) 1 (Some 1)]);
  ("Atanh", ["Atanh"], [Sig 9 1 (Some 1) 1 (Some 1)]);
  ("Sign", ["Sign"], [Sig 9 1 (Some 1) 1 (Some 1)]);
  ("Erf", ["Erf"], [Sig 9 1 (Some 1) 1 (Some 1)]);
  ("IsNaN", ["IsNaN"], [Sig 9 1 (Some 1) 1 (Some 1)]);
  ("NonZero", ["NonZero"], [Sig 9 1 (Some 1) 1 (Some 1)]);
  ("EyeLike", ["EyeLike"], [Sig 9 1 (Some 1) 1 (Some 1)]);
  ("ConstantOfShape", ["ConstantOfShape"], [Sig 9 1 (Some 1) 1 (Some 1)]);
  ("IsInf", ["IsInf"], [Sig 10 1 (Some 1) 1 (Some 1)]);
  ("ThresholdedRelu", ["ThresholdedRelu"], [Sig 10 1 (Some 1) 1 (Some 1)]);
  ("Round", ["Round"], [Sig 11 1 (Some 1) 1 (Some 1)]);
  ("Celu", ["Celu"], [Sig 12 1 (Some 1) 1 (Some 1)]);
  ("HardSwish", ["HardSwish"], [Sig 14 1 (Some 1) 1 (Some 1)]);
  ("Bernoulli", ["Bernoulli"], [Sig 15 1 (Some 1) 1 (Some 1)]);
  ("Mish", ["Mish"], [Sig 18 1 (Some 1) 1 (Some 1)]);
  ("BitwiseNot", ["BitwiseNot"], [Sig 18 1 (Some 1) 1 (Some 1)]);
  ("Gelu", ["Gelu"], [Sig 20 1 (Some 1) 1 (Some 1)]);
  ("Swish", ["Swish"], [Sig 24 1 (Some 1) 1 (Some 1)]);
  ("AveragePool", ["AveragePool1d"; "AveragePool2d"], [Sig 1 1 (Some 1) 1 (Some 1)]);
  ("MaxPool", ["MaxPool1d"; "MaxPool2d"], [Sig 1 1 (Some 1) 1 (Some 1); Sig 8 1 (Some 1) 1 (Some 2)]);
  ("Conv", ["Conv1d"; "Conv2d"; "Conv3d"], [Sig 1 2 (Some 3) 1 (Some 1)]);
  ("ConvTranspose", ["ConvTranspose1d"; "ConvTranspose2d"; "ConvTranspose3d"], [Sig 1 2 (Some 3) 1 (Some 1)]);
  ("DeformConv", ["DeformConv"], [Sig 19 3 (Some 5) 1 (Some 1)]);
  ("ScatterElements", ["ScatterElements"], [Sig 11 3 (Some 3) 1 (Some 1)]);
  ("ScatterND", ["ScatterND"], [Sig 11 3 (Some 3) 1 (Some 1)]);
  ("BatchNormalization", ["BatchNormalization"], [Sig 1 5 (Some 5) 1 (Some 5); Sig 14 5 (Some 5) 1 (Some 3)]);
  ("InstanceNormalization", ["InstanceNormalization"], [Sig 1 3 (Some 3) 1 (Some 1)]);
  ("LayerNormalization", ["LayerNormalization"], [Sig 17 2 (Some 3) 1 (Some 3)]);
  ("GroupNormalization", ["GroupNormalization"], [Sig 18 3 (Some 3) 1 (Some 1)]);
  ("Reshape", ["Reshape"], [Sig 1 1 (Some 1) 1 (Some 1); Sig 5 2 (Some 2) 1 (Some 1)]);
  ("Squeeze", ["Squeeze"], [Sig 1 1 (Some 1) 1 (Some 1); Sig 13 1 (Some 2) 1 (Some 1)]);
  ("Unsqueeze", ["Unsqueeze"], [Sig 1 1 (Some 1) 1 (Some 1); Sig 13 2 (Some 2) 1 (Some 1)]);
  ("Clip", ["Clip"], [Sig 1 1 (Some 1) 1 (Some 1); Sig 11 1 (Some 3) 1 (Some 1)]);
  ("Col2Im", ["Col2Im"], [Sig 18 3 (Some 3) 1 (Some 1)]);
  ("Dropout", ["Dropout"], [Sig 1 1 (Some 1) 1 (Some 2); Sig 12 1 (Some 3) 1 (Some 2)]);
  ("Pad", ["Pad"], [Sig 1 1 (Some 1) 1 (Some 1); Sig 11 2 (Some 3) 1 (Some 1); Sig 18 2 (Some 4) 1 (Some 1)]);
  ("ReduceSum", ["ReduceSum"], [Sig 1 1 (Some 1) 1 (Some 1); Sig 13 1 (Some 2) 1 (Some 1)]);
  ("ReduceMax", ["ReduceMax"], [Sig 1 1 (Some 1) 1 (Some 1); Sig 18 1 (Some 2) 1 (Some 1)]);
  ("ReduceMin", ["ReduceMin"], [Sig 1 1 (Some 1) 1 (Some 1); Sig 18 1 (Some 2) 1 (Some 1)]);
  ("ReduceMean", ["ReduceMean"], [Sig 1 1 (Some 1) 1 (Some 1); Sig 18 1 (Some 2) 1 (Some 1)]);
  ("ReduceProd", ["ReduceProd"], [Sig 1 1 (Some 1) 1 (Some 1); Sig 18 1 (Some 2) 1 (Some 1)]);
  ("ReduceSumSquare", ["ReduceSumSquare"], [Sig 1 1 (Some 1) 1 (Some 1); Sig 18 1 (Some 2) 1 (Some 1)]);
  ("ReduceL1", ["ReduceL1"], [Sig 1 1 (Some 1) 1 (Some 1); Sig 18 1 (Some 2) 1 (Some 1)]);
  ("ReduceL2", ["ReduceL2"], [Sig 1 1 (Some 1) 1 (Some 1); Sig 18 1 (Some 2) 1 (Some 1)]);
  ("ReduceLogSum", ["ReduceLogSum"], [Sig 1 1 (Some 1) 1 (Some 1); Sig 18 1 (Some 2) 1 (Some 1)]);
  ("ReduceLogSumExp", ["ReduceLogSumExp"], [Sig 1 1 (Some 1) 1 (Some 1); Sig 18 1 (Some 2) 1 (Some 1)]);
  ("Gemm", ["Gemm"], [Sig 1 3 (Some 3) 1 (Some 1); Sig 11 2 (Some 3) 1 (Some 1)]);
  ("MatMulInteger", ["MatMulInteger"], [Sig 10 2 (Some 4) 1 (Some 1)]);
  ("Split", ["Split"], [Sig 1 1 (Some 2) 1 None; Sig 2 1 (Some 1) 1 None; Sig 13 1 (Some 2) 1 None]);
  ("Slice", ["Slice"], [Sig 1 1 (Some 1) 1 (Some 1); Sig 10 3 (Some 5) 1 (Some 1)]);
  ("Tile", ["Tile"], [Sig 1 3 (Some 3) 1 (Some 1); Sig 6 2 (Some 2) 1 (Some 1)]);
  ("Constant", ["Constant"], [Sig 1 0 (Some 0) 1 (Some 1)]);
  ("OneHot", ["OneHot"], [Sig 9 3 (Some 3) 1 (Some 1)]);
  ("Where", ["Where"], [Sig 9 3 (Some 3) 1 (Some 1)]);
  ("TopK", ["TopK"], [Sig 1 1 (Some 1) 2 (Some 2); Sig 10 2 (Some 2) 2 (Some 2)]);
  ("Resize", ["Resize"], [Sig 10 2 (Some 2) 1 (Some 1); Sig 11 3 (Some 4) 1 (Some 1); Sig 13 1 (Some 4) 1 (Some 1)]);
  ("RandomNormal", ["RandomNormal"], [Sig 1 0 (Some 0) 1 (Some 1)]);
  ("RandomUniform", ["RandomUniform"], [Sig 1 0 (Some 0) 1 (Some 1)]);
  ("Range", ["Range"], [Sig 11 3 (Some 3) 1 (Some 1)]);
  ("Attention", ["Attention"], [Sig 23 3 (Some 6) 1 (Some 4); Sig 24 3 (Some 7) 1 (Some 4)]);
  ("Trilu", ["Trilu"], [Sig 14 1 (Some 2) 1 (Some 1)]);
  ("If", ["If"], [Sig 1 1 (Some 1) 1 None]);
  ("Loop", ["Loop"], [Sig 1 3 None 1 None; Sig 11 2 None 1 None]);
  ("Scan", ["Scan"], [Sig 8 2 None 1 None; Sig 9 1 None 1 None]);
  ("LSTM", ["Lstm"], [Sig 1 3 (Some 8) 0 (Some 3)]);
  ("RNN", ["Rnn"], [Sig 1 3 (Some 6) 0 (Some 2)]);
  ("GRU", ["Gru"], [Sig 1 3 (Some 6) 0 (Some 2)])
].

Definition at_most (n : N) (m : option N) : bool := match m with Some k => n <=? k | None => true end.
(** The signature in force at an opset: the last one that began. *)
Fixpoint in_force (opset : N) (l : list signature) : option signature :=
  match l with
  | [] => None
  | s :: r => if since s <=? opset
              then match in_force opset r with Some t => Some t | None => Some s end else None
  end.
Definition onnx_allows (l : list signature) (opset ins outs : N) : bool :=
  match in_force opset l with
  | Some s => (in_min s <=? ins) && at_most ins (in_max s) && (out_min s <=? outs) && at_most outs (out_max s)
  | None => false
  end.

(** The nodes of the standard this library does not take: a maximum or minimum
    of a number of values other than two, and the further outputs of pooling and
    layer normalization. *)
Definition left_out (op : string) (ins outs : N) : bool :=
  if String.eqb op "Max" || String.eqb op "Min" then negb (ins =? 2) else
  if String.eqb op "MaxPool" || String.eqb op "LayerNormalization" then negb (outs =? 1) else false.

(** The operators whose specification is as strict as the standard. *)
Definition strict : list string := [
  "Add"; "Sub"; "Mul"; "Div"; "Pow"; "And"; "Or"; "Xor"; "Equal"; "Greater"; "Less"; "Gather";
  "PRelu"; "MatMul"; "Expand"; "Mod"; "GatherElements"; "GatherND"; "BitShift"; "CumSum";
  "GridSample"; "BitwiseAnd"; "BitwiseOr"; "BitwiseXor"; "Max"; "Min"; "Sum"; "Mean"; "Concat"; "Abs";
  "Neg"; "Ceil"; "Floor"; "Sqrt"; "Exp"; "Log"; "Reciprocal"; "Tanh"; "Relu"; "Sigmoid"; "Softplus";
  "Softsign"; "Elu"; "Selu"; "Not"; "LeakyRelu"; "HardSigmoid"; "Hardmax"; "Softmax"; "LogSoftmax";
  "GlobalAveragePool"; "Identity"; "Transpose"; "Flatten"; "Cast"; "Shape"; "Size"; "ArgMax";
  "ArgMin"; "DepthToSpace"; "SpaceToDepth"; "RandomNormalLike"; "RandomUniformLike"; "Sin"; "Cos";
  "Tan"; "Asin"; "Acos"; "Atan"; "Sinh"; "Cosh"; "Asinh"; "Acosh"; "Atanh"; "Sign"; "Erf"; "IsNaN";
  "NonZero"; "EyeLike"; "ConstantOfShape"; "IsInf"; "ThresholdedRelu"; "Round"; "Celu"; "HardSwish";
  "Bernoulli"; "Mish"; "BitwiseNot"; "Gelu"; "Swish"; "AveragePool"; "Conv"; "ConvTranspose";
  "DeformConv"; "ScatterElements"; "ScatterND"; "InstanceNormalization"; "GroupNormalization";
  "Col2Im"; "Dropout"; "OneHot"; "Where"; "RandomNormal"; "RandomUniform"; "Range"; "Trilu"; "If";
  "LSTM"; "RNN"; "GRU" ].
