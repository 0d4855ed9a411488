(** Model of node and output naming. *)
From Verif Require Import Util.

(** ir/node.rs:162-408: the complete list of [NodeType] variants, in order.
    [Display] (strum) prints the variant name; the [ascii_case_insensitive]
    attribute (line 82) only affects parsing. *)
Definition node_types : list string :=
  [
   "Add"; "Sub"; "Mul"; "Div"; "Neg"; "Abs"; "Pow"; "Reciprocal"; "Sqrt"; "Exp"; "Log"; "Ceil"; 
   "Floor"; "Round"; "Sign"; "Erf"; "Sin"; "Cos"; "Tan"; "Asin"; "Acos"; "Atan"; "Sinh"; "Cosh"; 
   "Tanh"; "Asinh"; "Acosh"; "Atanh"; "Relu"; "Sigmoid"; "Softmax"; "LogSoftmax"; "LeakyRelu"; 
   "HardSigmoid"; "Elu"; "Selu"; "Celu"; "Gelu"; "Mish"; "Softplus"; "Softsign"; "ThresholdedRelu"; 
   "HardSwish"; "PRelu"; "Equal"; "Greater"; "GreaterOrEqual"; "Less"; "LessOrEqual"; "And"; "Or"; 
   "Xor"; "Not"; "Where"; "BitwiseAnd"; "BitwiseOr"; "BitwiseXor"; "BitwiseNot"; "BitShift"; 
   "ArgMax"; "ArgMin"; "ReduceMax"; "ReduceMin"; "ReduceMean"; "ReduceSum"; "ReduceProd"; 
   "ReduceL1"; "ReduceL2"; "ReduceLogSum"; "ReduceLogSumExp"; "ReduceSumSquare"; "Max"; "Min"; 
   "Mean"; "Sum"; "Cast"; "Clip"; "Concat"; "Expand"; "Flatten"; "Gather"; "GatherElements"; 
   "GatherND"; "Pad"; "Reshape"; "Resize"; "Scatter"; "ScatterElements"; "ScatterND"; "Shape"; 
   "Size"; "Slice"; "Split"; "Squeeze"; "Tile"; "Transpose"; "Unsqueeze"; "DepthToSpace"; 
   "SpaceToDepth"; "MatMul"; "MatMulInteger"; "Gemm"; "Conv1d"; "Conv2d"; "Conv3d"; 
   "ConvTranspose1d"; "ConvTranspose2d"; "ConvTranspose3d"; "AveragePool1d"; "AveragePool2d"; 
   "MaxPool1d"; "MaxPool2d"; "GlobalAveragePool"; "GlobalMaxPool"; "BatchNormalization"; 
   "InstanceNormalization"; "LayerNormalization"; "GroupNormalization"; "Dropout"; "Linear"; 
   "Attention"; "Constant"; "ConstantOfShape"; "EyeLike"; "Identity"; "RandomNormal"; 
   "RandomUniform"; "RandomNormalLike"; "RandomUniformLike"; "Bernoulli"; "Range"; "OneHot"; "If"; 
   "Loop"; "Scan"; "IsInf"; "IsNaN"; "NonZero"; "TopK"; "Unique"; "Trilu"; "Mod"; "CumSum"; 
   "AffineGrid"; "AveragePool"; "BlackmanWindow"; "CastLike"; "CenterCropPad"; "Col2Im"; 
   "Compress"; "ConcatFromSequence"; "Conv"; "ConvInteger"; "ConvTranspose"; "Dft"; "DeformConv"; 
   "DequantizeLinear"; "Det"; "DynamicQuantizeLinear"; "Einsum"; "GridSample"; "Gru"; 
   "HammingWindow"; "HannWindow"; "Hardmax"; "Im"; "ImageDecoder"; "LpNormalization"; "LpPool"; 
   "Lrn"; "Lstm"; "MaxPool"; "MaxRoiPool"; "MaxUnpool"; "MeanVarianceNormalization"; 
   "MelWeightMatrix"; "Multinomial"; "NegativeLogLikelihoodLoss"; "NonMaxSuppression"; "Optional"; 
   "OptionalGetElement"; "OptionalHasElement"; "QLinearConv"; "QLinearMatMul"; "QuantizeLinear"; 
   "RMSNormalization"; "Rnn"; "RegexFullMatch"; "ReverseSequence"; "RoiAlign"; "RotaryEmbedding"; 
   "SequenceAt"; "SequenceConstruct"; "SequenceEmpty"; "SequenceErase"; "SequenceInsert"; 
   "SequenceLength"; "SequenceMap"; "Shrink"; "SoftmaxCrossEntropyLoss"; "SplitToSequence"; "Stft"; 
   "StringConcat"; "StringNormalizer"; "StringSplit"; "Swish"; "TensorScatter"; "TfIdfVectorizer"; 
   "Upsample" ]%string.

(** graph_state.rs:28-31 [NameRegistryInner]: counters per node type.  The
    [seen_names] set is written but never read, so it is left out. *)
Definition registry := list (string * N).

Fixpoint counter (r : registry) (t : string) : option N :=
  match r with
  | [] => None
  | (k, c) :: r' => if String.eqb k t then Some c else counter r' t
  end.
(** HashMap insert: newest binding first. *)
Definition set_counter (r : registry) (t : string) (c : N) : registry := (t, c) :: r.

(** [entry(t).and_modify(|e| *e += 1).or_insert(1)] *)
Definition bump (r : registry) (t : string) : N :=
  match counter r t with Some c => c + 1 | None => 1 end%N.

(** [format!("{}{}", node_type, counter).to_lowercase()] *)
Definition type_name (t : string) (c : N) : string := lower (t ++ dec c).

(** graph_state.rs:52-69 [generate_node_name]; also the local fall-back
    counter of node_conversion.rs:347-354 [rename_node], which does the same. *)
Definition generate_node_name (r : registry) (t : string) : registry * string :=
  (set_counter r t (bump r t), type_name t (bump r t)).

Fixpoint generate_all (r : registry) (ts : list string) : registry * list string :=
  match ts with
  | [] => (r, [])
  | t :: ts' => let '(r1, n) := generate_node_name r t in
                let '(r2, ns) := generate_all r1 ts' in (r2, n :: ns)
  end.

(** graph_state.rs:72-77 [set_initial_counter] *)
Definition set_initial_counter (r : registry) (t : string) (c : N) : registry :=
  if (0 <? c)%N then set_counter r t c else r.

(** graph_state.rs:374-376: [format!("{}_out{}", node.name, out_count)], with
    [out_count] starting at 1. *)
Definition output_name (node_name : string) (k : N) : string := node_name ++ "_out" ++ dec k.

(** node_conversion.rs:134-149: registry handed to the subgraphs of an
    If/Loop/Scan node of the root graph.  [local] are the root counters at
    this point, newest entry of a type first (only that one counts, as in the
    HashMap); [t] is the type of the node itself, whose counter is set to 1. *)
Definition subgraph_registry (local : registry) (t : string) : registry :=
  set_initial_counter
    (fold_right (fun '(ty, c) r => set_initial_counter r ty (c + 1)%N) [] local) t 1.

(** graph_state.rs:565-590: names of the initializer constants of the root
    graph, [format!("constant{}", idx + 1)]; node_conversion.rs:55-62: the
    local counter for Constant starts at their number. *)
Definition initializer_names (n : nat) : list string :=
  map (fun idx => "constant" ++ dec (N.of_nat idx + 1))%string (seq 0 n).
Definition root_counters (n : nat) : registry :=
  if (0 <? n)%nat then set_counter [] "Constant" (N.of_nat n) else [].
