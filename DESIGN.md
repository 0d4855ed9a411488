# Formal model of burn-onnx in Rocq

The code under study is `/repo` (Rust crates `onnx-ir` and `burn-onnx`).
The model lives in `rocq/theories`. It was written by reading the Rust text; no code is generated or run.

## Method

* Every Rust function that is modelled becomes a total Gallina function returning the new value.
  `Result`/`Option` stay data. A panic is an explicit error value. Every definition cites file and lines.
* For each area there are up to four files:
  `X_Model.v` (definitions only), `X_Spec.v` (the independent specification: what ONNX, Rust or the
  English property says, written without the model's helpers), `X_Proofs.v` (lemmas) and
  `X_Props.v` (only the property theorems, each closed by `exact`, with `Print Assumptions` and with
  examples showing that the hypotheses are met by a concrete non-trivial case).
* Where the full property is false of the faithful model, a theorem ending in `_refuted` gives a concrete
  counterexample (this is a finding about the code), and a theorem ending in `_partial` proves what does hold.
* Operators are not interpreted by the graph passes: the semantics of operators is a universally
  quantified parameter (possibly with laws as explicit hypotheses), so that one theorem covers all operators.
* Hash maps are association lists whose lookups do not depend on order, or the iteration order is a
  universally quantified permutation.

## Plan per property

| id | modelled | how proved |
|---|---|---|
| C01 | `is_top_sorted` on lists of (inputs, outputs) name lists | equivalence with the order relation; executability of SSA graphs by induction; self reference refuted |
| C02 | `extract_opset_version` | characterisation of first default-domain entry by list decomposition |
| C03 | `sanitize_name` on lists of Unicode code points | invariant of the scanning loop by induction |
| C04 | same | refuted by witnesses; injective on the class of already legal lower-case names |
| C05 | `Path::components`/`is_absolute`/`join` (Unix) and `resolve_path` with file system canonicalisation as oracle | induction over the string |
| C06 | the three loading functions over file contents as byte lists, 64-bit arithmetic explicit | list lemmas; overflow explicit |
| C07 | `from_proto_entries` incl. decimal parsing of u64 | last-wins specification by induction |
| C08 | `TensorStore` | invariant by induction over store histories |
| C09 | `NameRegistry`, decimal printing, lower-casing, the complete list of node type names | injectivity of decimal printing, finite check on the complete type list, induction on histories |
| C10 | same plus graph inputs | refuted by witness; partial theorem for input names not of generated shape |
| C11 | GraphState construction, `init_in`, `add_node`, `consume`, main conversion loop without fusion | simulation between ONNX environment and IR environment by induction over the nodes |
| C12 | `extract_outer_scope_references` on nested graphs | mutual induction over the nesting against an inductive free-name relation |
| C13 | `convert_gemm_to_linear`, Gemm and Linear on matrices over a ring | algebra; transA = 2 and dynamic weights discussed |
| C14 | `convert_matmul_to_linear` over node lists | refuted by witness; partial theorem if MatMul output has one consumer |
| C15 | `merge_static_shape` | list induction |
| C16 | `compute_broadcast_rank`, `compute_broadcast_static_shape` | against an independent broadcasting relation on reversed shapes |
| C17 | the sweep loop over an arbitrary inference function | loop invariant |
| C18–C28 | the `infer_types`/`extract_config` functions of the operators | against an independent definition of the ONNX output shape; false cases refuted |
| C29 | planning and applying of no-op removal | semantic preservation by induction over the node list |
| C30 | `eliminate_dead_nodes` | measure for termination, reachability relation as spec, evaluation preserved |
| C31 | finalisation passes | set reasoning by induction |
| C32–C34 | the three renaming passes | a common theorem on renaming passes plus the specific law |
| C35 | pattern matcher and tensors as functions | refuted by witness; partial: equality of shapes |
| C36 | shape folding functions | against independent slice/gather semantics on lists |
| C37 | integer folding with explicit 64/32-bit ranges | list induction, range arithmetic; overflow cases refuted |
| C38 | rounding operators of Flocq | innocuous double rounding |
| C39 | matcher/rewriter | refuted by witnesses over the reals/integers; partial theorem |
| C40 | `simplify_graph` loop | fuel bound and monotonic count |
| C41 | `Scope` | invariant: remaining uses; simulation of a borrow checker; structural induction on If, Loop and Scan nodes nested to any depth: branches and bodies each in their own block, variables may lose their value in the innermost block that has them (`Scope_State`), a Loop or Scan by one iteration that re-establishes the variables of its block |
| C42 | `collect_all_fields` | refuted by witness; partial theorem |
| C43 | output path computation of `ModelGen::run` | refuted by witness; partial theorem for distinct stems |
| C44 | `validate_*_spec` | arithmetic equivalences |
| C45 | little-endian decoding and size checks | round trip by induction |
| C46 | pads conversion | list induction |
| C47 | `ShapeProcessor::infer_types` | arithmetic against the ONNX definition of start and end; three refutations |
| C48 | `LinearProcessor::infer_types`, the layer of C13 | from the definition of the layer |
| C49 | all passes of C30, C32–C37 composed in the loop of C40 | one invariant of graph, store and run that every pass keeps; induction over rounds |
| C50 | the `forward` functions of 19 binary operators as a generator of a small expression language; its evaluation; `infer_binary` | the specification (`BinOps_Spec`) is broadcasting of exact integer, boolean and IEEE operations; each form of code is shown to be the broadcast by lemmas on unsqueezing, scalars and one-dimensional zips; one counterexample per combination left out |
| C51 | the statements emitted by the `forward` functions of shape, gather, concat, slice, squeeze, unsqueeze, where, cast and reshape on arrays and scalars, as a small statement language with an interpreter; the types recorded for the outputs | the specification (`ShapeRun_Spec`) gives each operator on tensors of any rank; one lemma per operator reduces it to lists; one counterexample per case left out |
| C52 | the body of `forward`: the statements of the nodes, in order | induction on the graph's execution, from C51 and the invariant that every variable holds the value of its name |
| C53 | the loops emitted by gathernd.rs (strides, offsets, flat `select`, final reshape) and its type inference | the specification (`Index_Spec.gather_nd`) is an element-by-element table; the offset loop is shown to compute the row-major offset of the tuple, and the flat index list to be the list of offsets of the table's entries |
| C54 | the update loop emitted by scatter_nd.rs and its type inference | the specification folds the updates of one element in order; loop invariant: after any prefix of the updates each element of the flat output is the fold over that prefix |
| C55 | the statements emitted for Transpose, Flatten, Reshape, Squeeze, Unsqueeze, Concat, Slice, Gather, Where, Expand, Tile, Split, DepthToSpace, SpaceToDepth and CumSum on device tensors (`TensorRun_Model`), their type inference, and the Burn methods they call | the specification (`TensorRun_Spec`, `ShapeRun_Spec`, `Permute_Spec`, `RankOps_Spec`) gives each ONNX result as a table of elements; each emitted method chain is shown to give the same table, by index arithmetic on row-major offsets |
| C56 | `gen_program`/`exec_program`: the statements of all nodes in order, several outputs per node | induction on the graph with C55 and C51 for the step; invariant: every named ONNX value is held by its variable |
| C57 | `Control_Model`: a small language of the emitted statements (declarations, blocks, assignments, if, while, for, collectors) with a fuelled interpreter, and `gen_cnode`, the code of If, Loop, Scan and Constant nodes around the statements of C56; ownership is left out (C41) | ONNX as a mutually inductive big-step relation (`Control_Spec`); mutual induction on an execution: block by block, the variables hold the ONNX values, and leaving a block restores the outer ones; refutations for exchanged carried values, a condition that is a carried input, an ignored condition, Loop scan outputs, Scan outputs that are states, the names `i`/`seq_len`, negative axes |
| C58 | `Reduce_Model`: the expression emitted by `reduce.rs` (the chain of `sum_dim` and the like, `expand`, `squeeze_dims`, `reshape`, `any`/`all` of booleans) as a term with an interpreter over an abstract algebra of elements | ONNX reductions by the group of positions that agree outside the reduced axes (`Reduce_Spec`); induction on the list of sorted axes: the chain computes, at each position, the combination of its group, for every commutative associative operation (`Reduce_Core`, generic in the element type), then instances; refutations for all axes dropped, `noop_with_empty_axes`, run-time axes |
| C59 | the same emitted expression (`Reduce_Model`), run over the algebra of real numbers (`ReduceR_Model`), with the blocks of ReduceL2, ReduceLogSum and ReduceLogSumExp and their helper variables | the ten reductions over Coq's reals (`ReduceR_Spec`); `Reduce_Core` instantiated with sums, products, maxima and means (groups of one size, so a mean of means is the mean), functions applied before and after a reduction, and `ln (sum (exp (x - m))) + m = ln (sum (exp x))` for ReduceLogSumExp; refutations for ReduceLogSumExp with a dropped axis and for an input named like a helper variable |
| C60 | the expressions emitted for MatMul, MatMulInteger and Gemm (`MatMul_Model`: leading and trailing unsqueezes, squeezes, casts and zero points, transposes and factors) and the recorded types | `MatMul_Spec`: numpy's matmul over any element type and any dot product, zero points for rows and columns, Gemm from `Linear_Spec`; leading ones do not change a product, the added dimension is the one squeezed, elements are compared one by one; refutations for vector by vector, integer MatMul, zero points for rows, native and omitted zero points, and a scalar on the device as third input of Gemm |
| C61 | the statements emitted for ArgMax, ArgMin, Hardmax, Softmax and LogSoftmax (`Lines_Model`: axis default by version, helper variables, squeeze, reshape or extraction of the result, argmax and scatter) | `Lines_Spec`: a relation between the lines of the input along the axis and those of the output (first greatest element for any total preorder, one-hot line, exponentials over their sum), 2-D coercion before version 13; `Lines_Props`: proved for every axis and form of the result; refuted for Softmax and Hardmax before version 13 when the axis is followed by more than one element, and for a graph value named like the helper variable |
| C62 | the configuration, types and code of GatherElements and ScatterElements (`Elements_Model`: native gather and scatter, the gather-subtract-scatter form for assignment, the loop over flat offsets with strides) | `Elements_Spec`: the place an index names, updates that name a place in row-major order, pointwise; `Elements_Props`: proved for any element type; refuted for indices from the end and indices smaller than the data in the native forms, and for assignment in single precision (the rounded difference) |
| C63 | the types and code of NonZero, Trilu, EyeLike and ConstantOfShape (`Masks_Model`: the zero comparison by element kind, `argwhere` and transpose; `triu`/`tril`; `diag_mask`, inversion and cast; the literal, the scalar, array, boolean and expanded forms) | `Masks_Spec`: places of non-zero elements in row-major order, which elements a diagonal keeps, pointwise; `Masks_Props`: NonZero and EyeLike in full; Trilu except a run-time diagonal and booleans, ConstantOfShape except non-zero values of data types without a literal and run-time tensors as shapes, all four refuted |
| C64 | RNN, GRU and LSTM (`Recur_Model`: attributes, types, module configuration, the slicing, transposing and adding of the stored gate parameters, the emitted statement with its reshapes, swaps, flips and splits, loading by path and running) | `Recur_Spec`: the ONNX step of each operator over any numbers with associative and commutative addition, the state after k steps forwards or backwards, the layout of Y, Y_h, Y_c; proof: each gate loads the right slice (`Recur_Nodes`), a loaded cell follows the ONNX step, runs along a sequence follow by induction (`Recur_Run`), then the output expressions (`Recur_Final`). Missing: rounding, clip, activation parameters, sizes of 1, weights computed by the graph, most of layout 1 (refuted) |
| C65 | Conv, ConvTranspose (1 to 3 axes), MaxPool, AveragePool (1 and 2 axes), GlobalAveragePool (`Conv_Model`: attributes, resolution of `auto_pad`, tokens of the padding, module configuration, loading, forward) | `Conv_Spec`: windows over any number of axes, the ONNX sums, maxima and means over positions inside the input, scattering for the transposed convolution; proof: the padded input of Burn against the bounds test of ONNX (`Conv_Proofs`), attributes (`Conv_Nodes`), each module (`Conv_Run`), nodes and acceptance (`Conv_Final`, `Conv_More`). Missing: rounding, weights computed by the graph, MaxPool's indices, AveragePool with dilations (refuted) or ceil_mode; SAME padding after a MaxPool (refuted) |
| C66 | BatchNormalization, LayerNormalization, GroupNormalization, InstanceNormalization (`Norm_Model`: attributes, inference, module configuration and loading, forward, the inline form for computed parameters) | `Norm_Spec`: means and variances over lists of positions, the four ONNX formulas; proof: tensors as functions of an index, broadcasting of `[1, C, 1, ..]`, row-major arithmetic of the reshape to `[N, G, rest]` for unbounded sizes. Four `_refuted` theorems: `epsilon` left out of BatchNormalization is 0, `training_mode` is ignored, LayerNormalization with `axis` 0 of a matrix normalises rows, a scale for each group (version 18) panics |
| C67 | 38 element-wise operators with one input, Clip, PRelu, IsInf, IsNaN (`Unary_Model`: the statement emitted, attributes and defaults, types) | `Unary_Spec`: the relation `onnx_fn` between an element and its image, operator by operator, on real numbers (float32 for IsInf and IsNaN); proof: the emitted method or activation is that function, pointwise; PRelu by the offsets of a broadcast operand. Rounding is not modelled. Gelu with `approximate` "tanh", Round of a host number, a vector of slopes for PRelu and IsInf of a device scalar are refuted; host numbers with Log, Sign, Erf or an activation give code that does not compile |
| C68 | TopK, OneHot, Range (`Pick_Model`: configuration, types, the statement emitted) | `Pick_Spec`: a sorted permutation of every line, its first k elements and their places; the class of an index; `range_result`. Burn's sort is any function that meets `sorts` (descending, stable or not), so the values are proved for all of them and the indices for stable sorts or lines without ties; proof: lines (C61), the scatter lemma of C61, induction on the steps. Ties with an unstable sort, fractions with integer indices, indices out of bounds, ranges that go down, fractions in Range and the element type of OneHot are refuted |
| C69 | Pow, Sum, Mean, Not, BitwiseNot (`Power_Model`: types, the expression emitted for each combination of operand types) | `Power_Spec`: broadcasting as in C50, `pow_elt`, `onnx_sum`, `onnx_mean`, `not_elt`, `bitnot_elt`; rounding of floating-point powers is a parameter. Proved by padding with leading dimensions of length one and, for Sum and Mean, by induction on the inputs. Refuted: Sum and Mean of tensors of different ranks, Mean of native scalars, a native exponent beyond 32 bits, a native float with whole exponents on the device, Not of a native boolean. |
| C70 | Col2Im (`Col2Im_Model`: configuration, inferred type, the numbers written into the code, and what running it does) | `Col2Im_Spec`: a `geometry`, `place_of` an element of a block on the padded image, and for each pixel the sum over `lying_on`. Proved through the positions the code computes with two broadcast additions, which are shown to be the row-major numbers of those places, and the order in which `scatter` visits them. Refuted: inputs of integers or booleans are accepted and the code does not compile. |
| C71 | the Attention node (`Attend_Model`: configuration, inferred types, both ways of generating code, and what running it does) | `Attend_Spec`: the formulas of the operator over reals with a minus infinity. Proved by following each tensor as a function of its four coordinates. Refuted: a mask next to `is_causal` is ignored; a mask of three dimensions is applied by image instead of by head; and with the scores among the outputs grouped heads panic, mode 2 without `softcap` and masks of booleans of rank other than 2 do not compile. Refused although valid: `softmax_precision`, and the scores without kept keys. |
| C72 | the Resize node (`Resize_Model`: configuration, checks, inferred type, the module or the call generated, and what running it does) | `Resize_Spec`: coordinates, rounding and weights of the operator, axis by axis, over the reals. Proved from the equality of the weights of one axis for every point. Refuted: the inferred static shape is the input's; nearest with the default rounding, linear with `asymmetric`, scales that are not the ratio of the sizes, other cubic coefficients, sizes for images and channels; other ranks than 3 and 4 (at run time: 4) do not compile. Refused although valid: no `mode`, a region of interest that is not used. |
| C73 | the DeformConv node (`Deform_Model`: configuration, checks, inferred type, the module generated with its data, and its call) | `Deform_Spec`: the operator for any numbers and any interpolation. Proved element by element, from the equality of the channel numbers used for the weights, the offsets and the mask. The inferred type is proved to fit the result. Missing: padding that differs at the two ends of an axis. |
| C74 | RandomNormal, RandomUniform, the Like forms, Bernoulli, GridSample, Size (`Sample_Model`: attributes, inferred types, the code generated and what running it does) | `Sample_Spec`: tensors of draws from a source of random numbers, which is a parameter; GridSample for any way of reading a picture. Proved by reading the attributes and element by element. Refuted: doubles (the code makes the backend's floats), Like without `dtype` for other than floats, Like with another `dtype`, Bernoulli with other types, GridSample of volumes, Size (does not compile). `seed` is ignored by the code and not modelled. |
| C75 | `Iface_Model`: registration of inputs and outputs, conversion of scalars at the boundary, the tokens of the header of `forward` and of the returned expression, the statements before and after the code of the nodes (the code of the nodes is left out) | `Iface_Spec`: a reader of Rust headers (types, parameters, tuples) and the values a caller passes and gets. Proved by reading back the tokens (induction on lists with commas) and by running the conversions name by name. Refuted: telling element types of one kind apart; headers when nodes and graph disagree about the type of an input. |
| C76 | `Ops_Model`: the tables of operator names, processors and code generators, taken from the source by a script, and the functions that look names up in them | `Ops_Spec`: names up to case, domains. For all strings, by the properties of lookups and a computation on the tables. Refuted: operators that the importer accepts without code (GlobalMaxPool, Scatter, Unique), foreign domains (not read), names of the importer's own (Linear, Conv2d). |
| C77 | `Final_Model`: finalization of graphs (which store each argument gets, recursion into branches and bodies) and reading of arguments (conversion of nodes, removal of unread constants and warnings are left out) | `Final_Spec`: what an argument reads, which constant a name stands for, all places where nodes read. Proved by induction on nested graphs for numbered data at any depth, for constants of the same graph, and idempotence. Refuted: constants of outer graphs named from a branch read nothing after finalization. |
| C78 | `Uses_Model`: `register_imports` of all nodes with the recursion into branches and bodies, the set of imports with an unknown order of walking, sorting, and the names each node's code begins paths with | `Uses_Spec`: Rust paths, names brought by a `use`, scope, byte order. Proved by induction on nested nodes, a table of the paths, and uniqueness of strictly sorted lists. Refuted: the crates `alloc` and `half` are named without being brought in. |
| C79 | `Lit_Model`: the tokens written for integers, arrays, floats (four ways) and paddings | `Lit_Spec`: a reader of Rust literals, arrays and padding expressions. Proved by reading back what is written. Refuted: attributes, Clip bounds and Pad fills that are infinite or NaN. |
| C80 | `Specs_Model`: the specifications of all registered operators and their validation | `Specs_Spec`: the numbers of inputs and outputs ONNX gives each operator by version, and the reading of rules by version. Proved by induction over rules and by arithmetic for every operator, for all counts and versions. Refuted in full: Max and Min of other than two values, further outputs of MaxPool and LayerNormalization. |
| C81 | `Load_Model`: the output directory, the two files of a model and the loading code | `Load_Spec`: how paths are resolved at run time and by `include_bytes!`. Proved by resolving the paths written and read, for all directories. Refuted for relative directories: another working directory, and embedding. |
| C82 | `Infer_Model`: the inference loop, for any processor | `Agree_Spec`: when two types agree. Proved from what each iteration ends with: outputs checked for rank zero, inputs taken from the outputs they read. |
| C83 | `Lift_Model`: the expression emitted for Unsqueeze of a native scalar, which casts compile, and burn's construction of a tensor from data; inference from `ShapeOps_Model` | `Lift_Spec`: the tensor of ones with the scalar in it. Proved for one axis and numbers that are not half precision; refuted for more axes, booleans, half precision and integers from 2^63 on. |
| C84 | `LiftExpand_Model`: the statement emitted for Expand of a scalar and when it compiles; `b_expand` of `TensorRun_Model`; inference from `AxisOps_Model` | `Lift_Spec`: a tensor filled with the scalar. Proved for native scalars, for all shapes; refuted for device scalars. |
| C85 | `LiftReshape_Model`: the expression emitted for Reshape of a native scalar to a constant shape; inference from `ShapeOps_Model` | The scalar itself. Proved for shapes of at most one dimension, where it stays a number; for longer shapes it is proved that no program has a result, so the full statement is refuted. |

## Trusted base

* Coq 8.16.1's kernel, with `vm_compute` for closed computations (witnesses and examples).
* The standard library's axioms, and no others, listed per theorem below. They come in through Coq's real
  numbers, which Flocq's floating-point numbers and the attention theorems use.
* My reading of the Rust text. Nothing is extracted or run, so the tie between model and code is the citation
  on each definition.
* My reading of the ONNX operator documentation, which the `_Spec.v` files write down.

### What `Print Assumptions` lists

Every property file prints the assumptions of every theorem at build time. The result, for the theorems of
MANIFEST.json:

<!-- assumptions -->
* Closed under the global context (no axioms): all theorems not listed below (444).
* `ClassicalDedekindReals.sig_forall_dec`: `C68_one_hot_bool_refused`, `C68_one_hot_element_type`, `C68_runtime_refused`.
* `ClassicalDedekindReals.sig_forall_dec`, `FunctionalExtensionality.functional_extensionality_dep`: `C32_operators_idempotent`, `C67_clip_partial`, `C67_clip_refused`, `C67_prelu_partial`, `C67_prelu_slope_refuted`, `C68_one_hot_partial`, `C68_one_hot_fraction_refuted`, `C68_one_hot_outside_refuted`, `C68_range_partial`, `C68_range_down_refuted`, `C68_range_fraction_refuted`, `C72_resize_partial`, `C72_shape_refuted`, `C72_rank_refuted`, `C72_runtime_rank_refuted`, `C72_nearest_refuted`, `C72_asymmetric_refuted`, `C72_scale_refuted`, `C72_cubic_refuted`, `C72_images_refuted`.
* `ClassicalDedekindReals.sig_forall_dec`, `ClassicalDedekindReals.sig_not_dec`, `FunctionalExtensionality.functional_extensionality_dep`: `C66_epsilon_refuted`, `C71_attention_partial`, `C71_attention_scores_partial`, `C71_grouped_refuted`, `C71_softcap_mode_refuted`, `C71_bool_mask_refuted`, `C71_causal_mask_ignored`, `C71_mask_by_image`, `C71_causal_mask_refuted`, `C71_mask_rank3_refuted`.
* `ClassicalDedekindReals.sig_forall_dec`, `ClassicalDedekindReals.sig_not_dec`, `Classical_Prop.classic`, `FunctionalExtensionality.functional_extensionality_dep`: `C36_pass_partial`, `C36_gather_partial`, `C36_end_refuted`, `C36_end_range_refuted`, `C36_two_indices_refuted`, `C36_start_panics_refuted`, `C37_pass_partial`, `C37_node_partial`, `C37_div_panics_refuted`, `C37_neg_wraps_refuted`, `C37_i32_wraps_refuted`, `C37_empty_panics_refuted`, `C37_outer_panics_refuted`, `C37_unknown_shape_panics_refuted`, `C37_unknown_rank_refuted`, `C38_elements`, `C38_correctly_rounded`, `C38_vectors`, `C38_cast_rounds`, `C38_cast_to_integer`, `C38_cast_node`, `C39_coalesce_preserves_partial`, `C39_coalesce_then_dead_nodes_partial`, `C39_part_preserved_partial`, `C39_only_products_replaced`, `C39_unscaled_refuted`, `C39_scale_rounded_refuted`, `C39_vector_scale_refuted`, `C39_two_scales_refuted`, `C39_mask_rank3_refuted`, `C39_weights_output_refuted`, `C40_round_never_grows`, `C40_terminates`, `C40_no_overflow`, `C40_small_graphs`, `C40_fixed_point_refuted`, `C49_simplify_preserves_partial`, `C59_real_reduce_partial`, `C59_log_sum_exp_drop_refuted`, `C59_helper_name_refuted`, `C61_softmax_partial`, `C61_softmax_rows_refuted`, `C67_tensor_partial`, `C67_selu_partial`, `C67_gelu_tanh_refuted`, `C67_native_partial`, `C67_native_rejected`, `C67_native_round_refuted`.
<!-- /assumptions -->

## What is modelled

| file of /repo/crates | modelled in | left out |
|---|---|---|
| onnx-ir/src/pipeline.rs | TopSort (order check), Simplify (call of the simplifier) | reading the file, protobuf parsing, error types, logging |
| onnx-ir/src/proto_conversion.rs | TopSort (opsets), Sanitize, OuterRefs, Payload, Import | sparse tensors, string tensors (kept as an opaque value), type protos other than tensors |
| onnx-ir/src/external_data.rs, tensor_store.rs | ExtData | mmap; file system operations are oracles; Windows paths |
| onnx-ir/src/graph_state.rs, phases/node_conversion.rs | Import, Linear, OuterRefs, Names | conversion of control-flow nodes inside `Import` (names captured by them: OuterRefs); `to_static` of captured outer constants |
| onnx-ir/src/phases/type_inference.rs, processor.rs | Infer | collection of input preferences is part of the loop only as a flag |
| onnx-ir/src/phases/post_processing.rs, finalization.rs, ir/graph.rs | Noop | the conversion of `RawNode` into typed nodes; `is_noop` of each operator is a hypothesis except for Reshape, Expand, Split, Concat |
| onnx-ir/src/simplify/*.rs | Passes, Permute, Fold, Attention, Simplify | Rust's `Debug` print of attributes is a parameter; NaN payloads |
| onnx-ir/src/node/*.rs | ShapeOps, AxisOps, RankOps, Fold (Cast), Linear (Linear, Gemm), and the files listed under C50 and later | configurations that are only copied from attributes |
| onnx-ir/src/registry.rs, ir/node.rs | Names (node types and names) | dispatch of processors |
| burn-onnx/src/burn/scope.rs, graph.rs, node/subgraph_helper.rs, if_node.rs, loop_node.rs, scan_node.rs | Scope, Fields | rewriting of initialisation code (graph.rs:351-369); the text of the generated expressions |
| burn-onnx/src/model_gen.rs | Files | symbolic links, case-insensitive file systems, failed writes |
| burn-onnx/src/burn/node/{shape,gather,concat,slice,squeeze,unsqueeze,where_op,cast,reshape}.rs | ShapeRun | code for tensor operands; bounds known only at run time |
| burn-onnx/src/burn/node/linear.rs | Linear | `burn::nn::Linear::forward` is taken to compute x·W + b, and burn-store's loader to refuse mismatched shapes |
| onnx-ir-derive, model-checks, benches, onnx-tests | — | macros and test programs |

## Assumptions made in the models

* `usize` has 64 bits and the build is a release build, except where a theorem is about overflow. Panics are values.
* C05, C06: Unix path syntax. `canonicalize` and the existence of files are arbitrary functions.
* C09–C12: names are ASCII where lower-casing matters. Hash map iteration order is arbitrary.
* C11: the choice which constant inputs are embedded (`lift`) is arbitrary.
* C13, C14, C48: see the row on linear.rs.
* C17: a processor assigns output types only.
* C29, C32–C34, C36, C37, C49: operators are an arbitrary function of operator name, attributes, number of outputs
  and inputs; the laws used are hypotheses of the theorem.
* C35: Transpose and Reshape are given by their index maps. `scalar_i64` is a parameter of the pass.
* C36–C38, C49: IEEE arithmetic is Flocq's; NaN payloads are not distinguished; `TensorData::new` panics when the
  number of elements does not fit the shape.
* C39: real numbers instead of floats inside the products; no −∞ masks; the first two dimensions are not broadcast;
  the value store of a corrected key matrix is not followed.
* C40, C49: an empty constant index, on which `scalar_i64` panics, counts as "no index" in the permute-reshape pass.
* C50: Burn's tensor methods are modelled by what their documentation says of one pair of elements (`burn_elt`), with
  operands of equal rank broadcast along dimensions of size 1; integer results outside the element type, comparisons
  of NaN under Max and Min, `Mod` of floats or with `fmod` are not described; `scalar - tensor` is the IEEE difference;
  `scalar / tensor` is a product with the reciprocal, as the comment in div.rs says.
* C51, C52: a constant is known as a list of integers with a shape (`cval`); variables are named after ONNX values (C03 is
  about the renaming); arrays are `[i64; N]`, whose items panic when out of range; `as i64` of a native scalar is only
  considered for `i64`; `x.dims()` gives the tensor's shape.
* C55, C56: Burn's `permute`, `reshape` (0 copies, -1 infers), `squeeze_dims`, `unsqueeze_dims`, `cat`, `slice`, `select`, `take`, `expand`, `repeat` (positive counts), `narrow`, `split_with_sizes` (skips empty parts), `mask_where`, `cumsum` (integers), `flip` and `zeros_like` are modelled by their documentation in `TensorRun_Model.v`; any call outside what the documentation promises has no result in the model;
* C57: Burn's `stack`, `slice_dim`, `squeeze_dim` and `into_scalar` are modelled by their documentation; Rust's blocks, shadowing, assignment, `while` and `for` are modelled by `run` in `Control_Model.v`, which treats an ill-typed assignment as a failure; the trip count is a native number (an on-device one would be moved by the loop condition, which is C41's subject), Scan has the semantics of opset 9 and later, Constant nodes hold integers, and code is assumed to be generated for branches that are not taken;
* C58: Burn's `sum`, `prod`, `max`, `min`, their `_dim` variants (the dimension stays, with size one), `square`, `abs`, `any`, `all`, `any_dim`, `all_dim`, `expand` and `squeeze_dims` are modelled by their documentation (`squeeze_dims` to rank one with every dimension named stops); integers outside their type are a failure of the model, so wrapping is not described, and floating-point elements are left to C59;
* C59: elements are real numbers, so rounding, overflow, infinities, NaN and the casts between float types (ReduceL2, ReduceLogSum and ReduceLogSumExp compute in 32 bits) are left out; Burn's `mean`, `sqrt`, `log`, `exp` and element-wise `+`, `-` of tensors of one shape are modelled by their documentation;
* C60: Burn's `matmul` on two tensors of one rank (at least two) is the batched product with broadcast batch dimensions, for whatever dot product the backend has; `unsqueeze`, `unsqueeze_dims` (repeated axes insert repeatedly), `squeeze_dim`, `transpose`, `sub`, `+` and `*` are modelled by their documentation; a cast of integers to 32 bits keeps them, and sums outside 32 bits are a failure; Gemm is about elements whose product commutes and has 1.0 as its unit (true of floating-point numbers up to the payload of a NaN);
* C61: Burn's `argmax` and `argmin` return the first of equal elements and keep the dimension; `scatter` with `Add` combines each update in turn with the element its index names; `softmax` and `log_softmax` subtract the greatest element of the line first. NaN (no total order) and rounding are left out; the position found is an unbounded integer.
* C62: Burn's `gather` and `scatter` check that the indices have the dimensions of the tensor but for the axis, as documented, and have no result for an index out of range; `scatter` adds the updates in row-major order; `narrow`, `slice_assign`, `mask_where`, `greater_equal`, `lower_equal` on one element act on that element.
* C63: Burn's `argwhere` lists the true places in row-major order, one row each; `tri_mask` and `diag_mask` compare row minus column with minus the offset as documented, `triu` and `tril` exist for numeric tensors only; `int`, `float` and `cast` of a boolean tensor give exact zeros and ones; `expand` as in C55; `ones`, `zeros` of a shape.
* C64: Burn's `Rnn`, `Gru`, `Lstm` and their `Bi` forms compute the documented steps with one `Linear` per gate for the input and one for the hidden state; `batch_first`, `reverse` and the initial state act as documented; a bidirectional module concatenates the directions in the last dimension and stacks the final states; `squeeze::<D>()` removes every dimension of size 1 and panics if the rank is then not D; the loader fails for a parameter without data or with data of another shape; Burn's activations, with their default parameters, are ONNX's.
* C65: Burn's `Conv1d..3d`, `ConvTranspose1d..3d`, `MaxPool`, `AvgPool` and `AdaptiveAvgPool` compute the documented sums, maxima and means over the padded input; `PaddingConfig1d::Explicit(left, right)`, `PaddingConfig2d::Explicit(top, left, bottom, right)`, `PaddingConfig3d::Explicit(depth, height, width)`; channels not divisible by the groups are refused, and so is data of another shape than the parameter; with `ceil_mode` Burn and ONNX count windows alike (one parameter `ceil_count` stands for both); sums are in row-major order of the window on both sides; padding values of MaxPool are neutral for the maximum.
* C66: Burn's `BatchNorm` (inference), `LayerNorm`, `GroupNorm` and `InstanceNorm` compute the documented formulas in the order modelled (`Norm_Model.bn_forward`, `ln_forward`, `gn_forward`); `unsqueeze_dims`, `reshape` and broadcasting of the element-wise operators as modelled in `MatMul_Model`, `TensorRun_Model` and `Norm_Model.bzip`; a square is the product of a number with itself; the casts of full-precision LayerNorm and GroupNorm do not change numbers; the loader refuses data of another shape.
* C67: Burn's tensor methods are the functions of their names (`round` takes ties to even), `burn::tensor::activation` computes the documented formulas (`Unary_Model.activation`; `selu` with the constants 1.6732631921768188 and 1.0507010221481323), `clamp` with ordered bounds, `PRelu` with one slope or one per element of the second dimension; the methods of `f32`/`f64` in Rust (`log` takes a base, no `sign` and no `erf`, `round` takes ties away from zero); the error function is a parameter.
* C68: Burn's `topk_with_indices` sorts the lines in descending order with their indices and selects the first k (more than the line has is a panic); `one_hot_fill` inserts the dimension, adds the depth to negative indices, converts both values to the kind of the input and adds their difference by `scatter`, which panics for an index out of bounds; `arange_step` counts up by the step and refuses a step of zero.
* C69: Burn's `powi`, `powf` and their scalar forms give the same power as ONNX prescribes for elements of one kind (whatever its rounding), an integer power that does not fit is left open; `powi` of floats by a tensor of whole numbers is not claimed to exist; dividing a tensor by a `u32` converts it to the element type with one rounding; `bitwise_not` inverts the bits of the element type.
* C70: Burn's `scatter` with `Add` adds the values one after the other in row-major order (the order matters only for rounding); `arange`, `mul_scalar`, `reshape`, `expand` and `slice` as in C41 and C64; `Tensor::<B, 3>::zeros` has the float type of the backend, taken to be that of the input; `usize` and `i64` products in the generator do not overflow.
* C71: Burn's `attention` for equally many heads is softmax(scale·QKᵀ + mask)·V, with `is_causal` for as many keys as queries, and `softcap` only when nothing is masked; nothing is assumed of its other uses. `matmul`, `cat`, `permute`, `softmax`, `expand` and `mask_fill` act as their documentation says. Elements are reals with a minus infinity; rounding is not modelled.
* C72: Burn's `interpolate`, `Interpolate1d` and `Interpolate2d` agree with PyTorch's: nearest takes ⌊x·in/out⌋, linear and cubic (coefficient -3/4) use (x+½)·in/out-½, or x·(in-1)/(out-1) with `align_corners`, and repeat the border; with scales the size is the product rounded down. Rounding of floats is not modelled.
* C73: Burn's `DeformConv2d` takes offsets as two channels (vertical, horizontal) per element of the kernel and offset group, the mask as one, interpolates as ONNX does with zeros outside, and refuses parameters of another shape. Asymmetric padding of this module is not modelled.
* C74: Burn's `Tensor::random` makes elements of the backend's float type, `random_like` of the type and shape of its tensor, `Distribution::Default` is uniform on [0, 1), `grid_sample_2d` reads (horizontal, vertical) pairs and takes images only; a tensor has no field `shape`.
* C75: moving a number to the device and back is a pair of unknown functions (`up`, `down`); whether the statements respect ownership is C41's subject (`C41_boundary_refuted`); `usize` literals have no suffix (codegen.rs:51-55).
* C76: strum's `EnumString` with `ascii_case_insensitive` compares names up to ASCII case; the tables were copied from the source.
* C77: a store is a pair of functions (tensors by number, numbers by name); sharing through `Rc` is not visible in it.
* C78: Burn's prelude provides `Tensor`, `Int`, `Bool`, `Float`, `TensorData`, `Shape`, `Module`, `Backend`; the names each node mentions were read off its `quote!` blocks; local variables that shadow an imported function (an input called `log_softmax`) are not modelled.
* C79: a finite float is its shortest decimal notation, which Rust reads back as the same number; `{:?}` and `{}` are taken to write the same notation; quoting a float that is not finite panics in `proc_macro2`.
* C80: the table of signatures is written from the ONNX operator documentation (versions 1 to 24); the checks that processors make themselves in `infer_types` and `extract_config` are not part of it.
* C81: no symbolic links; a relative path in `include_bytes!` is taken from the directory of the source file; the path literal is read back as written; names of inputs as in C43.
* C82: as C17; processors are arbitrary functions.
* C83: burn's `from_data_dtype` refuses data whose shape has another rank than the tensor; which `as` casts Rust allows; casting an `f32` to `f64` and back is exact.
* C84: `TensorData::from([x])` does not compile when `x` is a tensor; `expand` as in C55.
* C85: as C83; shapes known only at run time are left out.
* C53, C54: Burn's `select`, `reshape`, `narrow` and `slice_assign` on flat tensors are modelled by their documentation;
  `narrow` refuses an empty range. The native-scalar result of GatherND is left out (inference never records it).
* C41: the accesses a plain node makes are given with the node; panics of the generator on malformed Scan nodes are not modelled.
* C43: a path is a list of components; writing succeeds.
* C45: a little-endian machine; `TensorData::from_bytes_vec` does not check lengths.

## Where the code does not do what the property says

Each `_refuted` theorem gives a graph, type or file on which the modelled code violates the property. They are
described in the `note` of the property in MANIFEST.json and beside the theorem.

## Testing the theorems

`seeded/LOG.jsonl` records the edits of the model that were tried in a scratch copy, which theorems failed, and
what was tightened when none did.
