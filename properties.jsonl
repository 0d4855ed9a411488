{"id": "C01", "title": "Import rejects exactly the graphs with a backward reference", "statement": "parse_* accepts the node order of the top-level graph if and only if no node consumes a value name that a strictly later node produces; an accepted graph with single producers and no self-reference can be executed front to back with every intermediate value already available.", "quantifier": "every list of nodes with arbitrary input/output name lists, including optional empty names, duplicates and self references", "why_tests_cant": "the number of graphs and name patterns is unbounded; the existing tests try a handful of fixed graphs", "anchors": ["crates/onnx-ir/src/pipeline.rs:parse_buffer", "crates/onnx-ir/src/pipeline.rs:TopologicalSortable::is_top_sorted"]}
{"id": "C02", "title": "Opset selection ignores every non-default domain", "statement": "The opset used for the whole import is the version of the first opset_import entry of the default domain, whatever custom-domain entries are before or after it; if there is none the import fails with MissingOpsetVersion and never silently picks another domain's version.", "quantifier": "every list of (domain, version) imports", "why_tests_cant": "lists of imports are unbounded and order dependent", "anchors": ["crates/onnx-ir/src/pipeline.rs:extract_opset_version"]}
{"id": "C03", "title": "Sanitized names are legal Rust identifiers", "statement": "Every name coming out of name sanitisation that is not empty consists only of ASCII letters, digits and underscores and does not start with a digit, sanitising twice equals sanitising once, and exactly the names already in snake case (lower case, no leading digit, no doubled or trailing underscore) are left alone.", "quantifier": "every string, of any length and any characters (including non ASCII)", "why_tests_cant": "the input strings are unbounded; generated code must compile for every model", "anchors": ["crates/onnx-ir/src/proto_conversion.rs:sanitize_name"]}
{"id": "C04", "title": "Distinct ONNX value names stay distinct after import", "statement": "Two different non-empty ONNX value names of one graph must not be turned into the same IR name, and a non-empty name must not become the empty name that marks an absent optional input.", "quantifier": "every pair of ONNX names", "why_tests_cant": "collisions occur only for particular pairs out of infinitely many", "anchors": ["crates/onnx-ir/src/proto_conversion.rs:sanitize_name", "crates/onnx-ir/src/graph_state.rs:init_in"]}
{"id": "C05", "title": "External tensor data never leaves the model directory", "statement": "For every external_data location string the importer either rejects it or reads a path obtained by appending only plain components to the model directory: no absolute path, drive prefix or '..' component can ever be opened.", "quantifier": "every location string, any number and nesting of components", "why_tests_cant": "attack strings are unbounded", "anchors": ["crates/onnx-ir/src/external_data.rs:ExternalDataInfo::resolve_path", "crates/onnx-ir/src/external_data.rs:from_proto_entries"]}
{"id": "C06", "title": "External tensor bytes are exactly the declared range", "statement": "Loading external data returns exactly the bytes offset..offset+length of the file, or fails; it never returns fewer, more or shifted bytes, and memory-mapped and plain-read loading agree on every file, offset and length.", "quantifier": "every file content, offset and length, with and without memory mapping succeeding", "why_tests_cant": "offset/length/file-size combinations are unbounded", "anchors": ["crates/onnx-ir/src/tensor_store.rs:load_external_data", "crates/onnx-ir/src/tensor_store.rs:load_external_mmap", "crates/onnx-ir/src/tensor_store.rs:load_external_read"]}
{"id": "C07", "title": "External data metadata: last entry wins, defaults and parse failures are explicit", "statement": "From the key/value entries of a tensor the importer obtains the last location, offset and length given; a missing location is an error, a non numeric offset or length is an error, a missing offset means 0 and unknown keys change nothing.", "quantifier": "every list of key/value entries in every order", "why_tests_cant": "entry lists are unbounded and order dependent", "anchors": ["crates/onnx-ir/src/external_data.rs:from_proto_entries"]}
{"id": "C08", "title": "Stored tensors get fresh ids and are never lost or overwritten", "statement": "After any sequence of store operations, looking up the id returned by each store yields exactly the data stored by that operation, ids of different stores differ, and ids never handed out resolve to nothing.", "quantifier": "every history of store operations", "why_tests_cant": "a statement about all histories", "anchors": ["crates/onnx-ir/src/tensor_store.rs:TensorStore::store", "crates/onnx-ir/src/tensor_store.rs:TensorStore::get"]}
{"id": "C09", "title": "Generated node names are unique within one registry", "statement": "Node names generated during one import (shared registry, any interleaving of node types across the graph and its subgraphs) are pairwise distinct, and so are the output names derived from them.", "quantifier": "every sequence of node types, for any interleaving of root graph and subgraphs sharing the registry", "why_tests_cant": "needs induction over unbounded call histories; collisions can involve digits at the end of the operator name", "anchors": ["crates/onnx-ir/src/graph_state.rs:NameRegistry::generate_node_name", "crates/onnx-ir/src/phases/node_conversion.rs:rename_node", "crates/onnx-ir/src/graph_state.rs:add_node"]}
{"id": "C10", "title": "Value names chosen by the importer do not capture user names", "statement": "Graph input names (kept as given by the model) and node output names (generated by the importer) never coincide, so no node reads the wrong value.", "quantifier": "every set of graph input names and every node sequence", "why_tests_cant": "collisions only appear for particular names", "anchors": ["crates/onnx-ir/src/graph_state.rs:new_with_registry_and_outer_scope", "crates/onnx-ir/src/graph_state.rs:add_node"]}
{"id": "C11", "title": "Import preserves the dataflow of the ONNX graph", "statement": "For every topologically sorted ONNX graph in SSA form whose names survive sanitisation, evaluating the imported nodes (before any optimisation) gives each graph output the value the ONNX graph gives it, for every interpretation of the operators, initializers and inputs.", "quantifier": "every such graph, every operator semantics, every input assignment", "why_tests_cant": "quantifies over all graphs and all operator semantics", "anchors": ["crates/onnx-ir/src/graph_state.rs:init_in", "crates/onnx-ir/src/graph_state.rs:add_node", "crates/onnx-ir/src/graph_state.rs:consume", "crates/onnx-ir/src/phases/node_conversion.rs:convert_nodes_impl"]}
{"id": "C12", "title": "Subgraph captures are exactly its free names", "statement": "The outer-scope names recorded for a subgraph are exactly the non-empty names used in it (also at any nesting depth, and as its outputs) that it neither produces nor declares as inputs or initializers.", "quantifier": "every nesting of subgraphs of any depth", "why_tests_cant": "nesting depth is unbounded", "anchors": ["crates/onnx-ir/src/proto_conversion.rs:extract_outer_scope_references", "crates/onnx-ir/src/proto_conversion.rs:extract_node_outer_scope_references"]}
{"id": "C13", "title": "Turning Gemm into a linear layer does not change the result", "statement": "Whenever the importer replaces a Gemm node by a Linear layer, the layer computes the Gemm's ONNX-defined result for all inputs.", "quantifier": "every attribute combination and every input matrix", "why_tests_cant": "attribute values and matrices are unbounded", "anchors": ["crates/onnx-ir/src/phases/node_conversion.rs:convert_gemm_to_linear"]}
{"id": "C14", "title": "Turning MatMul (+Add) into a linear layer keeps every other consumer alive", "statement": "When MatMul, or MatMul followed by Add of a constant, is replaced by one Linear layer, every value name that other nodes or graph outputs read is still produced by some node.", "quantifier": "every node list around the pair and every set of other consumers", "why_tests_cant": "depends on arbitrary surrounding graph", "anchors": ["crates/onnx-ir/src/phases/node_conversion.rs:convert_matmul_to_linear", "crates/onnx-ir/src/phases/node_conversion.rs:is_add_node_with_bias", "crates/onnx-ir/src/phases/node_conversion.rs:convert_and_remove_add_node"]}
{"id": "C15", "title": "Merging shape knowledge never loses or invents information", "statement": "Merging the shape facts of two sources for one tensor keeps every dimension that was known, only adds dimensions known by the other source, is idempotent, reports 'changed' exactly if something changed, and any concrete shape consistent with both sources stays consistent with the result.", "quantifier": "every pair of partially known shapes of any rank", "why_tests_cant": "ranks and dimensions are unbounded", "anchors": ["crates/onnx-ir/src/ir/argument.rs:TensorType::merge_static_shape"]}
{"id": "C16", "title": "Broadcast inference agrees with multidirectional broadcasting", "statement": "For every list of operand shapes that ONNX/NumPy broadcasting accepts, the inferred output rank is the rank of the broadcast result and every output dimension the importer claims to know is the one broadcasting produces.", "quantifier": "any number of operands, any ranks, any known/unknown dimensions, every concrete shape consistent with them", "why_tests_cant": "unbounded ranks, operand counts and dimension values", "anchors": ["crates/onnx-ir/src/processor.rs:compute_broadcast_rank", "crates/onnx-ir/src/processor.rs:compute_broadcast_static_shape", "crates/onnx-ir/src/processor.rs:broadcast_output_type"]}
{"id": "C17", "title": "Type inference always terminates and is stable once converged", "statement": "Type inference ends after at most ten sweeps on every graph (even cyclic ones) and whenever it stops before the tenth sweep every processor re-run on the result changes nothing.", "quantifier": "every graph and every family of inference functions that only assign output types and are stable when run twice", "why_tests_cant": "statement about all graphs and all processors", "anchors": ["crates/onnx-ir/src/phases/type_inference.rs:iterative_type_inference_with_preferences"]}
{"id": "C18", "title": "Reshape inference is sound", "statement": "For every static shape argument accepted by Reshape and every input shape consistent with what is known, the ONNX output shape has the inferred rank and agrees with every inferred dimension; the inferred dimensions with -1 resolved have the input's element count.", "quantifier": "every rank, shape vector (with 0 and -1), allowzero value and concrete input shape", "why_tests_cant": "unbounded vectors", "anchors": ["crates/onnx-ir/src/node/reshape.rs:ReshapeProcessor::infer_types"]}
{"id": "C19", "title": "Transpose inference is sound and no-op detection is exact", "statement": "The inferred dimensions of Transpose are the permuted input dimensions for every permutation, and a Transpose is treated as a no-op only if the permutation is the identity.", "quantifier": "every rank and permutation", "why_tests_cant": "unbounded ranks", "anchors": ["crates/onnx-ir/src/node/transpose.rs:TransposeProcessor::infer_types", "crates/onnx-ir/src/node/transpose.rs:is_noop", "crates/onnx-ir/src/node/transpose.rs:extract_config"]}
{"id": "C20", "title": "Squeeze and Unsqueeze inference are sound and mutually inverse", "statement": "For every input shape and every valid axes list (negative axes included) the rank and dimensions inferred for Squeeze and Unsqueeze are those ONNX prescribes, and squeezing the axes just inserted gives back the original shape.", "quantifier": "every shape, every axes list in any order", "why_tests_cant": "unbounded ranks and axes lists", "anchors": ["crates/onnx-ir/src/node/squeeze.rs:SqueezeProcessor::infer_types", "crates/onnx-ir/src/node/unsqueeze.rs:UnsqueezeProcessor::infer_types"]}
{"id": "C21", "title": "Flatten inference is sound", "statement": "The two inferred dimensions of Flatten are the products of the dimensions before and after the axis, so the element count is preserved for every input shape and axis (negative axes included).", "quantifier": "every shape and axis", "why_tests_cant": "unbounded ranks", "anchors": ["crates/onnx-ir/src/node/flatten.rs:FlattenProcessor::infer_types", "crates/onnx-ir/src/node/flatten.rs:extract_config"]}
{"id": "C22", "title": "Split sizes partition the axis", "statement": "For every dimension size and number of outputs the chunk sizes chosen by the importer are as many as the outputs, sum to the dimension, are all equal except that trailing ones may be smaller, and agree with ONNX; explicit sizes are taken verbatim.", "quantifier": "every dimension, number of outputs and explicit size list", "why_tests_cant": "unbounded sizes; rounding corner cases", "anchors": ["crates/onnx-ir/src/node/split.rs:SplitProcessor::extract_config"]}
{"id": "C23", "title": "Concat inference is sound", "statement": "The inferred rank of Concat is the common rank of its inputs, the axis is normalised as ONNX prescribes, and a Concat of shape vectors has the total length of its inputs.", "quantifier": "any number of inputs of any kind", "why_tests_cant": "unbounded input lists", "anchors": ["crates/onnx-ir/src/node/concat.rs:ConcatProcessor::infer_types", "crates/onnx-ir/src/node/concat.rs:extract_config"]}
{"id": "C24", "title": "Slice, Tile and Pad inference is sound", "statement": "The dimensions the importer claims to know about the output of Slice, Tile or Pad are the dimensions the operator really produces.", "quantifier": "every input shape and every starts/ends/axes/steps, repeats or pads", "why_tests_cant": "unbounded parameters", "anchors": ["crates/onnx-ir/src/node/slice.rs:SliceProcessor::infer_types", "crates/onnx-ir/src/node/tile.rs:TileProcessor::infer_types", "crates/onnx-ir/src/node/pad.rs:PadProcessor::infer_types"]}
{"id": "C25", "title": "Expand inference is sound", "statement": "Rank and known dimensions inferred for Expand are those of the bidirectional broadcast of the input with the requested shape.", "quantifier": "every input shape and requested shape", "why_tests_cant": "unbounded shapes", "anchors": ["crates/onnx-ir/src/node/expand.rs:ExpandProcessor::infer_types", "crates/onnx-ir/src/node/expand.rs:is_noop"]}
{"id": "C26", "title": "Reduction inference is sound", "statement": "For every axes list (negative and unsorted axes included), keepdims value and input shape, the rank and known dimensions inferred for Reduce*, ArgMax, ArgMin and TopK are those ONNX prescribes.", "quantifier": "every shape, axes list and flag", "why_tests_cant": "unbounded ranks and axes lists", "anchors": ["crates/onnx-ir/src/node/reduce.rs:ReduceProcessor::infer_types", "crates/onnx-ir/src/node/argmax.rs:ArgMaxProcessor::infer_types", "crates/onnx-ir/src/node/topk.rs:TopKProcessor::infer_types"]}
{"id": "C27", "title": "MatMul and Gather rank inference is sound", "statement": "The inferred rank of MatMul (vectors, matrices, batches) and of Gather is the rank of the ONNX result for every operand rank.", "quantifier": "every pair of operand shapes", "why_tests_cant": "unbounded ranks", "anchors": ["crates/onnx-ir/src/node/matmul.rs:MatMulProcessor::infer_types", "crates/onnx-ir/src/node/gather.rs:GatherProcessor::infer_types"]}
{"id": "C28", "title": "Convolution and pooling spatial size inference is sound", "statement": "Every spatial dimension inferred for convolution is the number of positions at which the dilated kernel fits into the padded input at the given stride.", "quantifier": "every input size, kernel, stride, dilation and padding", "why_tests_cant": "unbounded sizes", "anchors": ["crates/onnx-ir/src/node/conv2d.rs:Conv2dProcessor::infer_types", "crates/onnx-ir/src/node/padding.rs:padding_config_2d"]}
{"id": "C29", "title": "No-op removal preserves the meaning of the graph", "statement": "Removing nodes recognised as no-ops, and rewiring their consumers and the graph outputs, leaves the value of every graph output unchanged for every operator semantics in which the removed nodes copy their input, whatever the chains, fan-out or order of no-ops; no surviving node reads a removed value.", "quantifier": "every graph, every set of no-op nodes, every operator semantics", "why_tests_cant": "unbounded chains and graphs", "anchors": ["crates/onnx-ir/src/phases/post_processing.rs:plan_noop_elimination", "crates/onnx-ir/src/phases/post_processing.rs:apply_noop_elimination", "crates/onnx-ir/src/phases/post_processing.rs:rewire_argument"]}
{"id": "C30", "title": "Dead node elimination is sound, complete and idempotent", "statement": "Dead node elimination terminates, keeps every node that a graph output transitively depends on, removes every other node, preserves the value of all graph outputs for every operator semantics and changes nothing when run twice.", "quantifier": "every node list (any order, cycles, duplicate names) and output list", "why_tests_cant": "unbounded graphs", "anchors": ["crates/onnx-ir/src/simplify/dead_nodes.rs:eliminate_dead_nodes"]}
{"id": "C31", "title": "Removing unused constants never removes a used one", "statement": "After finalisation every value read by a surviving node or graph output is still produced, all non-constant nodes survive in their original order, and no constant without readers survives.", "quantifier": "every graph", "why_tests_cant": "unbounded graphs", "anchors": ["crates/onnx-ir/src/phases/finalization.rs:remove_unreferenced_constants", "crates/onnx-ir/src/ir/graph.rs:eliminate_dead_constants", "crates/onnx-ir/src/ir/graph.rs:collect_constant_refs"]}
{"id": "C32", "title": "Idempotent-operator collapsing preserves the result", "statement": "Collapsing op(op(x)) to op(x) leaves the value of every graph output unchanged for every operator semantics in which the collapsed operators are idempotent, for chains of any length; the collapsed operators Relu, Ceil, Floor, Round, Sign and Abs are idempotent.", "quantifier": "every graph and operator semantics", "why_tests_cant": "unbounded chains", "anchors": ["crates/onnx-ir/src/simplify/idempotent.rs:eliminate_idempotent_ops"]}
{"id": "C33", "title": "Identity-element removal preserves the result", "statement": "Removing x+0, x-0, x*1, x/1 and x^1 (and 0+x, 1*x) leaves the value of every graph output unchanged.", "quantifier": "every graph, position of the constant and operand shape", "why_tests_cant": "depends on operand shapes and surrounding graph", "anchors": ["crates/onnx-ir/src/simplify/identity_element.rs:eliminate_identity_elements", "crates/onnx-ir/src/simplify/identity_element.rs:is_constant_value"]}
{"id": "C34", "title": "Common subexpression elimination preserves the result", "statement": "Merging nodes considered identical leaves the value of every graph output unchanged, and nodes are merged only if operator, attributes and inputs are equal.", "quantifier": "every graph and every deterministic operator semantics", "why_tests_cant": "unbounded graphs; key collisions exist only for particular strings", "anchors": ["crates/onnx-ir/src/simplify/redundant_nodes.rs:eliminate_redundant_nodes", "crates/onnx-ir/src/simplify/redundant_nodes.rs:cse_key"]}
{"id": "C35", "title": "Shape-permutation patterns are only rewritten to Transpose when equal", "statement": "When the importer replaces a Reshape whose target shape permutes the input's own dimensions by a Transpose, both compute the same tensor.", "quantifier": "every shape, permutation and tensor content", "why_tests_cant": "tensor contents are unbounded", "anchors": ["crates/onnx-ir/src/simplify/permute_reshape.rs:simplify_permute_reshape", "crates/onnx-ir/src/simplify/permute_reshape.rs:extract_permute_pattern"]}
{"id": "C36", "title": "Folding shape computations yields the runtime value", "statement": "Whenever Shape->Gather or Shape->Slice is replaced by a constant, the constant is what evaluating the two operators on any input consistent with the known shape yields.", "quantifier": "every shape, index, start, end, step", "why_tests_cant": "unbounded parameters with negative and out of range values", "anchors": ["crates/onnx-ir/src/simplify/constant_shape.rs:simplify_constant_shape", "crates/onnx-ir/src/simplify/constant_shape.rs:extract_constant_shape_dim", "crates/onnx-ir/src/simplify/constant_shape.rs:extract_constant_shape_slice", "crates/onnx-ir/src/simplify/constant_shape.rs:extract_full_static_shape"]}
{"id": "C37", "title": "Integer constant folding equals runtime integer arithmetic", "statement": "Folding Add, Sub, Mul, Div, Neg of integer constants yields what ONNX element-wise arithmetic yields, or leaves the node alone; it neither panics nor silently wraps.", "quantifier": "every pair of integer vectors", "why_tests_cant": "2^64 values and unbounded vector lengths", "anchors": ["crates/onnx-ir/src/simplify/constant_fold.rs:eval_binary", "crates/onnx-ir/src/simplify/constant_fold.rs:apply_binary_i64", "crates/onnx-ir/src/simplify/constant_fold.rs:eval_neg"]}
{"id": "C38", "title": "Float constant folding equals single precision arithmetic", "statement": "Folding Add, Sub, Mul, Div and Sqrt of float32 constants through float64 yields the correctly rounded float32 result, i.e. the value the operator computes directly in float32.", "quantifier": "every pair of float32 values", "why_tests_cant": "2^64 pairs; double rounding only differs at rare ties", "anchors": ["crates/onnx-ir/src/simplify/constant_fold.rs:apply_binary_f64", "crates/onnx-ir/src/simplify/constant_fold.rs:eval_sqrt"]}
{"id": "C39", "title": "Attention fusion preserves the computed function", "statement": "Replacing a MatMul/scale/mask/Softmax/MatMul chain by one Attention node leaves the mathematical result of the chain unchanged.", "quantifier": "every chain accepted by the matcher, every scale value and tensor content", "why_tests_cant": "real-valued, unbounded tensors", "anchors": ["crates/onnx-ir/src/simplify/coalesce_attention.rs:try_match_sdpa", "crates/onnx-ir/src/simplify/coalesce_attention.rs:build_attention_node", "crates/onnx-ir/src/simplify/coalesce_attention.rs:try_prescaled_qk_pattern"]}
{"id": "C40", "title": "The simplifier terminates and never grows the graph", "statement": "The optimisation loop stops after at most ten rounds for every graph, and none of its rounds increases the number of nodes.", "quantifier": "every graph, every pass behaviour", "why_tests_cant": "statement about all graphs", "anchors": ["crates/onnx-ir/src/simplify/mod.rs:simplify_graph"]}
{"id": "C41", "title": "Generated forward code never uses a tensor after moving it", "statement": "In the generated forward function every variable is cloned at each use that is followed by another use and moved only at the last one, so the generated Rust passes the borrow checker and no value is consumed twice.", "quantifier": "every graph, every multiplicity of uses of every value", "why_tests_cant": "quantifies over all graphs and use patterns", "anchors": ["crates/burn-onnx/src/burn/scope.rs:Scope::tensor_use_owned", "crates/burn-onnx/src/burn/scope.rs:Scope::tensor_register_variable", "crates/burn-onnx/src/burn/scope.rs:Scope::tensor_register_future_use", "crates/burn-onnx/src/burn/graph.rs:build_scope"]}
{"id": "C42", "title": "Generated struct fields are pairwise distinct", "statement": "The generated model struct has no two fields with the same name, and every field reference in the forward code denotes the parameter of its own node, also for nodes in nested subgraphs.", "quantifier": "every graph and nesting of subgraphs", "why_tests_cant": "collisions only occur for particular name combinations", "anchors": ["crates/burn-onnx/src/burn/graph.rs:collect_all_fields"]}
{"id": "C43", "title": "Generated files of different models do not overwrite each other", "statement": "Running code generation on several models writes one source and one weights file per model; no model's output is overwritten by another's.", "quantifier": "every list of input paths", "why_tests_cant": "depends on the whole list of paths", "anchors": ["crates/burn-onnx/src/model_gen.rs:ModelGen::run"]}
{"id": "C44", "title": "Operator opset requirements are enforced exactly", "statement": "A node is accepted by specification checking if and only if the opset is at least the operator's minimum and its input and output counts lie in the declared range.", "quantifier": "every specification, opset and argument count", "why_tests_cant": "combinations are unbounded", "anchors": ["crates/onnx-ir/src/processor.rs:validate_node_spec", "crates/onnx-ir/src/processor.rs:validate_input_spec", "crates/onnx-ir/src/processor.rs:validate_output_spec"]}
{"id": "C45", "title": "Tensor payload decoding preserves element count, order and value", "statement": "Reading a tensor from raw little-endian bytes or from typed fields yields, in order, the integers the model stores, and a payload whose size disagrees with the shape is rejected rather than truncated or padded.", "quantifier": "every payload, shape and integer element type", "why_tests_cant": "byte payloads are unbounded", "anchors": ["crates/onnx-ir/src/proto_conversion.rs:argument_from_initializer", "crates/onnx-ir/src/proto_conversion.rs:tensor_data_ref_from_proto"]}
{"id": "C46", "title": "Padding configuration is faithful", "statement": "ONNX pads [b1..bn,e1..en] are turned into per-axis (begin,end) pairs in order, all-zero padding and only that is dropped, and negative convolution padding is refused.", "quantifier": "every pads vector", "why_tests_cant": "unbounded vectors", "anchors": ["crates/onnx-ir/src/node/pad.rs:extract_config", "crates/onnx-ir/src/node/padding.rs:padding_config_1d", "crates/onnx-ir/src/node/padding.rs:padding_config_2d", "crates/onnx-ir/src/node/padding.rs:padding_config_3d"]}
{"id": "C47", "title": "Shape operator inference is sound", "statement": "The length inferred for the output of Shape is the number of dimensions ONNX returns, for every start and end attribute (negative ones included) and every input rank.", "quantifier": "every input type, start and end", "why_tests_cant": "unbounded ranks and attribute values", "anchors": ["crates/onnx-ir/src/node/shape.rs:ShapeProcessor::infer_types"]}
{"id": "C48", "title": "The type recorded for a linear layer holds", "statement": "The element type, rank and static dimensions recorded for the output of a linear layer are those of every result the layer computes.", "quantifier": "every weight, layout, input shape and input content", "why_tests_cant": "unbounded shapes and tensors", "anchors": ["crates/onnx-ir/src/node/linear.rs:LinearProcessor::infer_types", "crates/burn-onnx/src/burn/node/linear.rs:field"]}
{"id": "C49", "title": "Optimising a graph keeps its outputs", "statement": "Whatever the optimiser does in any number of rounds of all its passes, the optimised graph can be run on every input the graph could be run on, has the same output names and gives the same values for them.", "quantifier": "every graph, constant data, input values and number of rounds", "why_tests_cant": "all compositions of rewrites on unbounded graphs", "anchors": ["crates/onnx-ir/src/simplify/mod.rs:simplify_graph"]}
{"id": "C50", "title": "The code emitted for two-operand element-wise operators computes the ONNX result", "statement": "For arithmetic, comparison, logic, bitwise, shift, Max and Min nodes, whatever mixture of device tensors, device scalars, native scalars and shape arrays the operands are held in, the emitted expression compiles, gives the broadcast ONNX result whenever ONNX defines one, and that result has the representation, element type and rank recorded for the output.", "quantifier": "every operator, element type, operand representation, shape, number of dimensions and content", "why_tests_cant": "operand representations, broadcasting shapes and contents combine without bound", "anchors": ["crates/burn-onnx/src/burn/node/add.rs:forward", "crates/burn-onnx/src/burn/node/sub.rs:forward", "crates/burn-onnx/src/burn/node/mul.rs:forward", "crates/burn-onnx/src/burn/node/div.rs:forward", "crates/burn-onnx/src/burn/node/modulo.rs:forward", "crates/burn-onnx/src/burn/node/equal.rs:forward", "crates/burn-onnx/src/burn/node/greater.rs:forward", "crates/burn-onnx/src/burn/node/greater_equal.rs:forward", "crates/burn-onnx/src/burn/node/lower.rs:forward", "crates/burn-onnx/src/burn/node/lower_equal.rs:forward", "crates/burn-onnx/src/burn/node/bool_and.rs:forward", "crates/burn-onnx/src/burn/node/bool_or.rs:forward", "crates/burn-onnx/src/burn/node/bool_xor.rs:forward", "crates/burn-onnx/src/burn/node/max.rs:forward", "crates/burn-onnx/src/burn/node/min.rs:forward", "crates/burn-onnx/src/burn/node/bitwiseand.rs:forward", "crates/burn-onnx/src/burn/node/bitwiseor.rs:forward", "crates/burn-onnx/src/burn/node/bitwisexor.rs:forward", "crates/burn-onnx/src/burn/node/bitshift.rs:forward", "crates/onnx-ir/src/processor.rs:broadcast_output_type"]}
{"id": "C51", "title": "The code emitted for a node that computes with shapes is right", "statement": "For Shape, Gather, Concat, Slice, Squeeze, Unsqueeze, Where, Cast, Reshape and the two-operand element-wise operators on shape arrays and scalars: when the operands hold the values of an ONNX execution, the statement emitted for the node runs, without a panic, and its result has the representation recorded for the output and stands for the ONNX result.", "quantifier": "every node of these types, attributes, constants, array length and content", "why_tests_cant": "array lengths, bounds and contents are unbounded", "anchors": ["crates/burn-onnx/src/burn/node/shape.rs:forward", "crates/burn-onnx/src/burn/node/gather.rs:forward", "crates/burn-onnx/src/burn/node/concat.rs:forward", "crates/burn-onnx/src/burn/node/slice.rs:forward", "crates/burn-onnx/src/burn/node/squeeze.rs:forward", "crates/burn-onnx/src/burn/node/unsqueeze.rs:forward", "crates/burn-onnx/src/burn/node/where_op.rs:forward", "crates/burn-onnx/src/burn/node/cast.rs:forward", "crates/burn-onnx/src/burn/node/reshape.rs:forward", "crates/onnx-ir/src/node/shape.rs:infer_types", "crates/onnx-ir/src/node/gather.rs:infer_types", "crates/onnx-ir/src/node/concat.rs:infer_types", "crates/onnx-ir/src/node/slice.rs:infer_types", "crates/onnx-ir/src/node/squeeze.rs:infer_types", "crates/onnx-ir/src/node/unsqueeze.rs:infer_types", "crates/onnx-ir/src/node/where_op.rs:infer_types", "crates/onnx-ir/src/node/cast.rs:infer_types", "crates/onnx-ir/src/node/reshape.rs:infer_types"]}
{"id": "C52", "title": "A generated program computes every value of its graph", "statement": "For a graph made of these operators, in order: if the graph runs in ONNX on some inputs, code is emitted for every node, the program runs to its end on the same inputs, and every variable ends up holding the value ONNX gives the name it was made from.", "quantifier": "every straight-line graph, input values and constants", "why_tests_cant": "graphs of any length and any sharing of values between nodes", "anchors": ["crates/burn-onnx/src/burn/graph.rs:codegen_forward", "crates/burn-onnx/src/burn/node_traits.rs:NodeCodegen::forward"]}
{"id": "C53", "title": "The code emitted for GatherND computes the ONNX result", "statement": "When inference accepts a GatherND node, the emitted code returns, for every data and index tensor ONNX defines a result for, the slices ONNX gathers: batch dimensions matched, negative indices counted from the end, in the recorded rank and representation.", "quantifier": "every data and index tensor, rank, batch dimension count and content (up to 2^31 elements)", "why_tests_cant": "ranks, tuple lengths and contents are unbounded", "anchors": ["crates/burn-onnx/src/burn/node/gathernd.rs:forward", "crates/onnx-ir/src/node/gathernd.rs:infer_types"]}
{"id": "C54", "title": "The code emitted for ScatterND computes the ONNX result", "statement": "For every reduction, the emitted loop returns the data with each slice named by the indices updated in order, also when several tuples name the same slice and when indices are negative; nothing else changes.", "quantifier": "every data, index and update tensor, rank, reduction and content", "why_tests_cant": "ranks, the number of updates and their collisions are unbounded", "anchors": ["crates/burn-onnx/src/burn/node/scatter_nd.rs:forward", "crates/onnx-ir/src/node/scatter_nd.rs:infer_types", "crates/onnx-ir/src/node/scatter_nd.rs:extract_config"]}
{"id": "C55", "title": "The code emitted for operators that move, select and join tensor elements is right", "statement": "For Transpose, Flatten, Reshape, Squeeze, Unsqueeze, Concat, Slice, Gather, Where, Expand, Tile, Split, DepthToSpace, SpaceToDepth, CumSum, GatherND and ScatterND on device tensors: when inference accepts the node and its operands hold the values of an ONNX execution, the emitted statement runs without a panic, each result has the representation, element type and rank recorded for its output, and it is the ONNX result.", "quantifier": "every node of these types, attributes, constants, shape, rank and content", "why_tests_cant": "ranks, shapes, axes and contents are unbounded", "anchors": ["crates/burn-onnx/src/burn/node/transpose.rs:forward", "crates/burn-onnx/src/burn/node/flatten.rs:forward", "crates/burn-onnx/src/burn/node/reshape.rs:forward", "crates/burn-onnx/src/burn/node/squeeze.rs:forward", "crates/burn-onnx/src/burn/node/unsqueeze.rs:forward", "crates/burn-onnx/src/burn/node/concat.rs:forward", "crates/burn-onnx/src/burn/node/slice.rs:forward", "crates/burn-onnx/src/burn/node/gather.rs:forward", "crates/burn-onnx/src/burn/node/where_op.rs:forward", "crates/burn-onnx/src/burn/node/expand.rs:forward", "crates/burn-onnx/src/burn/node/tile.rs:forward", "crates/burn-onnx/src/burn/node/split.rs:forward", "crates/burn-onnx/src/burn/node/depth_to_space.rs:forward", "crates/burn-onnx/src/burn/node/space_to_depth.rs:forward", "crates/burn-onnx/src/burn/node/cumsum.rs:forward", "crates/onnx-ir/src/node/transpose.rs:infer_types", "crates/onnx-ir/src/node/flatten.rs:infer_types", "crates/onnx-ir/src/node/reshape.rs:infer_types", "crates/onnx-ir/src/node/squeeze.rs:infer_types", "crates/onnx-ir/src/node/unsqueeze.rs:infer_types", "crates/onnx-ir/src/node/concat.rs:infer_types", "crates/onnx-ir/src/node/slice.rs:infer_types", "crates/onnx-ir/src/node/gather.rs:infer_types", "crates/onnx-ir/src/node/where_op.rs:infer_types", "crates/onnx-ir/src/node/expand.rs:infer_types", "crates/onnx-ir/src/node/tile.rs:infer_types", "crates/onnx-ir/src/node/split.rs:infer_types", "crates/onnx-ir/src/node/depth_to_space.rs:infer_types", "crates/onnx-ir/src/node/space_to_depth.rs:infer_types", "crates/onnx-ir/src/node/cumsum.rs:infer_types"]}
{"id": "C56", "title": "A generated program on tensors, shapes and scalars computes every value of its graph", "statement": "For a graph made of the operators of C51 and C55, in order, with any number of outputs per node: if the graph runs in ONNX on some inputs, code is emitted for every node, the program runs to its end on the same inputs, and every variable ends up holding the value ONNX gives the name it was made from.", "quantifier": "every straight-line graph, input values and constants", "why_tests_cant": "graphs of any length and any sharing of values between nodes", "anchors": ["crates/burn-onnx/src/burn/graph.rs:codegen_forward", "crates/burn-onnx/src/burn/node_traits.rs:NodeCodegen::forward"]}
{"id": "C57", "title": "Generated programs with If, Loop and Scan compute every value of their graph", "statement": "For a graph whose nodes may be If, Loop and Scan nodes, nested to any depth: if the graph runs in ONNX on some inputs (the taken branch, every iteration, the final carried values and the stacked scan outputs), the generated program comes to its end on the same inputs, and every variable ends up holding the value ONNX gives the name it was made from.", "quantifier": "every graph, nesting depth, captured value, trip count, number of iterations, scan axis and direction, and input values", "why_tests_cant": "nesting depth, iteration counts and the values carried from one iteration to the next are unbounded", "anchors": ["crates/burn-onnx/src/burn/node/if_node.rs:forward", "crates/burn-onnx/src/burn/node/loop_node.rs:forward", "crates/burn-onnx/src/burn/node/scan_node.rs:forward", "crates/burn-onnx/src/burn/node/constant.rs:forward", "crates/burn-onnx/src/burn/node/subgraph_helper.rs:generate_outer_scope_bindings", "crates/onnx-ir/src/node/if_node.rs:infer_types", "crates/onnx-ir/src/node/loop_node.rs:infer_types", "crates/onnx-ir/src/node/scan_node.rs:infer_types"]}
{"id": "C58", "title": "The code emitted for reductions of integers and booleans computes the ONNX result", "statement": "For ReduceSum, ReduceProd, ReduceMax, ReduceMin, ReduceSumSquare and ReduceL1: whatever the axes named (in any order, counted from either end, or none), and with the reduced dimensions kept or dropped, the emitted expression, which reduces one dimension after the other, runs without a panic and its result is the ONNX one, in the recorded rank and representation.", "quantifier": "every input shape, rank and content, every list of axes, both values of keepdims", "why_tests_cant": "ranks, sizes, lists of axes and contents are unbounded", "anchors": ["crates/burn-onnx/src/burn/node/reduce.rs:forward", "crates/burn-onnx/src/burn/node/reduce.rs:forward_reduce", "crates/onnx-ir/src/node/reduce.rs:infer_types", "crates/onnx-ir/src/node/reduce.rs:extract_config"]}
{"id": "C59", "title": "The code emitted for reductions of floating-point tensors computes the ONNX result", "statement": "For ReduceSum, ReduceProd, ReduceMax, ReduceMin, ReduceMean, ReduceL1, ReduceL2, ReduceSumSquare, ReduceLogSum and ReduceLogSumExp on real numbers: whatever the axes named, and with the reduced dimensions kept or dropped, the emitted code runs without a panic and its result is the number ONNX prescribes, in the recorded rank and representation; in particular a mean of means is the mean, and ReduceLogSumExp, computed after subtracting the maxima, is the logarithm of the sum of the exponentials.", "quantifier": "every input shape, rank and content, every list of axes, both values of keepdims", "why_tests_cant": "ranks, sizes, lists of axes and real contents are unbounded", "anchors": ["crates/burn-onnx/src/burn/node/reduce.rs:forward", "crates/burn-onnx/src/burn/node/reduce.rs:forward_reduce", "crates/onnx-ir/src/node/reduce.rs:infer_types", "crates/onnx-ir/src/node/reduce.rs:extract_config"]}
{"id": "C60", "title": "The code emitted for matrix products computes the ONNX result", "statement": "For MatMul (matrices, batches with broadcast batch dimensions, a vector on either side), MatMulInteger (with zero points for a whole operand or for each column) and Gemm (transposed operands, factors alpha and beta, a broadcast third input): when inference accepts the node and its operands hold the values of an ONNX execution, code is emitted, it runs without a panic, and its result is the ONNX one, of the recorded rank.", "quantifier": "every rank, shape and content of the operands, attributes, zero points and element type with any order of summation", "why_tests_cant": "ranks, batch shapes and contents are unbounded", "anchors": ["crates/burn-onnx/src/burn/node/matmul.rs:forward", "crates/burn-onnx/src/burn/node/matmul_integer.rs:forward", "crates/burn-onnx/src/burn/node/gemm.rs:forward", "crates/onnx-ir/src/node/matmul.rs:infer_types", "crates/onnx-ir/src/node/matmulinteger.rs:infer_types", "crates/onnx-ir/src/node/gemm.rs:infer_types", "crates/onnx-ir/src/node/gemm.rs:extract_config"]}
{"id": "C61", "title": "The code emitted for ArgMax, ArgMin, Hardmax, Softmax and LogSoftmax computes the ONNX result", "statement": "For ArgMax and ArgMin, whatever the axis, kept or dropped, and whatever representation the result has (tensor, scalar on the device, native integer), each line along the axis is replaced by the position of its first greatest or least element; for Hardmax by a one at that place and zeros elsewhere; for Softmax and LogSoftmax by exponentials over their sum and their logarithms. The emitted code runs without a panic, its result has the recorded rank, and the other variables of the program keep their values.", "quantifier": "every rank, shape and content, axis counted from either end, keepdims and operator version", "why_tests_cant": "ranks, sizes and contents are unbounded, and ties may occur anywhere", "anchors": ["crates/burn-onnx/src/burn/node/argmax.rs:forward", "crates/burn-onnx/src/burn/node/argmin.rs:forward", "crates/burn-onnx/src/burn/node/hardmax.rs:forward", "crates/burn-onnx/src/burn/node/softmax.rs:forward", "crates/burn-onnx/src/burn/node/log_softmax.rs:forward", "crates/onnx-ir/src/node/argmax.rs:extract_config", "crates/onnx-ir/src/node/argmin.rs:extract_config", "crates/onnx-ir/src/node/hardmax.rs:extract_config", "crates/onnx-ir/src/node/softmax.rs:extract_config", "crates/onnx-ir/src/node/log_softmax.rs:extract_config"]}
{"id": "C62", "title": "The code emitted for GatherElements and ScatterElements computes the ONNX result", "statement": "GatherElements takes, at every position of the indices, the element of the data whose coordinate along the axis is the index there; ScatterElements combines every element of the data, in the order of the updates, with the updates whose index names it (replacing, adding, multiplying, taking the greater or the lesser). Whatever the axis, the emitted code, native or a loop over flat offsets, runs without a panic, its result is the ONNX one, and it has the recorded rank; a reduction of booleans is refused.", "quantifier": "every rank, shape and content of data, indices and updates, axis counted from either end, reduction and element type", "why_tests_cant": "ranks, sizes, indices and coincidences between them are unbounded", "anchors": ["crates/burn-onnx/src/burn/node/gather_elements.rs:forward", "crates/burn-onnx/src/burn/node/scatter_elements.rs:forward", "crates/onnx-ir/src/node/gather_elements.rs:infer_types", "crates/onnx-ir/src/node/gather_elements.rs:extract_config", "crates/onnx-ir/src/node/scatter_elements.rs:infer_types", "crates/onnx-ir/src/node/scatter_elements.rs:extract_config"]}
{"id": "C63", "title": "The code emitted for NonZero, Trilu, EyeLike and ConstantOfShape computes the ONNX result", "statement": "NonZero lists the coordinates of the non-zero elements, one column each, in row-major order; Trilu keeps the elements on and above (or on and below) the k-th diagonal of every matrix and puts zero elsewhere; EyeLike has ones on the k-th diagonal and zeros elsewhere in the data type asked for; ConstantOfShape gives a tensor of the shape asked for with one value everywhere. The emitted code runs without a panic, computes that, and its result has the recorded type: rank, data type, scalar or shape.", "quantifier": "every rank, shape and content, element type, diagonal, data type attribute, shape (constant or computed at run time) and fill value", "why_tests_cant": "ranks, sizes, contents, diagonals and requested shapes are unbounded", "anchors": ["crates/burn-onnx/src/burn/node/nonzero.rs:forward", "crates/burn-onnx/src/burn/node/trilu.rs:forward", "crates/burn-onnx/src/burn/node/eye_like.rs:forward", "crates/burn-onnx/src/burn/node/constant_of_shape.rs:forward", "crates/onnx-ir/src/node/nonzero.rs:infer_types", "crates/onnx-ir/src/node/trilu.rs:infer_types", "crates/onnx-ir/src/node/eye_like.rs:infer_types", "crates/onnx-ir/src/node/constant_of_shape.rs:infer_types"]}
{"id": "C64", "title": "The code emitted for RNN, GRU and LSTM computes the ONNX result", "statement": "For a recurrent node with constant weights, the stored gate parameters, the configured module and the statement emitted around it give: in Y, for every element of every sequence and every direction, the state after reading that element, and in Y_h (and Y_c) the state at the end, each computed from the ONNX equations with the ONNX order of the gates, biases, initial states, activations, coupled gates and place of the reset gate. Forward, backward and both directions are covered; the results have the recorded ranks; nodes with sequence lengths or peepholes are refused.", "quantifier": "every sequence length, batch, input and hidden size, content of weights and input, direction, activation, bias and initial state", "why_tests_cant": "lengths, sizes and contents are unbounded and the state is carried through every step", "anchors": ["crates/burn-onnx/src/burn/node/rnn.rs:forward", "crates/burn-onnx/src/burn/node/rnn.rs:field", "crates/burn-onnx/src/burn/node/rnn.rs:collect_snapshots", "crates/burn-onnx/src/burn/node/gru.rs:forward", "crates/burn-onnx/src/burn/node/gru.rs:field", "crates/burn-onnx/src/burn/node/gru.rs:collect_snapshots", "crates/burn-onnx/src/burn/node/lstm.rs:forward", "crates/burn-onnx/src/burn/node/lstm.rs:field", "crates/burn-onnx/src/burn/node/lstm.rs:collect_snapshots", "crates/onnx-ir/src/node/rnn.rs:infer_types", "crates/onnx-ir/src/node/rnn.rs:extract_config", "crates/onnx-ir/src/node/gru.rs:infer_types", "crates/onnx-ir/src/node/gru.rs:extract_config", "crates/onnx-ir/src/node/lstm.rs:infer_types", "crates/onnx-ir/src/node/lstm.rs:extract_config"]}
{"id": "C65", "title": "The code emitted for convolutions and pooling computes the ONNX result", "statement": "For Conv and ConvTranspose with constant weights, MaxPool, AveragePool and GlobalAveragePool, with any number of channels and groups, strides, dilations, a bias or none, and padding given explicitly, as SAME_UPPER, SAME_LOWER or VALID: when the importer and the generator accept the node, the configured module with the stored parameters gives a tensor of the ONNX shape whose every element is the ONNX sum of products, maximum or mean over the elements of the window that lie inside the input. What the generator cannot express (uneven padding with three axes, SAME padding of an unknown shape, uneven pads or auto_pad of a transposed convolution) is refused, not computed wrongly.", "quantifier": "every batch, channel count, group count, spatial size, kernel, stride, dilation, padding and content of input and weights", "why_tests_cant": "sizes, windows, paddings and contents are unbounded", "anchors": ["crates/burn-onnx/src/burn/node/conv1d.rs:forward", "crates/burn-onnx/src/burn/node/conv1d.rs:field", "crates/burn-onnx/src/burn/node/conv2d.rs:forward", "crates/burn-onnx/src/burn/node/conv2d.rs:field", "crates/burn-onnx/src/burn/node/conv3d.rs:forward", "crates/burn-onnx/src/burn/node/conv3d.rs:field", "crates/burn-onnx/src/burn/node/conv_transpose_1d.rs:forward", "crates/burn-onnx/src/burn/node/conv_transpose_1d.rs:field", "crates/burn-onnx/src/burn/node/conv_transpose_2d.rs:forward", "crates/burn-onnx/src/burn/node/conv_transpose_2d.rs:field", "crates/burn-onnx/src/burn/node/conv_transpose_3d.rs:forward", "crates/burn-onnx/src/burn/node/conv_transpose_3d.rs:field", "crates/burn-onnx/src/burn/node/max_pool1d.rs:forward", "crates/burn-onnx/src/burn/node/max_pool1d.rs:field", "crates/burn-onnx/src/burn/node/max_pool2d.rs:forward", "crates/burn-onnx/src/burn/node/max_pool2d.rs:field", "crates/burn-onnx/src/burn/node/avg_pool1d.rs:forward", "crates/burn-onnx/src/burn/node/avg_pool1d.rs:field", "crates/burn-onnx/src/burn/node/avg_pool2d.rs:forward", "crates/burn-onnx/src/burn/node/avg_pool2d.rs:field", "crates/burn-onnx/src/burn/node/global_avg_pool.rs:forward", "crates/burn-onnx/src/burn/node/global_avg_pool.rs:field", "crates/burn-onnx/src/burn/codegen.rs:compute_auto_pad_1dim", "crates/onnx-ir/src/node/conv1d.rs:extract_config", "crates/onnx-ir/src/node/conv2d.rs:extract_config", "crates/onnx-ir/src/node/conv3d.rs:extract_config", "crates/onnx-ir/src/node/conv_transpose1d.rs:extract_config", "crates/onnx-ir/src/node/conv_transpose2d.rs:extract_config", "crates/onnx-ir/src/node/conv_transpose3d.rs:extract_config", "crates/onnx-ir/src/node/max_pool1d.rs:extract_config", "crates/onnx-ir/src/node/max_pool2d.rs:extract_config", "crates/onnx-ir/src/node/avg_pool1d.rs:extract_config", "crates/onnx-ir/src/node/avg_pool2d.rs:extract_config"]}
{"id": "C66", "title": "The code emitted for batch, layer, group and instance normalisation computes the ONNX result", "statement": "For BatchNormalization (parameters constant or computed by the graph), LayerNormalization, GroupNormalization and InstanceNormalization, every element of the result is the element of the input less the mean, divided by the square root of variance plus epsilon, times the scale plus the bias, where mean and variance are the given ones of the channel, or those of the last axis, of the group of channels, or of the channel, of that batch element; the inferred type fits the result; other axes of LayerNormalization, scales that are not constant and groups that do not divide the channels are refused.", "quantifier": "every batch, channel count, group count, number and size of further axes, epsilon and content of input and parameters", "why_tests_cant": "sizes, ranks and contents are unbounded", "anchors": ["crates/burn-onnx/src/burn/node/batch_norm.rs:forward", "crates/burn-onnx/src/burn/node/batch_norm.rs:field", "crates/burn-onnx/src/burn/node/batch_norm.rs:collect_snapshots", "crates/burn-onnx/src/burn/node/layer_norm.rs:forward", "crates/burn-onnx/src/burn/node/layer_norm.rs:field", "crates/burn-onnx/src/burn/node/layer_norm.rs:collect_snapshots", "crates/burn-onnx/src/burn/node/group_norm.rs:forward", "crates/burn-onnx/src/burn/node/group_norm.rs:field", "crates/burn-onnx/src/burn/node/group_norm.rs:collect_snapshots", "crates/burn-onnx/src/burn/node/instance_norm.rs:forward", "crates/burn-onnx/src/burn/node/instance_norm.rs:field", "crates/burn-onnx/src/burn/node/instance_norm.rs:collect_snapshots", "crates/onnx-ir/src/node/batch_norm.rs:infer_types", "crates/onnx-ir/src/node/batch_norm.rs:extract_config", "crates/onnx-ir/src/node/layer_norm.rs:infer_types", "crates/onnx-ir/src/node/layer_norm.rs:extract_config", "crates/onnx-ir/src/node/group_norm.rs:infer_types", "crates/onnx-ir/src/node/group_norm.rs:extract_config", "crates/onnx-ir/src/node/instance_norm.rs:infer_types", "crates/onnx-ir/src/node/instance_norm.rs:extract_config"]}
{"id": "C67", "title": "The code emitted for element-wise operators with one input computes the ONNX result", "statement": "For each of the 38 arithmetic, trigonometric, rounding and activation operators with one input, for Clip, PRelu, IsInf and IsNaN, the type of the result is that of the input (of booleans for IsInf and IsNaN), and each element of the result is the value ONNX prescribes for the element at its place, with the attributes of the node or their ONNX defaults, whether the input is a tensor or a number of the host; what cannot be expressed is refused.", "quantifier": "every rank, shape and content of the input, every value of the attributes, bounds and slopes", "why_tests_cant": "the contents are unbounded, and ties, zeros, infinities and attribute values may occur in any combination", "anchors": ["crates/burn-onnx/src/burn/node/abs.rs:forward", "crates/burn-onnx/src/burn/node/acos.rs:forward", "crates/burn-onnx/src/burn/node/acosh.rs:forward", "crates/burn-onnx/src/burn/node/asin.rs:forward", "crates/burn-onnx/src/burn/node/asinh.rs:forward", "crates/burn-onnx/src/burn/node/atan.rs:forward", "crates/burn-onnx/src/burn/node/atanh.rs:forward", "crates/burn-onnx/src/burn/node/ceil.rs:forward", "crates/burn-onnx/src/burn/node/celu.rs:forward", "crates/burn-onnx/src/burn/node/clip.rs:forward", "crates/burn-onnx/src/burn/node/cos.rs:forward", "crates/burn-onnx/src/burn/node/cosh.rs:forward", "crates/burn-onnx/src/burn/node/elu.rs:forward", "crates/burn-onnx/src/burn/node/erf.rs:forward", "crates/burn-onnx/src/burn/node/exp.rs:forward", "crates/burn-onnx/src/burn/node/floor.rs:forward", "crates/burn-onnx/src/burn/node/gelu.rs:forward", "crates/burn-onnx/src/burn/node/hard_sigmoid.rs:forward", "crates/burn-onnx/src/burn/node/hard_swish.rs:forward", "crates/burn-onnx/src/burn/node/identity.rs:forward", "crates/burn-onnx/src/burn/node/is_inf.rs:forward", "crates/burn-onnx/src/burn/node/is_nan.rs:forward", "crates/burn-onnx/src/burn/node/leaky_relu.rs:forward", "crates/burn-onnx/src/burn/node/log.rs:forward", "crates/burn-onnx/src/burn/node/mish.rs:forward", "crates/burn-onnx/src/burn/node/neg.rs:forward", "crates/burn-onnx/src/burn/node/prelu.rs:forward", "crates/burn-onnx/src/burn/node/reciprocal.rs:forward", "crates/burn-onnx/src/burn/node/relu.rs:forward", "crates/burn-onnx/src/burn/node/round.rs:forward", "crates/burn-onnx/src/burn/node/selu.rs:forward", "crates/burn-onnx/src/burn/node/sigmoid.rs:forward", "crates/burn-onnx/src/burn/node/sign.rs:forward", "crates/burn-onnx/src/burn/node/sin.rs:forward", "crates/burn-onnx/src/burn/node/sinh.rs:forward", "crates/burn-onnx/src/burn/node/softplus.rs:forward", "crates/burn-onnx/src/burn/node/softsign.rs:forward", "crates/burn-onnx/src/burn/node/sqrt.rs:forward", "crates/burn-onnx/src/burn/node/swish.rs:forward", "crates/burn-onnx/src/burn/node/tan.rs:forward", "crates/burn-onnx/src/burn/node/tanh.rs:forward", "crates/burn-onnx/src/burn/node/thresholded_relu.rs:forward", "crates/onnx-ir/src/node/clip.rs:extract_config", "crates/onnx-ir/src/node/elu.rs:extract_config", "crates/onnx-ir/src/node/celu.rs:extract_config", "crates/onnx-ir/src/node/leaky_relu.rs:extract_config", "crates/onnx-ir/src/node/thresholded_relu.rs:extract_config", "crates/onnx-ir/src/node/hard_sigmoid.rs:extract_config", "crates/onnx-ir/src/node/swish.rs:extract_config", "crates/onnx-ir/src/node/selu.rs:extract_config", "crates/onnx-ir/src/node/is_inf.rs:extract_config"]}
{"id": "C68", "title": "The code emitted for TopK, OneHot and Range computes the ONNX result", "statement": "TopK gives, along its axis, the k greatest elements of every line in descending order and the places they have in the line; OneHot inserts a dimension of the given depth that holds the on-value at the class an index names, counted from the end when negative, and the off-value elsewhere; Range gives start, start + delta and so on up to the limit. The emitted code runs without a panic, computes that, and the results have the recorded types. What cannot be expressed (the smallest elements, unsorted results, boolean values) is refused.", "quantifier": "every rank, shape and content, axis, k, depth, pair of values, start, limit and delta, constant or read at run time", "why_tests_cant": "ranks, sizes, contents, ties and numbers of elements are unbounded", "anchors": ["crates/burn-onnx/src/burn/node/top_k.rs:forward", "crates/burn-onnx/src/burn/node/one_hot.rs:forward", "crates/burn-onnx/src/burn/node/range.rs:forward", "crates/onnx-ir/src/node/topk.rs:infer_types", "crates/onnx-ir/src/node/topk.rs:extract_config", "crates/onnx-ir/src/node/one_hot.rs:infer_types", "crates/onnx-ir/src/node/one_hot.rs:extract_config", "crates/onnx-ir/src/node/range.rs:infer_types", "crates/onnx-ir/src/node/range.rs:extract_config"]}
{"id": "C69", "title": "The code emitted for Pow, Sum, Mean, Not and BitwiseNot computes the ONNX result", "statement": "For a base and an exponent whose shapes broadcast, each on the device or a native number, each element of the result of Pow is the base to the power of the exponent at its place, in the element type of the base. Sum and Mean of any number of inputs whose shapes broadcast give the sum, from the left, and that sum divided by their number. Not and BitwiseNot exchange true and false, and every bit of every number. The emitted code runs without a panic and its value is of the recorded type; combinations the generator does not support are refused when the code is generated.", "quantifier": "every number of inputs, rank, shape and content, and every mixture of tensors, scalars on the device and native scalars", "why_tests_cant": "ranks, shapes, contents and the number of inputs are unbounded", "anchors": ["crates/burn-onnx/src/burn/node/pow.rs:forward", "crates/burn-onnx/src/burn/node/sum.rs:forward", "crates/burn-onnx/src/burn/node/mean.rs:forward", "crates/burn-onnx/src/burn/node/not.rs:forward", "crates/burn-onnx/src/burn/node/bitwisenot.rs:forward", "crates/onnx-ir/src/node/pow.rs:infer_types", "crates/onnx-ir/src/node/sum.rs:infer_types", "crates/onnx-ir/src/node/mean.rs:infer_types", "crates/onnx-ir/src/node/not.rs:infer_types", "crates/onnx-ir/src/node/bitwisenot.rs:infer_types"]}
{"id": "C70", "title": "The code emitted for Col2Im adds up overlapping blocks as ONNX prescribes", "statement": "For columns that hold one block for each position of the block on the padded image, with one or two spatial axes and any strides, dilations and pads, each pixel of the result is the sum of exactly those block elements that lie on it, channel by channel and image by image, and pixels under no block are zero. The code runs without a panic, and the type inferred at import has the element type and a shape of the result. Sizes that are not constants and images of three or more axes are refused at import.", "quantifier": "every image, block, stride, dilation and pad, every number of images and channels, and all contents", "why_tests_cant": "geometry, sizes and contents are unbounded", "anchors": ["crates/burn-onnx/src/burn/node/col2im.rs:forward", "crates/onnx-ir/src/node/col2im.rs:infer_types", "crates/onnx-ir/src/node/col2im.rs:extract_config"]}
{"id": "C71", "title": "The code emitted for Attention computes what ONNX prescribes", "statement": "For queries, keys and values of three or four dimensions, with or without a mask of booleans, floats or integers, keys and values kept from before, is_causal, scale, softcap and a mode for the scores, the code returns softmax of the masked, capped and scaled products times the values, head by head, the keys and values to keep, and the scores of the stage asked for. The node is accepted with the types of its outputs.", "quantifier": "every number of images, heads, queries, keys and elements, every mask, every option and all contents", "why_tests_cant": "sizes, masks and contents are unbounded", "anchors": ["crates/burn-onnx/src/burn/node/attention.rs:forward_burn_attention", "crates/burn-onnx/src/burn/node/attention.rs:forward_custom", "crates/onnx-ir/src/node/attention.rs:infer_types", "crates/onnx-ir/src/node/attention.rs:extract_config"]}
{"id": "C72", "title": "The code emitted for Resize computes what ONNX prescribes", "statement": "For the modes nearest, linear and cubic, with the output sizes or the scales in the model or known only at run time, the code keeps images and channels and returns on each further axis the interpolation at the coordinates and with the rounding the attributes ask for. The node is accepted with the type of its output.", "quantifier": "every mode, coordinate transformation, rounding and coefficient, every rank, all sizes, scales and contents", "why_tests_cant": "sizes, scales and contents are unbounded", "anchors": ["crates/burn-onnx/src/burn/node/resize.rs:forward", "crates/burn-onnx/src/burn/node/resize.rs:field", "crates/onnx-ir/src/node/resize.rs:infer_types", "crates/onnx-ir/src/node/resize.rs:extract_config"]}
{"id": "C73", "title": "The code emitted for DeformConv computes what ONNX prescribes", "statement": "For a DeformConv node with constant weights the code returns the deformable convolution: each weight is multiplied by the input interpolated at the kernel position moved by the offsets of its offset group, scaled by the mask if there is one, in the groups, strides, dilations and padding of the attributes, plus the bias if there is one. The inferred output shape is that of the result. Weights or biases that are not constants are refused.", "quantifier": "all shapes, attributes, groups, offset groups, inputs given or left out, and contents", "why_tests_cant": "sizes, groups and contents are unbounded", "anchors": ["crates/burn-onnx/src/burn/node/deform_conv.rs:field", "crates/burn-onnx/src/burn/node/deform_conv.rs:collect_snapshots", "crates/burn-onnx/src/burn/node/deform_conv.rs:forward", "crates/onnx-ir/src/node/deform_conv.rs:infer_types", "crates/onnx-ir/src/node/deform_conv.rs:extract_config"]}
{"id": "C74", "title": "Random tensors and GridSample are what ONNX prescribes", "statement": "RandomNormal, RandomUniform and their Like forms draw one number per element from the distribution of the attributes, with the prescribed shape and element type. Bernoulli yields one for each element exactly if a uniform draw is below the probability given there, in the element type asked for. GridSample samples the pictures at the coordinates of the grid with the mode, padding and alignment of the attributes. The inferred types fit the results. Size yields the number of elements.", "quantifier": "all shapes, attributes, element types, sources of random numbers and contents", "why_tests_cant": "shapes, contents and the numbers drawn are unbounded; tests see one draw", "anchors": ["crates/burn-onnx/src/burn/node/random_normal.rs:forward", "crates/burn-onnx/src/burn/node/random_uniform_like.rs:forward", "crates/burn-onnx/src/burn/node/bernoulli.rs:forward", "crates/burn-onnx/src/burn/node/grid_sample.rs:forward", "crates/burn-onnx/src/burn/node/size.rs:forward", "crates/onnx-ir/src/node/random.rs:infer_types", "crates/onnx-ir/src/node/random_like.rs:infer_types", "crates/onnx-ir/src/node/bernoulli.rs:infer_types", "crates/onnx-ir/src/node/grid_sample.rs:extract_config"]}
{"id": "C75", "title": "The generated forward takes the graph's inputs and returns its outputs", "statement": "The method forward of a generated model has one parameter for each input of the graph, in order, under its name, and returns the outputs in order, a single one as it is and several as a tuple. Tensors have the rank and the kind (float, integer, boolean) of the ONNX type, scalars are native numbers of the element type, shapes are arrays. Each parameter reaches the nodes with the value passed, and each result is the value the nodes computed, also for scalars that the graph keeps on the device.", "quantifier": "all graphs, numbers and types of inputs and outputs, and all values passed", "why_tests_cant": "numbers of inputs and outputs, ranks and combinations of types are unbounded; tests compile a few graphs", "anchors": ["crates/burn-onnx/src/burn/argument_helpers.rs:codegen_fn_params", "crates/burn-onnx/src/burn/argument_helpers.rs:codegen_return_type", "crates/burn-onnx/src/burn/argument_helpers.rs:codegen_return_expr", "crates/burn-onnx/src/burn/graph.rs:register_input_output", "crates/burn-onnx/src/burn/graph.rs:convert_graph_boundary_scalars", "crates/burn-onnx/src/burn/graph.rs:codegen_forward", "crates/burn-onnx/src/model_gen.rs:into_burn"]}
{"id": "C76", "title": "An operator gets its own code or stops the import", "statement": "If the generator emits code for a node it is the code for the node's operator (for convolutions and pooling, of the node's number of dimensions). A name that is not known, or known without an implementation, stops with a panic; no node is passed over. An operator of another domain is not taken for the ONNX operator of the same name. Every operator that the importer accepts has code.", "quantifier": "all operator names, domains and numbers of dimensions", "why_tests_cant": "operator names are arbitrary strings; tests use known operators", "anchors": ["crates/onnx-ir/src/ir/node.rs:NodeType", "crates/onnx-ir/src/proto_conversion.rs:convert_node_proto", "crates/onnx-ir/src/phases/node_conversion.rs:remap_node_type", "crates/onnx-ir/src/registry.rs:with_standard_processors", "crates/onnx-ir/src/node/unsupported.rs:UnsupportedProcessor", "crates/burn-onnx/src/burn/node_codegen.rs:impl_node_codegen_dispatch"]}
{"id": "C77", "title": "Constant data stays readable in the finished graph, at any depth", "statement": "In the graph the importer returns, an input of a node that carries constant data gives that data when it is read, in the main graph and in branches and bodies nested to any depth, also when the data belongs to an outer graph. An input that names a constant gives the data of the innermost visible constant of that name. Finishing a graph more than once changes nothing, and no input loses its name or its place.", "quantifier": "all graphs with branches and bodies nested to any depth, all stores of constants and all inputs", "why_tests_cant": "nesting and the distribution of constants over graphs are unbounded; tests read a few constants at depth one", "anchors": ["crates/onnx-ir/src/ir/graph.rs:convert_to_graph", "crates/onnx-ir/src/ir/graph.rs:finalize_arguments_in_nodes", "crates/onnx-ir/src/ir/graph.rs:finalize_subgraph", "crates/onnx-ir/src/ir/argument.rs:value", "crates/onnx-ir/src/ir/argument.rs:set_value_store"]}
{"id": "C78", "title": "The generated file names only what is in scope", "statement": "Every type, function and crate that the generated code names is in scope: it is in Burn's prelude, in a crate that a user of Burn has, or brought in by one of the use lines of the file, also for nodes inside branches and bodies at any depth. The use lines come in one order that does not depend on hashing, none comes twice, no two bring the same name, and generating them never panics for supported ranks.", "quantifier": "all graphs with branches and bodies nested to any depth, all configurations of the nodes and all orders in which the set of imports is walked", "why_tests_cant": "combinations of nodes and depths are unbounded, and the order of a hash set differs from run to run", "anchors": ["crates/burn-onnx/src/burn/imports.rs:BurnImports", "crates/burn-onnx/src/burn/graph.rs:register_imports", "crates/burn-onnx/src/burn/node_traits.rs:register_imports", "crates/burn-onnx/src/burn/node/if_node.rs:register_imports", "crates/burn-onnx/src/burn/node/loop_node.rs:register_imports", "crates/burn-onnx/src/burn/node/lstm.rs:register_imports"]}
{"id": "C79", "title": "The numbers of the model stand in the generated code", "statement": "An integer, a list of integers, a floating-point number or a padding of the model is written into the code so that the Rust compiler reads the same value (and, for constants, the same type), for negative numbers, the least integer, infinite numbers and NaN too. Paddings that Burn cannot express are refused.", "quantifier": "all integers, lists of any length, floating-point numbers and paddings", "why_tests_cant": "there are too many numbers; the ones tests leave out (infinite fills, the least integer) are the ones that go wrong", "anchors": ["crates/burn-onnx/src/burn/codegen.rs:convert_primitive", "crates/burn-onnx/src/burn/codegen.rs:convert_to_array", "crates/burn-onnx/src/burn/codegen.rs:f32_to_tokens", "crates/burn-onnx/src/burn/codegen.rs:f64_to_tokens", "crates/burn-onnx/src/burn/codegen.rs:PaddingConfig3d", "crates/burn-onnx/src/burn/node/pad.rs:forward", "crates/burn-onnx/src/burn/node/clip.rs:forward"]}
{"id": "C80", "title": "Every node is checked against the signature of its operator", "statement": "Before types are inferred, each node passes exactly when the version of the model and its numbers of inputs and outputs follow the specification of its operator. Every node the ONNX standard allows passes at every version, as the documentation promises; a node with a version too low or a wrong number of inputs or outputs is refused with an error naming what was found. Values captured by subgraphs do not count.", "quantifier": "all operators, all versions, all numbers of inputs and outputs, all specifications with rules nested by version", "why_tests_cant": "operators, versions and counts multiply; tests check a few nodes of each operator at one version", "anchors": ["crates/onnx-ir/src/processor.rs:validate_node_spec", "crates/onnx-ir/src/processor.rs:validate_input_spec", "crates/onnx-ir/src/processor.rs:validate_output_spec", "crates/onnx-ir/src/processor.rs:get_onnx_input_count", "crates/onnx-ir/src/registry.rs:with_standard_processors", "crates/onnx-ir/src/phases/type_inference.rs", "crates/onnx-ir/src/node/*.rs:spec"]}
{"id": "C81", "title": "The generated model loads the parameters written for it", "statement": "The parameter file that Model::default() reads, or that the compiler includes when states are embedded, is the one the generator wrote for that model, wherever the program is compiled and run; the embedded array has the size of the file; in a build script the source is where the documentation says to include it from.", "quantifier": "all output directories (absolute, relative, with . and ..), working directories of generator and program, file systems, parameters", "why_tests_cant": "tests run in the directory they generate into; other directories and embedding from a relative directory never occur", "anchors": ["crates/burn-onnx/src/model_gen.rs:get_output_directory", "crates/burn-onnx/src/model_gen.rs:run", "crates/burn-onnx/src/model_gen.rs:generate_burn_graph", "crates/burn-onnx/src/burn/graph.rs:with_burnpack", "crates/burn-onnx/src/burn/graph.rs:register_burnpack_file", "crates/burn-onnx/src/burn/graph.rs:register_burnpack_embed"]}
{"id": "C82", "title": "After type inference readers and producers agree", "statement": "When inference of types succeeds, whether or not it settled, every input that reads the output of a node has that output's kind, element type and rank and knows every dimension it knows, and no output, and no input that reads one, is a tensor of rank zero.", "quantifier": "all graphs, orders of nodes, opsets, specifications and processors (inference functions and preferences)", "why_tests_cant": "tests infer single nodes and a few graphs; the agreement must hold for every graph and for processors that disagree, also when the iteration limit is reached", "anchors": ["crates/onnx-ir/src/phases/type_inference.rs:infer_types", "crates/onnx-ir/src/phases/type_inference.rs:iterative_type_inference_with_preferences", "crates/onnx-ir/src/processor.rs:validate_no_rank_zero_tensors"]}
{"id": "C83", "title": "Unsqueeze of a scalar held as a Rust number makes the tensor with that number in it", "statement": "For every scalar of every element type that the generated program holds as a native Rust value, and every list of axes import accepts, the code emitted for Unsqueeze compiles, does not panic, and gives the tensor of rank equal to the number of axes, all dimensions one, whose element is the scalar.", "quantifier": "all element types, scalar values, lists of axes, opsets", "why_tests_cant": "tests run one 64-bit integer scalar with one axis; the branches that make tensors from scalars are not run", "anchors": ["crates/burn-onnx/src/burn/node/unsqueeze.rs:forward", "crates/burn-onnx/src/burn/argument_helpers.rs:scalar_native_to_shape", "crates/onnx-ir/src/node/unsqueeze.rs:infer_with_axes"]}
{"id": "C84", "title": "Expand of a scalar fills the shape asked for", "statement": "For every scalar of every element type, held as a Rust number or on the device, and every shape asked for of rank one or more, constant or computed, the code emitted for Expand compiles and gives the tensor of that shape with the scalar in every place.", "quantifier": "all element types, kinds of scalar, values and shapes", "why_tests_cant": "tests run one scalar held as a number and one shape; the scalar kept on the device is not tested", "anchors": ["crates/burn-onnx/src/burn/node/expand.rs:forward", "crates/onnx-ir/src/ir/argument.rs:is_scalar", "crates/onnx-ir/src/node/expand.rs:infer_types"]}
{"id": "C85", "title": "Reshape of a scalar held as a Rust number keeps the number", "statement": "For every scalar of every element type that the generated program holds as a native Rust value, and every constant shape of one element that import accepts, the code emitted for Reshape compiles, does not panic and gives a value of that shape holding the scalar.", "quantifier": "all element types, scalar values and constant shapes", "why_tests_cant": "tests reshape a scalar to a scalar only; the branches that make tensors are not run", "anchors": ["crates/burn-onnx/src/burn/node/reshape.rs:forward", "crates/onnx-ir/src/node/reshape.rs:determine_output_type"]}
