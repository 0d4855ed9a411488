{
 "claims": [
  {
   "property": "C01",
   "status": "proved",
   "theorems": [
    "C01_accept_iff_no_backward_reference",
    "C01_accepted_is_executable",
    "C01_rejected_is_not_executable",
    "C01_self_reference_accepted_refuted"
   ],
   "note": "Equivalence and executability proved; the self-reference case, excluded by the property text, is shown to be accepted (refuted theorem)."
  },
  {
   "property": "C02",
   "status": "proved",
   "theorems": [
    "C02_first_default_domain",
    "C02_only_default_domain",
    "C02_missing_iff",
    "C02_negative_version_refuted"
   ],
   "note": "For versions in the i64 non-negative range; a negative version wraps to a huge opset (refuted theorem)."
  },
  {
   "property": "C03",
   "status": "partial",
   "theorems": [
    "C03_legal_identifier",
    "C03_words_joined",
    "C03_snake_normal",
    "C03_unchanged_iff",
    "C03_idempotent",
    "C03_keyword_refuted"
   ],
   "note": "Full functional description proved. The result may still be a Rust keyword or the lone underscore (refuted theorem)."
  },
  {
   "property": "C04",
   "status": "partial",
   "theorems": [
    "C04_empty_iff",
    "C04_nonempty_refuted",
    "C04_injective_refuted",
    "C04_injective_partial"
   ],
   "note": "False in general (two refuted theorems); injectivity proved on snake-case names, emptiness characterised exactly."
  },
  {
   "property": "C05",
   "status": "proved",
   "theorems": [
    "C05_resolved_inside_base",
    "C05_canonical_inside_base",
    "C05_plain_location_accepted"
   ],
   "note": "Unix path syntax; canonicalize is an arbitrary oracle."
  },
  {
   "property": "C06",
   "status": "proved",
   "theorems": [
    "C06_loaded_is_range",
    "C06_range_is_loaded",
    "C06_modes_agree"
   ],
   "note": ""
  },
  {
   "property": "C07",
   "status": "proved",
   "theorems": [
    "C07_entries_last_wins",
    "C07_missing_location"
   ],
   "note": ""
  },
  {
   "property": "C08",
   "status": "proved",
   "theorems": [
    "C08_store_history",
    "C08_store_stable"
   ],
   "note": ""
  },
  {
   "property": "C09",
   "status": "partial",
   "theorems": [
    "C09_registry_names_distinct",
    "C09_registry_history_composes",
    "C09_output_names_distinct",
    "C09_root_names_distinct",
    "C09_subgraph_fresh_partial",
    "C09_nested_control_flow_refuted",
    "C09_subgraph_root_collision_refuted",
    "C09_sibling_subgraph_collision_refuted"
   ],
   "note": "Proved for one registry, for the root graph, and for a subgraph against everything the root had before it (unless the subgraph nests the same control-flow type); false across root graph and subgraphs otherwise because the root does not use the registry (three refuted theorems)."
  },
  {
   "property": "C10",
   "status": "partial",
   "theorems": [
    "C10_no_capture_partial",
    "C10_capture_refuted"
   ],
   "note": "False in general (refuted); holds for input names that are not of generated form."
  },
  {
   "property": "C11",
   "status": "partial",
   "theorems": [
    "C11_spatial_variant",
    "C11_inputs_resolved",
    "C11_declared_type_partial",
    "C11_declared_type_refuted",
    "C11_import_partial",
    "C11_collision_refuted",
    "C11_capture_refuted",
    "C11_outer_output_refuted"
   ],
   "note": "Proved for every operator semantics for legal graphs without control flow nodes, for any choice of embedded inputs and any outer scope of dynamic values. Also proved: the dimension variant of convolution and pooling nodes, what inputs refer to (captured constants stay as they are), and that declared output types are kept. Refuted for colliding sanitised names, inputs named like generated names, subgraph outputs that are outer values, and declared types of outputs whose name is changed. The MatMul result feeding a fused Add must have no other consumer (see C14)."
  },
  {
   "property": "C12",
   "status": "partial",
   "theorems": [
    "C12_branch_exact",
    "C12_any_partial",
    "C12_node_exact",
    "C12_scope_partial",
    "C12_body_refuted",
    "C12_scope_refuted"
   ],
   "note": "Exact for subgraphs without formal inputs (If branches) with any nesting; for Loop and Scan bodies the formal inputs are recorded too (refuted). Recorded names are found in the outer scope unless one is already the name of an input (refuted)."
  },
  {
   "property": "C13",
   "status": "partial",
   "theorems": [
    "C13_equal_partial",
    "C13_kept",
    "C13_loads",
    "C13_bias_refuted",
    "C13_transA_refuted",
    "C13_dynamic_refuted"
   ],
   "note": "Proved: a converted Gemm whose layer loads computes the Gemm of its attributes for every matrix, and the layer loads when weight and bias are constants of shape [n,k] and [n]. Refuted: broadcast biases, transA=2, non-constant weights."
  },
  {
   "property": "C14",
   "status": "partial",
   "theorems": [
    "C14_reads_partial",
    "C14_reads_refuted",
    "C14_equal",
    "C14_loads",
    "C14_bias_refuted"
   ],
   "note": "Proved: in a legal graph every name read after the import is defined before; the layer computes MatMul (+Add) for inputs of any rank. Refuted: the product used elsewhere loses its definition; biases that are not a vector are fused and then cannot be loaded."
  },
  {
   "property": "C15",
   "status": "proved",
   "theorems": [
    "C15_known_kept",
    "C15_nothing_invented",
    "C15_rank_and_type_kept",
    "C15_taken_over",
    "C15_taken_over_whole",
    "C15_changed_flag",
    "C15_idempotent",
    "C15_consistent"
   ],
   "note": "All parts of the statement, for tensor types of every rank."
  },
  {
   "property": "C16",
   "status": "partial",
   "theorems": [
    "C16_rank",
    "C16_dims_partial",
    "C16_element_type",
    "C16_nonunit_dims_partial",
    "C16_unknown_operand_refuted",
    "C16_rank_mismatch_refuted",
    "C16_shape_operand_refuted",
    "C16_two_shapes_refuted"
   ],
   "note": "Rank proved without restriction. Dimensions proved when every tensor operand declares its dimensions; four refuted theorems show the claim is false for undeclared or shape operands."
  },
  {
   "property": "C17",
   "status": "proved",
   "theorems": [
    "C17_at_most_ten",
    "C17_ends",
    "C17_settled",
    "C17_needs_stable_processors_refuted"
   ],
   "note": "For processors that only assign output types and are stable when run again; that proviso is shown necessary."
  },
  {
   "property": "C18",
   "status": "partial",
   "theorems": [
    "C18_sound_partial",
    "C18_runtime_shape",
    "C18_count_kept",
    "C18_rejects",
    "C18_accepts",
    "C18_scalar_to_vector_refuted",
    "C18_shape_zero_refuted"
   ],
   "note": "Sound for tensor, 0-d tensor and shape-vector inputs with a static shape, and for run-time shapes; native scalars reshaped to one element and a shape vector reshaped to [0] are refuted."
  },
  {
   "property": "C19",
   "status": "proved",
   "theorems": [
    "C19_sound",
    "C19_noop_exact"
   ],
   "note": "Any permutation, default permutation included; ranks below 2^64."
  },
  {
   "property": "C20",
   "status": "partial",
   "theorems": [
    "C20_squeeze_sound",
    "C20_squeeze_all_partial",
    "C20_unsqueeze_sound",
    "C20_inverse",
    "C20_inverse_shapes",
    "C20_squeeze_unknown_refuted",
    "C20_squeeze_runtime_axes_refuted"
   ],
   "note": "Sound for every valid static axes list, inverse proved on types and on shapes; Squeeze without axes proved when all dimensions are known, refuted otherwise, and refuted for axes only known at run time."
  },
  {
   "property": "C21",
   "status": "proved",
   "theorems": [
    "C21_sound",
    "C21_count_kept",
    "C21_noop_sound"
   ],
   "note": "Output dimensions below 2^64 (the product wraps in a release build), rank below 2^63."
  },
  {
   "property": "C22",
   "status": "proved",
   "theorems": [
    "C22_even_split",
    "C22_explicit_sizes",
    "C22_types_sound",
    "C22_noop_sound"
   ],
   "note": "Chunk sizes are a partition into equal chunks with smaller trailing ones, equal to the ONNX reference sizes whenever those exist; explicit sizes verbatim; output types and removal of one-output splits sound."
  },
  {
   "property": "C23",
   "status": "partial",
   "theorems": [
    "C23_sound_partial",
    "C23_axis_partial",
    "C23_noop_sound",
    "C23_unknown_length_refuted",
    "C23_scalar_axis_refuted"
   ],
   "note": "Sound for any number and kind of inputs when rank-1 lengths are known where shape vectors or scalars are joined; axis normalised for tensors and shape vectors. Refuted: unknown rank-1 length counted as 1; axis -1 with a scalar first."
  },
  {
   "property": "C24",
   "status": "partial",
   "theorems": [
    "C24_slice_shape_partial",
    "C24_slice_tensor_partial",
    "C24_tile_partial",
    "C24_pad_partial",
    "C24_pad_noop_sound",
    "C24_slice_tensor_refuted",
    "C24_slice_negative_step_refuted",
    "C24_tile_refuted",
    "C24_pad_refuted"
   ],
   "note": "Slice of shape vectors exact for positive steps; tensors: rank and untouched dimensions right. Refuted: sliced/tiled/padded static dimensions are copied from the input; negative steps on shape vectors."
  },
  {
   "property": "C25",
   "status": "partial",
   "theorems": [
    "C25_sound_partial",
    "C25_runtime_partial",
    "C25_noop_partial",
    "C25_one_refuted",
    "C25_rank_refuted",
    "C25_noop_unknown_refuted"
   ],
   "note": "Sound when the requested shape is at least as long as the input's and requests 1 only over 1. Refuted without either condition; removal of Expand with an unknown equal dimension refuted."
  },
  {
   "property": "C26",
   "status": "partial",
   "theorems": [
    "C26_reduce_partial",
    "C26_arg_sound",
    "C26_arg_axis",
    "C26_topk_sound",
    "C26_topk_axis",
    "C26_no_axes_refuted",
    "C26_noop_axes_refuted"
   ],
   "note": "Reduce*: proved for every axes list except keepdims with no axes; refuted there (claims the unchanged shape) and for noop_with_empty_axes. ArgMax/ArgMin/TopK ranks and axes proved in full."
  },
  {
   "property": "C27",
   "status": "partial",
   "theorems": [
    "C27_matmul_partial",
    "C27_gather_partial",
    "C27_gather_axis",
    "C27_dot_refuted",
    "C27_gather_shape_refuted"
   ],
   "note": "Proved for every rank except vector times vector, where the claimed rank is wrong (refuted); Gather proved except for a shape vector gathered with a tensor of indices (refuted)."
  },
  {
   "property": "C28",
   "status": "partial",
   "theorems": [
    "C28_conv_partial",
    "C28_window",
    "C28_window_none",
    "C28_auto_pad_refuted",
    "C28_max_pool_refuted"
   ],
   "note": "Proved for Conv 1d/2d/3d with explicit or absent padding, sizes below 2^62. auto_pad SAME_* and the operators that copy the input's shape (MaxPool, ConvTranspose, Resize) are refuted."
  },
  {
   "property": "C29",
   "status": "partial",
   "theorems": [
    "C29_noop_removal_partial",
    "C29_removed_values_unread_partial",
    "C29_only_noops_removed_partial",
    "C29_second_output_lost_refuted",
    "C29_name_capture_refuted"
   ],
   "note": "Proved for every iteration order and chain under three side conditions; refuted when a second output of a removed node is read and when an ONNX name captures a generated name."
  },
  {
   "property": "C30",
   "status": "proved",
   "theorems": [
    "C30_dead_nodes_preserve",
    "C30_dead_nodes_exact",
    "C30_dead_nodes_order",
    "C30_dead_nodes_idempotent"
   ],
   "note": ""
  },
  {
   "property": "C31",
   "status": "partial",
   "theorems": [
    "C31_unreferenced_exact",
    "C31_unreferenced_sound",
    "C31_unreferenced_preserve",
    "C31_dead_constants_exact",
    "C31_read_constants_kept_partial",
    "C31_unmarked_reader_refuted"
   ],
   "note": "Both passes characterised exactly; the second pass drops a constant whose reader is not marked as constant (refuted theorem)."
  },
  {
   "property": "C32",
   "status": "proved",
   "theorems": [
    "C32_idempotent_preserve",
    "C32_operators_idempotent"
   ],
   "note": "The operator law is a hypothesis of the graph theorem and is proved for the listed operators over the reals / Flocq binary floats in C32_operators_idempotent."
  },
  {
   "property": "C33",
   "status": "partial",
   "theorems": [
    "C33_identity_partial",
    "C33_broadcast_lost_refuted"
   ],
   "note": "Proved when the surviving operand already has the result shape; false when the removed constant broadcasts (refuted theorem)."
  },
  {
   "property": "C34",
   "status": "partial",
   "theorems": [
    "C34_cse_preserve_partial",
    "C34_merged_only_if_equal",
    "C34_random_nodes_merged_refuted"
   ],
   "note": "Proved for deterministic operators when the debug print of attributes tells attributes apart; random nodes are merged (refuted theorem)."
  },
  {
   "property": "C35",
   "status": "partial",
   "theorems": [
    "C35_equal_iff",
    "C35_transpose_exists",
    "C35_pass_partial",
    "C35_only_reshape",
    "C35_shape",
    "C35_total",
    "C35_refuted",
    "C35_rank_refuted"
   ],
   "note": "C35_equal_iff says for which permutations Reshape and Transpose agree on all tensors of a shape (exactly when the dimensions other than 1 keep their order); C35_pass_partial proves the simplified graph computes the same environment under that condition; C35_shape proves the shapes agree; C35_refuted and C35_rank_refuted show that the code applies the rewrite where the property fails."
  },
  {
   "property": "C36",
   "status": "partial",
   "theorems": [
    "C36_pass_partial",
    "C36_gather_partial",
    "C36_slice_partial",
    "C36_end_refuted",
    "C36_end_range_refuted",
    "C36_two_indices_refuted",
    "C36_start_panics_refuted",
    "C36_end_below_refuted",
    "C36_reverse_refuted",
    "C36_reverse_panics_refuted",
    "C36_no_axes_refuted"
   ],
   "note": "Pass-level and per-node theorems for Gather and Slice of Shape; Shape nodes with an end, and backward slices that leave the list, are refuted by witnesses (wrong constants and panics)."
  },
  {
   "property": "C37",
   "status": "partial",
   "theorems": [
    "C37_pass_partial",
    "C37_node_partial",
    "C37_exact_i64",
    "C37_div_panics_refuted",
    "C37_neg_wraps_refuted",
    "C37_i32_wraps_refuted",
    "C37_empty_panics_refuted",
    "C37_outer_panics_refuted",
    "C37_unknown_shape_panics_refuted",
    "C37_unknown_rank_refuted"
   ],
   "note": "64-bit vectors are folded exactly; per-node theorem: left alone or replaced by the ONNX result, no panic, when one operand has the size of the result; pass-level theorem. Refuted: MIN/-1 panics, -MIN wraps, 32-bit wraps, panics for empty operands, outer broadcasting and unknown output shapes."
  },
  {
   "property": "C38",
   "status": "proved",
   "theorems": [
    "C38_elements",
    "C38_correctly_rounded",
    "C38_vectors",
    "C38_cast_rounds",
    "C38_cast_to_integer",
    "C38_cast_node"
   ],
   "note": "Double rounding through float64 is harmless for every pair of float32 values, including infinities, NaN and subnormals; correct rounding stated in the reals; Cast conversions round to nearest. NaN payloads are not modelled."
  },
  {
   "property": "C39",
   "status": "partial",
   "theorems": [
    "C39_coalesce_preserves_partial",
    "C39_coalesce_then_dead_nodes_partial",
    "C39_part_preserved_partial",
    "C39_only_products_replaced",
    "C39_unscaled_refuted",
    "C39_scale_rounded_refuted",
    "C39_vector_scale_refuted",
    "C39_two_scales_refuted",
    "C39_mask_rank3_refuted",
    "C39_weights_output_refuted"
   ],
   "note": "Over the reals, for every graph meeting attention_graph: standard chains (C39_coalesce_preserves_partial), scaled-operand chains after dead-node removal (C39_coalesce_then_dead_nodes_partial), any self-contained part. Structure proved for every graph (C39_only_products_replaced). The unconditional claim is false: six refutations (no scale, scale rounded to f32, vector scale, two scales, rank-3 mask, weights as graph output). Missing: floating point, broadcasting of the first two dimensions."
  },
  {
   "property": "C40",
   "status": "proved",
   "theorems": [
    "C40_round_never_grows",
    "C40_terminates",
    "C40_no_overflow",
    "C40_small_graphs",
    "C40_fixed_point_refuted"
   ],
   "note": "For the composition of all eight modelled passes in their order: no round grows the graph, the loop ends after at most ten rounds, the count of removed nodes never underflows, inputs and output names are kept; graphs of fewer than ten nodes end with a round that removes nothing. The loop can stop before a fixed point (refuted theorem, outside the statement). Pass panics are passed through."
  },
  {
   "property": "C41",
   "status": "partial",
   "theorems": [
    "C41_accepted_partial",
    "C41_clone_only_when_needed_partial",
    "C41_duplicate_refuted",
    "C41_boundary_refuted",
    "C41_if_refuted",
    "C41_sub_output_refuted",
    "C41_loop_refuted",
    "C41_loop_count_refuted",
    "C41_flow_accepted_partial",
    "C41_if_positions_refuted",
    "C41_shape_capture_refuted",
    "C41_scan_collected_refuted",
    "C41_scan_init_refuted",
    "C41_loop_exchange_refuted",
    "C41_loop_twice_refuted"
   ],
   "note": "Proved for graphs without control flow and any multiplicity of uses: the generated function is accepted by the ownership rules (C41_accepted_partial) and clones only where a later use follows (C41_clone_only_when_needed_partial). Proved for graphs with any number of If, Loop and Scan nodes whose branches and bodies contain such nodes in turn, to any depth, for any number of iterations (C41_flow_accepted_partial). Missing: captured values under a new name that both branches of an If use. The full statement is refuted in general by computed witnesses: duplicated graph output, scalar output also read by a node, value captured by both If branches and used twice later, scalar returned by a branch and read in it, captured value under a new name used at different places of the branches, captured shape under a new name, Loop initial state used later, on-device Loop trip count, Loop body that exchanges its carried tensors, Loop body that returns one tensor for two variables, Scan body that collects a state as it came in, Scan initial state used later."
  },
  {
   "property": "C42",
   "status": "partial",
   "theorems": [
    "C42_fields_partial",
    "C42_generated_not_reserved",
    "C42_struct_partial",
    "C42_snapshot_names",
    "C42_reference_refuted",
    "C42_root_and_subgraph_refuted",
    "C42_suffix_refuted",
    "C42_scan_refuted"
   ],
   "note": "Exact condition proved when no Scan body has parameters: distinct struct fields and correct references iff the names of all nodes with parameters are distinct and not 'phantom'/'device' (C42_fields_partial); generated names are never reserved; fields stay distinct for repeated underscore-free names inside subgraphs (C42_struct_partial); saved parameters use the field names for every graph (C42_snapshot_names). Refuted in general: renamed fields are referenced by the old name, root/subgraph and suffix collisions, Scan bodies get no fields."
  },
  {
   "property": "C43",
   "status": "partial",
   "theorems": [
    "C43_outputs_partial",
    "C43_succeeds_partial",
    "C43_same_stem_refuted",
    "C43_dots_refuted"
   ],
   "note": "Proved for model files named base.ext or base, where base has no dot except perhaps the first character, with distinct base names and no model file in an output position: every output holds what its own model generated and no other file changes; the run succeeds when every model can be read and converted. Refuted for equal base names in different directories and for names that differ only between dots (a.onnx, a.v2.onnx)."
  },
  {
   "property": "C44",
   "status": "proved",
   "theorems": [
    "C44_checks_exact",
    "C44_input_count"
   ],
   "note": "Exact characterisation including opset-versioned and nested declarations."
  },
  {
   "property": "C45",
   "status": "partial",
   "theorems": [
    "C45_values_partial",
    "C45_reading",
    "C45_raw_bytes",
    "C45_typed_fields",
    "C45_float_bits",
    "C45_unsupported_type",
    "C45_external_source",
    "C45_constants",
    "C45_raw_size_refuted",
    "C45_typed_size_refuted",
    "C45_external_size_refuted",
    "C45_negative_dim_refuted"
   ],
   "note": "Proved for raw bytes, typed fields and external ranges whose size agrees with the shape: the tensor is converted with the declared type and reads back as exactly the stored integers (floats: bit patterns). Raw bytes are characterised exactly (iff), out-of-range typed entries wrap, unsupported types are refused, refused external locations are never replaced by other data, and constants read their own initializer. Refuted part: payloads whose size disagrees with the shape (raw, typed, external) and negative dimensions are accepted. Assumes a little endian machine and that TensorData::from_bytes_vec does not check lengths."
  },
  {
   "property": "C46",
   "status": "proved",
   "theorems": [
    "C46_convolution",
    "C46_pad"
   ],
   "note": "Convolution/pooling padding for any number of axes and Pad's pairs, in both directions. Pad's fill value is not modelled."
  },
  {
   "property": "C47",
   "status": "partial",
   "theorems": [
    "C47_shape_partial",
    "C47_end_refuted",
    "C47_order_refuted",
    "C47_shape_input_refuted"
   ],
   "note": "Proved for bounds within the rank and in order; refuted for an end beyond the rank, start after end, and a shape vector as input."
  },
  {
   "property": "C48",
   "status": "proved",
   "theorems": [
    "C48_shape",
    "C48_exact"
   ],
   "note": "Soundness for every layer that loads, and the exact type."
  },
  {
   "property": "C49",
   "status": "partial",
   "theorems": [
    "C49_simplify_preserves_partial"
   ],
   "note": "C49_simplify_preserves_partial follows the whole loop: constant shape folding, constant folding, idempotent operators, neutral elements, redundant nodes and dead nodes, for any operator semantics that gives the folded, shape and idempotent operators their meaning. Missing: graphs in which the attention or the permute-reshape pass finds something to do (C35, C39), neutral constants that change the value (-0 + 0, a constant of larger shape), Shape nodes with an end and backward slices (refuted in C36)."
  },
  {
   "property": "C50",
   "status": "partial",
   "theorems": [
    "C50_elementwise_partial",
    "C50_shape_lengths_refuted",
    "C50_shape_matrix_refuted",
    "C50_shape_compare_refuted",
    "C50_native_division_refuted",
    "C50_native_int_division_refuted",
    "C50_native_mod_refuted",
    "C50_shift_ranks_refuted",
    "C50_no_code_refuted"
   ],
   "note": "All 20 operators for every combination of representations that the generator handles correctly (combination in BinOps_Spec); each combination left out has a counterexample: arrays of different lengths, array with a tensor of rank other than 1, array compared with a scalar, native scalar divided by a device value (rounded twice; integers do not compile), native Mod, shifts of different ranks, missing generator cases."
  },
  {
   "property": "C51",
   "status": "partial",
   "theorems": [
    "C51_statement_partial",
    "C51_shape_bounds_refuted",
    "C51_index_32_refuted",
    "C51_index_tensor_refuted",
    "C51_concat_tensor_refuted",
    "C51_slice_backwards_refuted",
    "C51_slice_empty_refuted",
    "C51_squeeze_bool_refuted",
    "C51_unsqueeze_32_refuted",
    "C51_where_lengths_refuted",
    "C51_where_device_refuted",
    "C51_cast_32_refuted",
    "C51_reshape_zero_refuted"
   ],
   "note": "C51_statement_partial: for every node of the listed types and operand representations in 'covered' (a small specification), every length and content, the emitted statement runs and its result stands for the ONNX result. Missing: the cases left out of 'covered'; all but code not modelled (results on the device, bounds known only at run time) are refuted by witnesses: Shape bounds not clamped, 32-bit or device indices, Concat of arrays and tensors, Slice backwards or empty, Squeeze of a boolean, Unsqueeze of a 32-bit scalar, Where on different lengths or with a device condition, Cast to other integer types, Reshape to [0]."
  },
  {
   "property": "C52",
   "status": "partial",
   "theorems": [
    "C52_program_partial"
   ],
   "note": "C52_program_partial: the program emitted for any straight-line graph of covered nodes runs to its end and every variable holds the ONNX value of its name, by induction on the graph. Missing: the operators and cases that C51 leaves out, control flow."
  },
  {
   "property": "C53",
   "status": "partial",
   "theorems": [
    "C53_gather_nd_partial",
    "C53_refused",
    "C53_large_refuted"
   ],
   "note": "proved for all shapes, batch dimensions and indices up to 2^31 data elements; false beyond (C53_large_refuted); shape-typed indices and unknown tuple lengths are refused (C53_refused)"
  },
  {
   "property": "C54",
   "status": "partial",
   "theorems": [
    "C54_scatter_nd_partial",
    "C54_empty_refuted",
    "C54_array_indices_refuted"
   ],
   "note": "proved for device tensors with at least one element and every reduction; empty slices and array or native operands fail (C54_*_refuted); Max and Min left open on NaNs and between the two zeros"
  },
  {
   "property": "C55",
   "status": "partial",
   "theorems": [
    "C55_statement_partial",
    "C55_blocks_accepted",
    "C55_flatten_refuted",
    "C55_split_refuted"
   ],
   "note": "C55_statement_partial: for every node in 'covered_any' (a small specification), every shape, rank, attribute and content, the emitted statement runs and its results stand for the ONNX results. Missing: Flatten at axis 0 (C55_flatten_refuted), empty parts of Split (C55_split_refuted), and cases left open because Burn's behaviour is not documented or the code is not modelled: negative indices in a tensor or array, empty slices, non-positive steps, negative Unsqueeze axes, operands known only at run time, float CumSum."
  },
  {
   "property": "C56",
   "status": "partial",
   "theorems": [
    "C56_program_partial"
   ],
   "note": "C56_program_partial: the program emitted for any straight-line graph of nodes covered by C51, C53-C55 (any number of outputs) runs to its end and every variable holds the ONNX value of its name. Missing: the operators and cases those leave out, control flow."
  },
  {
   "property": "C57",
   "status": "partial",
   "theorems": [
    "C57_control_partial",
    "C57_exchange_refuted",
    "C57_condition_refuted",
    "C57_ignored_condition_refuted",
    "C57_loop_scan_refuted",
    "C57_loop_scan_numbers_refuted",
    "C57_scan_state_refuted",
    "C57_scan_name_refuted",
    "C57_scan_axis_refuted"
   ],
   "note": "C57_control_partial: for any nesting of If, Loop and Scan around nodes covered by C51-C56 and integer Constant nodes, any number of iterations and any values, the generated program comes to its end and every variable holds the ONNX value of its name. Missing: Loop scan outputs, graphs outside the predicate well (types recorded consistently, no renamed shape captures, carried values assignable in order), ownership (C41). The _refuted theorems show programs that compute something else: exchanged carried values, a condition that is a carried input, a condition ONNX ignores, Loop scan outputs (joined along an existing axis; numbers become a column), a Scan output that is a state input, a captured value named i, a negative scan axis."
  },
  {
   "property": "C58",
   "status": "partial",
   "theorems": [
    "C58_reduce_partial",
    "C58_every_axis_refuted",
    "C58_noop_refuted",
    "C58_runtime_axes_refuted"
   ],
   "note": "C58_reduce_partial: for every rank, shape, content, list of axes and keepdims the expression emitted for ReduceSum, ReduceProd, ReduceMax, ReduceMin, ReduceSumSquare and ReduceL1 of integers (and ReduceMax/ReduceMin of booleans) runs and its result is the ONNX result in the recorded type. Missing: nodes outside covered_reduce. Of these the _refuted theorems show failures: all axes listed and dropped (the code stops), noop_with_empty_axes (ignored), axes computed at run time (ignored). Sums and products of which a part may overflow are left out."
  },
  {
   "property": "C59",
   "status": "partial",
   "theorems": [
    "C59_real_reduce_partial",
    "C59_log_sum_exp_drop_refuted",
    "C59_helper_name_refuted"
   ],
   "note": "Proved for every axis list, shape and content over the reals, all ten reductions. Left out: rounding; all axes named and dropped (C58_every_axis_refuted). Refuted: ReduceLogSumExp with a dropped axis (maxima are subtracted along the wrong axis: C59_log_sum_exp_drop_refuted), and an input whose name is one of the helper variables (C59_helper_name_refuted)."
  },
  {
   "property": "C60",
   "status": "partial",
   "theorems": [
    "C60_matmul_partial",
    "C60_integer_partial",
    "C60_gemm_partial",
    "C60_dot_product_refuted",
    "C60_integer_matmul_refuted",
    "C60_row_zero_points_refuted",
    "C60_native_zero_point_refuted",
    "C60_omitted_zero_point_refuted",
    "C60_gemm_scalar_refuted"
   ],
   "note": "Proved for MatMul of any ranks with one vector at most, MatMulInteger with device zero points (whole operand, or one per column on the right), and Gemm with a tensor or native third input. Missing, and shown to fail: vector by vector, integer MatMul, zero points per row, native or omitted zero points, Gemm with a device scalar."
  },
  {
   "property": "C61",
   "status": "partial",
   "theorems": [
    "C61_arg_partial",
    "C61_last_index",
    "C61_hardmax_partial",
    "C61_softmax_partial",
    "C61_hardmax_rows_refuted",
    "C61_softmax_rows_refuted",
    "C61_helper_refuted"
   ],
   "note": "Proved for total orders and real numbers. Refuted: Softmax, LogSoftmax and Hardmax before opset 13 coerce to a matrix, the code does not unless the axis ends the shape; the helper variable argmax_result shadows a graph value of that name. Missing: NaN, rounding."
  },
  {
   "property": "C62",
   "status": "partial",
   "theorems": [
    "C62_gather_partial",
    "C62_scatter_partial",
    "C62_bool_reduction",
    "C62_negative_index_refuted",
    "C62_smaller_indices_refuted",
    "C62_float_assignment_refuted"
   ],
   "note": "Proved for every reduction. Refuted: negative indices and smaller indices in the native gather/scatter, assignment of floats by adding a rounded difference. Missing: those cases."
  },
  {
   "property": "C63",
   "status": "partial",
   "theorems": [
    "C63_nonzero",
    "C63_trilu_partial",
    "C63_eye_like",
    "C63_constant_of_shape_partial",
    "C63_runtime_diagonal_refuted",
    "C63_trilu_bool_refuted",
    "C63_fill_half_refuted",
    "C63_tensor_shape_refuted"
   ],
   "note": "C63_nonzero and C63_eye_like are full. C63_trilu_partial lacks a diagonal computed at run time (C63_runtime_diagonal_refuted: it is silently taken as 0) and booleans (C63_trilu_bool_refuted). C63_constant_of_shape_partial lacks non-zero values of types other than F32, F64, I32, I64, Bool (C63_fill_half_refuted: they become 0) and a shape held in a run-time tensor (C63_tensor_shape_refuted)."
  },
  {
   "property": "C64",
   "status": "partial",
   "theorems": [
    "C64_rnn_partial",
    "C64_gru_partial",
    "C64_lstm_partial",
    "C64_refused",
    "C64_layout_refuted",
    "C64_one_state_refuted",
    "C64_size_one_refuted",
    "C64_dynamic_weights_refuted",
    "C64_parameters_unused"
   ],
   "note": "Proved for numbers with exact sums, constant weights, input and hidden sizes other than 1, layout 0 (and Y in layout 1 for both directions or GRU): C64_rnn_partial, C64_gru_partial, C64_lstm_partial. Missing: rounding, clip, activation_alpha and activation_beta (C64_parameters_unused: they have no effect). Refuted: layout 1 in one direction (C64_layout_refuted), one LSTM initial state without the other (C64_one_state_refuted), sizes of 1 (C64_size_one_refuted), weights computed by the graph (C64_dynamic_weights_refuted)."
  },
  {
   "property": "C65",
   "status": "partial",
   "theorems": [
    "C65_conv_partial",
    "C65_conv_transpose_partial",
    "C65_max_pool_partial",
    "C65_average_pool_partial",
    "C65_global_average_pool",
    "C65_refused",
    "C65_average_dilation_refuted",
    "C65_same_after_pool_refuted"
   ],
   "note": "Conv (1-3 axes, groups, dilations, all four kinds of padding), ConvTranspose with even pads, MaxPool, AveragePool without dilations and ceil_mode, and GlobalAveragePool compute the ONNX tensor; conditions under which the generator accepts; refusals. Missing: rounding, computed weights, MaxPool's indices; AveragePool drops dilations and SAME padding after MaxPool is computed for the wrong size (refuted)."
  },
  {
   "property": "C66",
   "status": "partial",
   "theorems": [
    "C66_batch_norm_partial",
    "C66_layer_norm_partial",
    "C66_group_norm_partial",
    "C66_instance_norm_partial",
    "C66_batch_norm_type",
    "C66_refused",
    "C66_epsilon_refuted",
    "C66_training_mode_refuted",
    "C66_layer_axis_refuted",
    "C66_group_scale_refuted"
   ],
   "note": "All four layers proved equal to the ONNX formulas for every shape and content, constant or computed parameters for BatchNormalization, with inferred types. Missing: rounding; epsilon left out and training_mode of BatchNormalization, other axes of LayerNormalization that are accepted, a scale for each group: refuted by witnesses."
  },
  {
   "property": "C67",
   "status": "partial",
   "theorems": [
    "C67_tensor_partial",
    "C67_selu_partial",
    "C67_gelu_tanh_refuted",
    "C67_native_partial",
    "C67_native_rejected",
    "C67_native_round_refuted",
    "C67_clip_partial",
    "C67_clip_refused",
    "C67_prelu_partial",
    "C67_prelu_slope_refuted",
    "C67_is_inf",
    "C67_is_nan",
    "C67_is_type",
    "C67_is_inf_scalar_refuted"
   ],
   "note": "On real numbers, for every shape: 37 operators on tensors (C67_tensor_partial), Selu with the default parameters and refusal of others, host numbers for the operators whose method exists on f32/f64, rejection of the rest, Clip with static bounds in order, PRelu with one slope or one per channel, IsInf and IsNaN on float32 (no rounding there). Refuted: Gelu tanh, Round of a host number, PRelu with a vector of slopes, IsInf of a device scalar. Missing: rounding, Clip with bounds out of order, computed bounds (refused)."
  },
  {
   "property": "C68",
   "status": "partial",
   "theorems": [
    "C68_topk_partial",
    "C68_topk_indices_partial",
    "C68_topk_refused",
    "C68_topk_ties_refuted",
    "C68_one_hot_partial",
    "C68_one_hot_fraction_refuted",
    "C68_one_hot_outside_refuted",
    "C68_one_hot_bool_refused",
    "C68_one_hot_element_type",
    "C68_runtime_refused",
    "C68_one_hot_type_refuted",
    "C68_range_partial",
    "C68_range_down_refuted",
    "C68_range_fraction_refuted"
   ],
   "note": "For every shape, axis and content: TopK values and places with any descending sort, ONNX's indices with a stable sort or without ties; OneHot for indices in bounds, values whole when integers are involved; Range of integers with a step above zero, constant or read at run time; refusals. Refuted: ties with an unstable sort, fractional values of OneHot with integer indices, indices out of bounds, the element type of OneHot, ranges that go down (always empty), fractions in Range."
  },
  {
   "property": "C69",
   "status": "partial",
   "theorems": [
    "C69_pow_partial",
    "C69_pow_refused",
    "C69_pow_exponent_refuted",
    "C69_pow_type_refuted",
    "C69_sum_partial",
    "C69_sum_ranks_refuted",
    "C69_sum_types",
    "C69_mean_partial",
    "C69_mean_native_refuted",
    "C69_mean_ranks_refuted",
    "C69_not_partial",
    "C69_bitwise_not_partial",
    "C69_bitwise_not_version",
    "C69_not_native_refuted"
   ],
   "note": "Proved for every mixture of device and native operands in pow_operands, every number of inputs of one rank for Sum and Mean, and device operands of Not and BitwiseNot. Missing (refuted): operands of different ranks for Sum and Mean, Mean of native scalars, native exponents beyond 32 bits, native float base with whole exponents on the device, native Not."
  },
  {
   "property": "C70",
   "status": "partial",
   "theorems": [
    "C70_col2im_partial",
    "C70_col2im_type_refuted",
    "C70_col2im_refused"
   ],
   "note": "One and two spatial axes, floats. Missing: integers and booleans (accepted, the code does not compile: refuted), rounding and the order of addition, usize overflow in the generator. More axes and non-constant sizes are refused (proved)."
  },
  {
   "property": "C71",
   "status": "partial",
   "theorems": [
    "C71_attention_partial",
    "C71_attention_scores_partial",
    "C71_grouped_refuted",
    "C71_softcap_mode_refuted",
    "C71_bool_mask_refuted",
    "C71_causal_mask_ignored",
    "C71_mask_by_image",
    "C71_precision_refused",
    "C71_scores_alone_refused",
    "C71_empty_past_refuted",
    "C71_causal_mask_refuted",
    "C71_mask_rank3_refuted"
   ],
   "note": "Proved over the reals without the scores for equally many heads and with them also for one head of keys. Missing: grouped heads, is_causal with unequal numbers, and softcap with a mask, which depend on Burn; negative scale with the scores; rounding. Six refutations and two refusals are proved."
  },
  {
   "property": "C72",
   "status": "partial",
   "theorems": [
    "C72_resize_partial",
    "C72_shape_refuted",
    "C72_rank_refuted",
    "C72_runtime_rank_refuted",
    "C72_no_mode_refused",
    "C72_roi_refused",
    "C72_options_refused",
    "C72_mode_case",
    "C72_old_scales",
    "C72_no_target_refused",
    "C72_nearest_refuted",
    "C72_asymmetric_refuted",
    "C72_scale_refuted",
    "C72_cubic_refuted",
    "C72_images_refuted"
   ],
   "note": "Proved for ranks 3 and 4 (4 with sizes or scales at run time), scales that are the ratio of the sizes, and the coordinate modes listed in Resize_Spec.supported. Missing: the cases refuted beside it, tf_crop_and_resize, half_pixel_symmetric, opset 10, and rounding of floats."
  },
  {
   "property": "C73",
   "status": "partial",
   "theorems": [
    "C73_deform_conv_partial",
    "C73_deform_type",
    "C73_deform_refused"
   ],
   "note": "Proved for symmetric padding, any groups, offset groups, strides, dilations, with or without bias and mask, for any interpolation; the inferred type is proved to fit. Missing: asymmetric padding (not modelled in Burn's module), rounding; computed weights are refused."
  },
  {
   "property": "C74",
   "status": "partial",
   "theorems": [
    "C74_random_partial",
    "C74_random_like_partial",
    "C74_bernoulli_partial",
    "C74_grid_sample_partial",
    "C74_random_double_refuted",
    "C74_random_like_type_refuted",
    "C74_random_like_cast_refuted",
    "C74_bernoulli_type_refuted",
    "C74_grid_volume_refuted",
    "C74_size_refuted"
   ],
   "note": "Proved for each operator where the element type is one the code makes; refuted for double RandomNormal, Like forms whose dtype is left out or differs, Bernoulli with other element types, GridSample of volumes and Size. Missing: seed."
  },
  {
   "property": "C75",
   "status": "proved",
   "theorems": [
    "C75_signature",
    "C75_arguments",
    "C75_results",
    "C75_element_type_refuted",
    "C75_declared_type_refuted"
   ],
   "note": "For every graph whose nodes agree with it about the types of its inputs: C75_signature reads the emitted text back, C75_arguments and C75_results run the conversions around the nodes for all values. Refuted beyond the property: C75_element_type_refuted (f32 and f64 tensors have the same Rust type), C75_declared_type_refuted (without agreement the last node decides)."
  },
  {
   "property": "C76",
   "status": "partial",
   "theorems": [
    "C76_code_is_for_the_operator",
    "C76_names_unambiguous",
    "C76_case_is_ignored",
    "C76_unknown_refused",
    "C76_accepted_has_code_partial",
    "C76_accepted_has_code_refuted",
    "C76_unregistered_refused",
    "C76_foreign_domain_refuted",
    "C76_internal_name_refuted"
   ],
   "note": "Proved for all names: code is for the operator, names are unambiguous, unknown and unregistered names stop the import, accepted operators other than three have code. Refuted: GlobalMaxPool, Scatter and Unique are accepted without code (C76_accepted_has_code_refuted), the domain of a node is not read (C76_foreign_domain_refuted), internal names are accepted as operators (C76_internal_name_refuted)."
  },
  {
   "property": "C77",
   "status": "partial",
   "theorems": [
    "C77_same_arguments",
    "C77_static_kept",
    "C77_static_attached",
    "C77_constant_partial",
    "C77_outer_constant_lost",
    "C77_ends",
    "C77_idempotent",
    "C77_constant_refuted"
   ],
   "note": "Full for numbered (static) data, for constants of the graph itself and for idempotence; the full statement about named constants is refuted (C77_constant_refuted, C77_outer_constant_lost)."
  },
  {
   "property": "C78",
   "status": "partial",
   "theorems": [
    "C78_names_partial",
    "C78_store_names",
    "C78_deterministic",
    "C78_increasing",
    "C78_no_clash",
    "C78_no_panic",
    "C78_pool_refused",
    "C78_names_refuted"
   ],
   "note": "Everything but two names: the generated code names the crates alloc and half, which no line brings in (C78_names_refuted). C78_pool_refused: the graphs C78_no_panic leaves out are refused."
  },
  {
   "property": "C79",
   "status": "partial",
   "theorems": [
    "C79_integers",
    "C79_arrays",
    "C79_constants",
    "C79_attributes_partial",
    "C79_attributes_refuted",
    "C79_paddings",
    "C79_padding_refusals"
   ],
   "note": "Integers, arrays, paddings and scalar constants in full; attributes, Clip bounds and Pad fills for finite numbers only, refuted for the others (C79_attributes_refuted)."
  },
  {
   "property": "C80",
   "status": "partial",
   "theorems": [
    "C80_graph_refused",
    "C80_graph_partial",
    "C80_exact",
    "C80_captures",
    "C80_documented_partial",
    "C80_left_out_refused",
    "C80_documented_refuted",
    "C80_wrong_refused_partial",
    "C80_error"
   ],
   "note": "The check is exact for any specification (C80_exact, C80_error) and captured values do not count (C80_captures). Every node the standard allows passes except the ones in left_out (C80_documented_partial), all of which are refused (C80_left_out_refused), so the promise of the documentation is false in full (C80_documented_refuted: Max of three values). Wrong nodes are refused for the operators listed as strict (C80_wrong_refused_partial); the specifications of the others are wider than the standard. For whole graphs: C80_graph_refused, C80_graph_partial."
  },
  {
   "property": "C81",
   "status": "partial",
   "theorems": [
    "C81_absolute",
    "C81_script",
    "C81_script_place",
    "C81_cli_place",
    "C81_relative_partial",
    "C81_moved_refuted",
    "C81_embedded_refuted",
    "C81_no_panic"
   ],
   "note": "True in build scripts and for absolute output directories, in both modes (C81_script, C81_absolute), with the source where the documentation says (C81_script_place). For a relative directory only in the generator's working directory (C81_relative_partial), exactly there (C81_moved_refuted); embedding from a relative directory finds the file only if the directory is the working directory itself (C81_embedded_refuted)."
  },
  {
   "property": "C82",
   "status": "proved",
   "theorems": [
    "C82_outputs",
    "C82_inputs",
    "C82_shared_name"
   ],
   "note": "For every processor, settled or not. C82_inputs asks that outputs of the same name have the same type; C82_shared_name does without it."
  },
  {
   "property": "C83",
   "status": "partial",
   "theorems": [
    "C83_one_axis_partial",
    "C83_more_axes_fail",
    "C83_bool_half_fail",
    "C83_large_fail",
    "C83_refuted"
   ],
   "note": "One axis, all numbers but half precision, integers below 2^63. The full statement is refuted: with two or more axes the data has shape [1] and the tensor another rank, so the program panics (C83_more_axes_fail); booleans are compared with 0 and half precision numbers cast, which does not compile (C83_bool_half_fail); u64 from 2^63 on pass through i64 (C83_large_fail)."
  },
  {
   "property": "C84",
   "status": "partial",
   "theorems": [
    "C84_native_partial",
    "C84_accepted",
    "C84_refuted"
   ],
   "note": "Native scalars, all shapes of rank one or more; import accepts both kinds (C84_accepted). Refuted for a scalar kept on the device: is_scalar holds of it too, and the code puts the tensor itself into TensorData::from, which does not compile."
  },
  {
   "property": "C85",
   "status": "partial",
   "theorems": [
    "C85_short_partial",
    "C85_long_fail",
    "C85_refuted"
   ],
   "note": "Shapes [], [1] and [-1]: the scalar stays a native number. Refuted for two or more dimensions: the data has shape [1] and the tensor another rank, so the program panics (C85_long_fail). Shapes known only at run time are not modelled."
  }
 ]
}