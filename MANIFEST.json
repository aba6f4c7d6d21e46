{
 "claims": [
  {
   "property": "C01",
   "status": "proved",
   "theorems": [
    "C01_flat_index_bijection",
    "C01_constructed"
   ],
   "note": "Every well-formed tensor of any scalar type, both builds; C01_constructed shows Tensor::new returns such tensors."
  },
  {
   "property": "C02",
   "status": "proved",
   "theorems": [
    "C02_write_history",
    "C02_fits_index"
   ],
   "note": "Any history of set_item/fill_with_value, induction over the history; reads compared with a separately defined map of last writes."
  },
  {
   "property": "C03",
   "status": "partial",
   "theorems": [
    "C03_history_partial",
    "C03_from_nothing_partial",
    "C03_outgoing_gradient_refuted",
    "C03_extent_edge_refuted",
    "C03_raw_index_refuted"
   ],
   "note": "The full statement is false of the code; C03_outgoing_gradient_refuted, C03_extent_edge_refuted and C03_raw_index_refuted are the counterexamples. C03_history_partial covers every public tensor operation in any order, with exactly the extra conditions of `legal` (SpecOps.v). File operations are in C38-C40."
  },
  {
   "property": "C04",
   "status": "partial",
   "theorems": [
    "C04_debug",
    "C04_release_exact_partial",
    "C04_release_refuted"
   ],
   "note": "Debug half proved in full (C04_debug). Release half is false: C04_release_refuted; C04_release_exact_partial says exactly which shapes are readable."
  },
  {
   "property": "C05",
   "status": "proved",
   "theorems": [
    "C05_add",
    "C05_add_to_self",
    "C05_multiply_elementwise",
    "C05_multiply_elementwise_self",
    "C05_scale",
    "C05_scale_self",
    "C05_mismatch_unchanged"
   ],
   "note": "All six operations, any scalar type; mismatching shapes leave the destination equal."
  },
  {
   "property": "C06",
   "status": "proved",
   "theorems": [
    "C06_fill_with_vec"
   ],
   "note": "Both directions, both builds."
  },
  {
   "property": "C07",
   "status": "proved",
   "theorems": [
    "C07_transpose",
    "C07_transpose_involution"
   ],
   "note": "Value, acceptance condition, involution and unchanged output on Err."
  },
  {
   "property": "C08",
   "status": "proved",
   "theorems": [
    "C08_matrix_multiply"
   ],
   "note": "Any scalar type, sum in loop order; unchanged on mismatch; no panic."
  },
  {
   "property": "C09",
   "status": "proved",
   "theorems": [
    "C09_transpose_first",
    "C09_transpose_second"
   ],
   "note": "Both variants, for any scalar type, including the Err cases."
  },
  {
   "property": "C10",
   "status": "proved",
   "theorems": [
    "C10_fused_equals_unfused",
    "C10_mismatch_unchanged"
   ],
   "note": "f32 (Flocq binary32) with arbitrary NaN payload choice and arbitrary zero on ties of max."
  },
  {
   "property": "C11",
   "status": "proved",
   "theorems": [
    "C11_scatter_add"
   ],
   "note": "Any scalar type; both Ok and Err cases."
  },
  {
   "property": "C12",
   "status": "partial",
   "theorems": [
    "C12_debug_accepts",
    "C12_no_tiling_is_rejected",
    "C12_panics_partial",
    "C12_panics_refuted",
    "C12_release_exact_partial",
    "C12_release_refuted"
   ],
   "note": "Debug acceptance is an iff. Two parts are false: debug builds also panic when the tile count overflows (C12_panics_refuted) and release builds accept wrapped extents (C12_release_refuted); the exact conditions are proved."
  },
  {
   "property": "C13",
   "status": "proved",
   "theorems": [
    "C13_convolution_bias",
    "C13_no_panic"
   ],
   "note": "Any scalar type; frame condition on other channels, Err leaves the result unchanged, no panic when the kernel fits."
  },
  {
   "property": "C14",
   "status": "proved",
   "theorems": [
    "C14_convolution_bias_relu"
   ],
   "note": "f32, arbitrary NaN payload choice and zero ties."
  },
  {
   "property": "C15",
   "status": "partial",
   "theorems": [
    "C15_debug_kernel_partial",
    "C15_debug_convolutional_partial",
    "C15_debug_convolutional_state_partial",
    "C15_debug_max_pool_partial",
    "C15_release_exact_partial",
    "C15_release_refuted"
   ],
   "note": "Holds in debug builds (kernel check, ConvolutionalLayer::new, fill_from_state, MaxPoolLayer::new). False in release builds: C15_release_refuted, with the exact acceptance condition in C15_release_exact_partial."
  },
  {
   "property": "C16",
   "status": "partial",
   "theorems": [
    "C16_outgoing_gradient_partial",
    "C16_stride_refuted",
    "C16_truncated_refuted",
    "C16_panic_refuted",
    "C16_gradient_partial",
    "C16_visited_partial",
    "C16_first_window_refuted",
    "C16_exactly_when"
   ],
   "note": "The code does not compute the adjoint at strides above 1 (C16_first_window_refuted, C16_stride_refuted), drops windows beyond the kernel extent (C16_truncated_refuted) and panics when the kernel is larger than the gradient (C16_panic_refuted). C16_visited_partial gives the exact value at every stride; C16_exactly_when: no covering window is skipped along an axis iff the stride is 1 and there are no more windows than the kernel is long; C16_outgoing_gradient_partial is the adjoint at stride 1 with equal extents, C16_gradient_partial the gradient over the reals."
  },
  {
   "property": "C17",
   "status": "partial",
   "theorems": [
    "C17_kernel_gradient_exact_partial",
    "C17_kernel_gradient_one_channel_partial",
    "C17_channels_refuted",
    "C17_gradient_partial"
   ],
   "note": "The code sums over all channels of the incoming gradient whatever the channel argument (exact value proved for all inputs); the property holds with one channel (over the reals it is the gradient, at every stride: C17_gradient_partial) and is refuted with two."
  },
  {
   "property": "C18",
   "status": "partial",
   "theorems": [
    "C18_window_maximum",
    "C18_debug_unchanged",
    "C18_unchanged_partial",
    "C18_release_refuted"
   ],
   "note": "Window maximum and debug behaviour proved; release builds overwrite the result for oversized masks (C18_release_refuted)."
  },
  {
   "property": "C19",
   "status": "proved",
   "theorems": [
    "C19_track_origin",
    "C19_rejects"
   ],
   "note": "f32 argmax characterisation; Err leaves both outputs unchanged."
  },
  {
   "property": "C20",
   "status": "partial",
   "theorems": [
    "C20_routing",
    "C20_conserves",
    "C20_true_gradient",
    "C20_no_maximum_refuted"
   ],
   "note": "Routing, conservation and true gradient proved for windows with a maximum above -inf; a window of NaN/-inf sends its gradient to position 0 (C20_no_maximum_refuted)."
  },
  {
   "property": "C21",
   "status": "proved",
   "theorems": [
    "C21_value",
    "C21_mismatch_unchanged",
    "C21_exact_distribution",
    "C21_f32_unit_interval"
   ],
   "note": "exp is an arbitrary function in f32 with non-negative results where needed; exact distribution over the reals."
  },
  {
   "property": "C22",
   "status": "partial",
   "theorems": [
    "C22_column_partial",
    "C22_formula_partial",
    "C22_other_shapes_fail_partial",
    "C22_all_shapes_refuted"
   ],
   "note": "Proved for column vectors (n,1,1); for every other shape backward returns Err (C22_other_shapes_fail_partial), which refutes the statement for all accepted shapes."
  },
  {
   "property": "C23",
   "status": "proved",
   "theorems": [
    "C23_relu_mask",
    "C23_output_range"
   ],
   "note": "f32, NaN included."
  },
  {
   "property": "C24",
   "status": "proved",
   "theorems": [
    "C24_forward",
    "C24_same_in_both_modes",
    "C24_accepted",
    "C24_switched"
   ],
   "note": "f32 with arbitrary NaN payloads and max ties; both modes; layers from new, fill_from_state and mode switches."
  },
  {
   "property": "C25",
   "status": "proved",
   "theorems": [
    "C25_true_gradients"
   ],
   "note": "Derivatives along arbitrary differentiable curves of input, weights and bias (reals)."
  },
  {
   "property": "C26",
   "status": "partial",
   "theorems": [
    "C26_fully_connected_partial",
    "C26_convolutional_last_pair_partial",
    "C26_convolutional_clear_partial",
    "C26_convolutional_refuted"
   ],
   "note": "Proved for fully connected layers over arbitrary histories. Convolutional layers overwrite kernel gradients and never compute bias gradients (C26_convolutional_refuted); the exact behaviour is proved."
  },
  {
   "property": "C27",
   "status": "partial",
   "theorems": [
    "C27_all_but_fully_connected_partial",
    "C27_fully_connected_refuted"
   ],
   "note": "Proved for all layer kinds but fully connected ones, where a second backward multiplies by the gradient again (C27_fully_connected_refuted)."
  },
  {
   "property": "C28",
   "status": "proved",
   "theorems": [
    "C28_forward",
    "C28_same_in_both_modes",
    "C28_accepted",
    "C28_switched"
   ],
   "note": "f32; both modes; accepted layers and mode switches."
  },
  {
   "property": "C29",
   "status": "partial",
   "theorems": [
    "C29_mask_ignored_partial",
    "C29_refuted",
    "C29_unclipped_partial",
    "C29_input_gradient_partial",
    "C29_kernel_gradient_partial"
   ],
   "note": "The code ignores the relu mask (C29_mask_ignored_partial, C29_refuted); where nothing is clipped the outgoing gradient is the true one in the C16 range (C29_input_gradient_partial), and so is the kernel gradient with a single filter at any stride (C29_kernel_gradient_partial)."
  },
  {
   "property": "C30",
   "status": "proved",
   "theorems": [
    "C30_forward",
    "C30_same_in_both_modes",
    "C30_accepted",
    "C30_switched"
   ],
   "note": "Any scalar type."
  },
  {
   "property": "C31",
   "status": "proved",
   "theorems": [
    "C31_structure_invariant"
   ],
   "note": "Invariant over all histories of network operations including load."
  },
  {
   "property": "C32",
   "status": "proved",
   "theorems": [
    "C32_accepts_exactly",
    "C32_no_panic"
   ],
   "note": "Iff, state unchanged on Err, no panic for layers that are well-formed."
  },
  {
   "property": "C33",
   "status": "proved",
   "theorems": [
    "C33_composition",
    "C33_history_independent"
   ],
   "note": "f32; refinement to a pure composition; independent of history and mode."
  },
  {
   "property": "C34",
   "status": "proved",
   "theorems": [
    "C34_rejects",
    "C34_exactly"
   ],
   "note": "Iff, and no panic on networks built by the API."
  },
  {
   "property": "C35",
   "status": "partial",
   "theorems": [
    "C35_training",
    "C35_created",
    "C35_inference_partial",
    "C35_inference_refuted"
   ],
   "note": "switch_to_inference sets the network's own state to Training (C35_inference_refuted); all other parts proved."
  },
  {
   "property": "C36",
   "status": "partial",
   "theorems": [
    "C36_inference_rejected",
    "C36_no_panic_partial",
    "C36_switched_refuted",
    "C36_conv_refuted"
   ],
   "note": "Rejection outside training mode proved. backward panics on a network switched back to inference mode (C36_switched_refuted) and with a convolution whose kernel exceeds its output (C36_conv_refuted); otherwise, convolutions included, it does not panic."
  },
  {
   "property": "C37",
   "status": "proved",
   "theorems": [
    "C37_chain_rule"
   ],
   "note": "Reals; convolutions only where C29 holds (backs_exactly, smooth); derivative along arbitrary differentiable curves; induction over the layers."
  },
  {
   "property": "C38",
   "status": "proved",
   "theorems": [
    "C38_tensor_round_trip"
   ],
   "note": "Bit patterns and strides, every typed tensor."
  },
  {
   "property": "C39",
   "status": "proved",
   "theorems": [
    "C39_truncated",
    "C39_extended"
   ],
   "note": "Every strict prefix; trailing bytes ignored as by bincode::deserialize_from on a buffered file."
  },
  {
   "property": "C40",
   "status": "partial",
   "theorems": [
    "C40_well_formed_refuted",
    "C40_well_formed_partial"
   ],
   "note": "from_file validates nothing (C40_well_formed_refuted); exact condition proved as an iff."
  },
  {
   "property": "C41",
   "status": "proved",
   "theorems": [
    "C41_network_round_trip"
   ],
   "note": "Arbitrary hash-map order, both builds, both run states; layers the API can store (storable)."
  },
  {
   "property": "C42",
   "status": "proved",
   "theorems": [
    "C42_truncated"
   ],
   "note": "Every strict prefix of a saved network."
  },
  {
   "property": "C43",
   "status": "partial",
   "theorems": [
    "C43_atomic_refuted",
    "C43_saved_atomic_partial",
    "C43_prefix_partial",
    "C43_undecodable_partial",
    "C43_exactly_partial"
   ],
   "note": "A file with an incompatible second layer leaves the first one loaded (C43_atomic_refuted). Saved files are loaded whole or not at all; for any bytes the old layers are kept; C43_exactly_partial says what is loaded after any failure."
  },
  {
   "property": "C44",
   "status": "partial",
   "theorems": [
    "C44_no_panic_refuted",
    "C44_no_panic_partial",
    "C44_release_exactly_partial",
    "C44_debug_panics_partial"
   ],
   "note": "Corrupt inner bytes hit unwrap (C44_no_panic_refuted); no panic for files whose entries decode and have usable shapes. C44_release_exactly_partial is the exact condition for a panic in release builds; debug builds panic on those files too."
  },
  {
   "property": "C45",
   "status": "proved",
   "theorems": [
    "C45_symmetric",
    "C45_transitive",
    "C45_reflexive_iff_no_nan",
    "C45_items",
    "C45_ignores_strides",
    "C45_not_equal"
   ],
   "note": "f32 comparison including NaN and signed zero."
  },
  {
   "property": "C46",
   "status": "partial",
   "theorems": [
    "C46_new_partial",
    "C46_no_outputs_refuted",
    "C46_no_inputs_refuted"
   ],
   "note": "False for zero outputs (panic) and zero inputs (one input); proved otherwise for sizes whose product fits in u32 (beyond, debug builds panic and release builds wrap, C04)."
  },
  {
   "property": "C47",
   "status": "partial",
   "theorems": [
    "C47_forward_partial",
    "C47_refuted",
    "C47_exactly_partial"
   ],
   "note": "fill_from_state does not check the bias count, bias shape, kernel depth or (release) kernel extent, nor reset a training-mode mask (C47_refuted, five cases); proved with those conditions, which C47_exactly_partial shows to be necessary."
  },
  {
   "property": "C48",
   "status": "proved",
   "theorems": [
    "C48_f32_not_negative",
    "C48_norm",
    "C48_zero_iff",
    "C48_homogeneous"
   ],
   "note": "Reals for the norm laws; f32 for non-negativity."
  },
  {
   "property": "C49",
   "status": "proved",
   "theorems": [
    "C49_associative",
    "C49_distributes",
    "C49_distributes_right",
    "C49_transpose"
   ],
   "note": "Reals."
  },
  {
   "property": "C50",
   "status": "proved",
   "theorems": [
    "C50_additive_in_image",
    "C50_additive_in_kernel",
    "C50_homogeneous",
    "C50_shift_covariant"
   ],
   "note": "Reals; shift covariance for any scalar type."
  },
  {
   "property": "C51",
   "status": "proved",
   "theorems": [
    "C51_uniform",
    "C51_values",
    "C51_gaussian"
   ],
   "note": "Uniform: rand 0.8.5's UniformFloat<f32> is modelled from its documented algorithm over arbitrary generator words. Gaussian: the sampler is an arbitrary stream."
  },
  {
   "property": "C52",
   "status": "partial",
   "theorems": [
    "C52_layer_round_trip_partial",
    "C52_other_kind",
    "C52_layer_round_trip_refuted"
   ],
   "note": "Fails only for convolutional layers without kernels (C52_layer_round_trip_refuted) and tensors no API call produces; proved for storable layers."
  },
  {
   "property": "C53",
   "status": "proved",
   "theorems": [
    "C53_matrix_multiply"
   ],
   "note": "Flocq; n products, underflow term included, no overflow (finite result)."
  },
  {
   "property": "C54",
   "status": "proved",
   "theorems": [
    "C54_parameters_kept",
    "C54_same_file"
   ],
   "note": "Over all network operations; the saved bytes are equal."
  },
  {
   "property": "C55",
   "status": "proved",
   "theorems": [
    "C55_intermediate_states",
    "C55_output_is_last"
   ],
   "note": "Iff over all reachable networks."
  },
  {
   "property": "C56",
   "status": "proved",
   "theorems": [
    "C56_convolution",
    "C56_fully_connected"
   ],
   "note": "Flocq; finite results."
  },
  {
   "property": "C57",
   "status": "proved",
   "theorems": [
    "C57_parameter_gradients"
   ],
   "note": "Reals; parameter gradients of every fully connected layer in a network of fully connected, max-pool and softmax layers and the convolutions of C37."
  },
  {
   "property": "C58",
   "status": "proved",
   "theorems": [
    "C58_tensor_history",
    "C58_answers",
    "C58_constructors",
    "C58_layer",
    "C58_network_operation",
    "C58_reachable"
   ],
   "note": "Any scalar type; step by step refinement of every modelled function, loaders included. The converse fails where a debug build panics on overflow (C04, C13)."
  },
  {
   "property": "C59",
   "status": "proved",
   "theorems": [
    "C59_batch_gradients"
   ],
   "note": "Reals; induction over the batch on top of C57; fully connected layers' parameters."
  },
  {
   "property": "C60",
   "status": "proved",
   "theorems": [
    "C60_states_are_prefixes",
    "C60_backward_keeps_states"
   ],
   "note": "f32; the composition of C33 for every prefix."
  },
  {
   "property": "C61",
   "status": "proved",
   "theorems": [
    "C61_joined"
   ],
   "note": "f32, both builds, arbitrary hash-map orders."
  },
  {
   "property": "C62",
   "status": "proved",
   "theorems": [
    "C62_clean_states"
   ],
   "note": "f32; invariant of every well-built network."
  },
  {
   "property": "C63",
   "status": "proved",
   "theorems": [
    "C63_order",
    "C63_shift",
    "C63_f32_order"
   ],
   "note": "Reals for strict order and shift; f32 with exp an arbitrary function that is nowhere negative and keeps the order of the inputs."
  },
  {
   "property": "C64",
   "status": "proved",
   "theorems": [
    "C64_file_determines"
   ],
   "note": "Consequence of loading being a function of the bytes; arbitrary orders on both sides."
  },
  {
   "property": "C65",
   "status": "proved",
   "theorems": [
    "C65_network_error"
   ],
   "note": "Flocq against the real instance; the accuracy of exp is a hypothesis (softmax only), overflow is excluded by an explicit size condition per layer."
  },
  {
   "property": "C66",
   "status": "proved",
   "theorems": [
    "C66_exact",
    "C66_float"
   ],
   "note": "Gains are sums of absolute weights per output, multiplied over the layers; softmax is a half-contraction in the largest-element norm (proved). The f32 form combines this with C65 and inherits its size and exp hypotheses."
  },
  {
   "property": "C67",
   "status": "partial",
   "theorems": [
    "C67_refused_partial",
    "C67_max_pool_refuted",
    "C67_convolutional_refuted"
   ],
   "note": "Holds for fully connected and softmax layers; refuted for max-pool (Ok with a gradient of zeros) and convolutional layers (panic), on all operands."
  },
  {
   "property": "C68",
   "status": "proved",
   "theorems": [
    "C68_switch",
    "C68_forgets",
    "C68_clear",
    "C68_network_training",
    "C68_network_inference",
    "C68_network_forgets"
   ],
   "note": "Both builds; networks over f32. A convolutional layer's clear_gradients keeps bias gradients and mask, as stated in C68_clear."
  },
  {
   "property": "C69",
   "status": "proved",
   "theorems": [
    "C69_convolutional",
    "C69_convolutional_exact",
    "C69_max_pool",
    "C69_max_pool_exact",
    "C69_softmax",
    "C69_fill"
   ],
   "note": "The exact conditions are stated for debug builds (u32 overflow panics); acceptance for both builds. Fully connected construction is C46."
  },
  {
   "property": "C70",
   "status": "proved",
   "theorems": [
    "C70_same_bits"
   ],
   "note": "f32 bits; the exact order of summation of both loops."
  },
  {
   "property": "C71",
   "status": "proved",
   "theorems": [
    "C71_monotone"
   ],
   "note": "f32; rounding is monotone, infinities included. Overflow before the last layer is excluded as a hypothesis; C71_overflow shows it is needed."
  },
  {
   "property": "C72",
   "status": "proved",
   "theorems": [
    "C72_network_size",
    "C72_tensor_size",
    "C72_saved_again",
    "C72_other_files",
    "C72_own_file"
   ],
   "note": "Any type with four-byte elements for sizes; f32 for saving a loaded network. The file system is the model's map from names to bytes."
  },
  {
   "property": "C73",
   "status": "proved",
   "theorems": [
    "C73_fully_connected",
    "C73_outgoing",
    "C73_kernels"
   ],
   "note": "Flocq; gradients of the code's own formula (for convolutional layers without the relu mask, C29), finite results."
  },
  {
   "property": "C74",
   "status": "proved",
   "theorems": [
    "C74_exact",
    "C74_rounded"
   ],
   "note": "Reals for equality, f32 for the distance; C74_case shows that f32 bits do depend on the order."
  },
  {
   "property": "C75",
   "status": "proved",
   "theorems": [
    "C75_receptive_field"
   ],
   "note": "f32 bits; also any two images of different sizes. Fully connected and softmax layers see everything and are excluded."
  },
  {
   "property": "C76",
   "status": "partial",
   "theorems": [
    "C76_exact",
    "C76_rounded_partial",
    "C76_overflow_refuted"
   ],
   "note": "Reals: full. f32: false when an exponential overflows (NaN, C76_overflow_refuted); proved when the sum of exponentials is finite and not zero, exp being any function that is nowhere negative."
  },
  {
   "property": "C77",
   "status": "proved",
   "theorems": [
    "C77_agrees",
    "C77_robust"
   ],
   "note": "Corollaries of C65 and C66: same hypotheses (size conditions, accuracy of exp); the margin is compared in exact arithmetic."
  },
  {
   "property": "C78",
   "status": "proved",
   "theorems": [
    "C78_relu_pool"
   ],
   "note": "f32 bits. The tensor operations of the layers; the masks are not compared, they differ in shape."
  },
  {
   "property": "C79",
   "status": "proved",
   "theorems": [
    "C79_pool_pool"
   ],
   "note": "f32; equal up to the sign of a zero maximum. With gaps between the windows (s1 > m1) the claim is about other cells."
  },
  {
   "property": "C80",
   "status": "proved",
   "theorems": [
    "C80_checkpoint",
    "C80_history_forgotten"
   ],
   "note": "f32. Gradients accumulated before the switch are dropped by it in both networks; that the switch to inference enters training mode (C30) affects both alike."
  },
  {
   "property": "C81",
   "status": "proved",
   "theorems": [
    "C81_exact"
   ],
   "note": "Exponents of the grids in [-149, 103]. Softmax is excluded, exp rounds."
  },
  {
   "property": "C82",
   "status": "proved",
   "theorems": [
    "C82_valid",
    "C82_unique",
    "C82_read",
    "C82_loaded"
   ],
   "note": "UTF-8 validity is part of the modelled dependency (String::from_utf8 behind bincode); the theorem ties it to the definition of the encoding."
  },
  {
   "property": "C83",
   "status": "partial",
   "theorems": [
    "C83_empty_partial",
    "C83_convolutional_refuted"
   ],
   "note": "Holds for fully connected, max-pool and softmax layers; ConvolutionalLayer::empty() has no kernel for its output channel and panics on every inference (refuted, all scalar types)."
  },
  {
   "property": "C84",
   "status": "proved",
   "theorems": [
    "C84_descent"
   ],
   "note": "Reals; a consequence of C59 with its hypotheses (the network is differentiable at every sample)."
  },
  {
   "property": "C85",
   "status": "proved",
   "theorems": [
    "C85_convolution",
    "C85_ignored_inputs"
   ],
   "note": "f32 bits. An infinite input with weight zero gives a NaN and output 0 (C85_infinite), so finiteness is needed."
  },
  {
   "property": "C86",
   "status": "proved",
   "theorems": [
    "C86_exact",
    "C86_true_gradient"
   ],
   "note": "The network is fresh (no gradients yet). The bounds [net_training] count the forward and backward fan of each layer; overlapping pooling windows are covered."
  },
  {
   "property": "C87",
   "status": "proved",
   "theorems": [
    "C87_gradients",
    "C87_true_gradient"
   ],
   "note": "The network is fresh (no gradients yet). The accuracy of exp is a hypothesis on the environment (exp_accurate), as in C65. Convolutions are excluded: their backward pass ignores the ReLU mask and overwrites kernel gradients (C17, C29)."
  },
  {
   "property": "C88",
   "status": "proved",
   "theorems": [
    "C88_joint_gradient",
    "C88_step"
   ],
   "note": "Over the reals (no rounding), at points where the network is differentiable, from zero gradients. Convolutions only at stride 1 with kernels of the extents of their output (C17, C29); their kernels do not move because the code computes no usable kernel gradients."
  },
  {
   "property": "C89",
   "status": "proved",
   "theorems": [
    "C89_shapes",
    "C89_equality",
    "C89_fits",
    "C89_indices",
    "C89_total_size",
    "C89_overflow",
    "C89_transpose"
   ],
   "note": "In a release build total_size wraps; C89_total_size is about shapes whose products fit in u32, C89_overflow says when a debug build panics."
  },
  {
   "property": "C90",
   "status": "partial",
   "theorems": [
    "C90_apply_gradients_partial",
    "C90_apply_gradients_refuted"
   ],
   "note": "False of the code: the trait's default body is empty and no layer overrides it (layer.rs:62). Proved: it changes nothing; the refutation is a trained layer with non-zero gradients."
  },
  {
   "property": "C91",
   "status": "proved",
   "theorems": [
    "C91_linear",
    "C91_zero"
   ],
   "note": "Over the reals (no rounding). Convolutions at any stride, as long as backward stays inside its arrays (`stays_inside`). It holds at every state, differentiable or not."
  },
  {
   "property": "C92",
   "status": "proved",
   "theorems": [
    "C92_tensor",
    "C92_resaved",
    "C92_entries"
   ],
   "note": "Assumes the new file is shorter than 2^64 bytes. The write of the new file must succeed."
  },
  {
   "property": "C93",
   "status": "proved",
   "theorems": [
    "C93_exact",
    "C93_fully_connected",
    "C93_convolution",
    "C93_float"
   ],
   "note": "Over the reals, and for f32 within the sizes of C65. Max pooling assumes its start value lies below the data."
  },
  {
   "property": "C94",
   "status": "proved",
   "theorems": [
    "C94_constant_shift"
   ],
   "note": "Over the reals. Convolutions whose kernels are larger than their output (where backward panics, C36) are excluded."
  },
  {
   "property": "C95",
   "status": "proved",
   "theorems": [
    "C95_after_any_history",
    "C95_training",
    "C95_inference",
    "C95_stable"
   ],
   "note": "Counts the elements of the vectors inside tensors and of the index vector of max pooling, not their capacity and not names."
  },
  {
   "property": "C96",
   "status": "proved",
   "theorems": [
    "C96_same_output",
    "C96_last_layer"
   ],
   "note": "C96_same_output is over the reals; f32 sums depend on the order of their terms. With max pooling in between, the stand-in for f32::NEG_INFINITY must not be positive and the masks must not be empty."
  },
  {
   "property": "C97",
   "status": "proved",
   "theorems": [
    "C97_opposite",
    "C97_from_zero",
    "C97_scaled"
   ],
   "note": "Convolutions must not have kernels larger than their output, softmax must be on a column, pooling inputs must not be empty (otherwise backward fails, C36). Stored gradients are what the code keeps: kernel gradients of the last sample, bias gradients of convolutions never written."
  },
  {
   "property": "C98",
   "status": "proved",
   "theorems": [
    "C98_idle",
    "C98_unseen"
   ],
   "note": "Equal values means equal bits, or both NaN. Zero outputs include those of pre-activations that are negative, zero or NaN."
  },
  {
   "property": "C99",
   "status": "proved",
   "theorems": [
    "C99_input",
    "C99_parameters"
   ],
   "note": "Over the reals. Smooth as in C37: no pre-activation is zero, pooling windows have unique maxima, convolutions are not clipped, have stride 1 and kernels of their output's extents. Softmax is excluded because it is not piecewise linear."
  },
  {
   "property": "C100",
   "status": "proved",
   "theorems": [
    "C100_outputs",
    "C100_gradients"
   ],
   "note": "Over the reals: in f32 the sums are taken in another order. Fully connected layers are left out because they only accept columns. Flips rely on windows tiling the image exactly, which the constructors enforce (C12). The gradients are those of C37, with its hypotheses on both networks."
  },
  {
   "property": "C101",
   "status": "proved",
   "theorems": [
    "C101_scaled",
    "C101_same_bits"
   ],
   "note": "Range is assumed where the claim needs it, in both networks: pre-activations are finite, and products of weights and inputs are zero or at least 2^-126. Sums need no assumption against underflow. Softmax is left out because exp does not scale."
  },
  {
   "property": "C102",
   "status": "proved",
   "theorems": [
    "C102_step",
    "C102_history",
    "C102_files",
    "C102_states"
   ],
   "note": "exp must return the same bits on both platforms, and NaN for NaN; Rust does not promise that for exp. powi and sqrt are used by get_norm only, which is no part of the calls."
  },
  {
   "property": "C103",
   "status": "proved",
   "theorems": [
    "C103_gradient",
    "C103_step",
    "C103_input",
    "C103_squared",
    "C103_entropy",
    "C103_softmax"
   ],
   "note": "Exact arithmetic. Convolutional layers are left out: their backward pass does not compute the gradient (C16, C17, C29)."
  },
  {
   "property": "C104",
   "status": "proved",
   "theorems": [
    "C104_gradients",
    "C104_training"
   ],
   "note": "Over the reals; in f32 a renumbering changes the order of summation. The code has no optimiser, so the gradient step is part of the statement (layer_stepped), not of the model."
  },
  {
   "property": "C105",
   "status": "proved",
   "theorems": [
    "C105_pieces"
   ],
   "note": "The code has no accessor for the gradient at a network's input; the statement reads the field intermediate_gradients. Loading files is not among the calls."
  },
  {
   "property": "C106",
   "status": "proved",
   "theorems": [
    "C106_forgotten",
    "C106_training"
   ],
   "note": "Networks without layers are left out: they answer inference with an error and keep their state."
  },
  {
   "property": "C107",
   "status": "proved",
   "theorems": [
    "C107_history",
    "C107_constructors"
   ],
   "note": "That names survive saving and loading is part of C41 and C61."
  },
  {
   "property": "C108",
   "status": "proved",
   "theorems": [
    "C108_inserted",
    "C108_behind_relu"
   ],
   "note": "Inference only; training would update the weights of the inserted layer."
  },
  {
   "property": "C109",
   "status": "proved",
   "theorems": [
    "C109_gradients",
    "C109_training",
    "C109_filled"
   ],
   "note": "Over the reals. The code has no optimiser, so the gradient step is part of the statement (layer_stepped of C104), not of the model."
  }
 ]
}