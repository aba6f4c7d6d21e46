# Formal model of rusty_network in Rocq (Coq 8.16.1)

## 1. What is modelled

Everything in `/repo/src` outside `#[cfg(test)]`, function by function, as total Gallina functions. Each definition
carries the file and lines it models.

| Rust file | Coq file |
|---|---|
| `src/tensor/helper.rs` | `Helper.v` |
| `src/tensor.rs` | `Tensor.v` |
| `src/tensor/operations/convolution.rs` | `Convolution.v` |
| `src/layer/fully_connected.rs` | `FullyConnected.v` |
| `src/layer/convolutional.rs` | `Convolutional.v` |
| `src/layer/max_pool.rs` | `MaxPool.v` |
| `src/layer/softmax.rs` | `Softmax.v` |
| `src/layer.rs`, `src/network.rs` | `Network.v` |
| bincode 1.3.3 wire format (derived serde impls) | `Bincode.v`, `Serial.v` |
| rand 0.8.5 `UniformFloat<f32>` | `Rand.v` |

* **Panics** are values: every function that can panic returns `res A := Done a | Panic p`.
* **`Result<_, &str>`** stays data (`result A := Ok a | Err msg`); a function that mutates through `&mut`
  returns the new value *also on the Err path*, so partial updates are visible.
* **u32/i32 arithmetic** is exact with an explicit build mode: `Debug` (overflow checks: panic) or `Release`
  (wrap mod 2^32). Division or remainder by zero panics in both.
* **Loops** are folds over explicit index ranges, in the code's order.
* **f32**: the code is modelled over an arbitrary record of scalar operations (`Arith F`, operations only, no
  laws). Two instances are used: `f32` = Flocq `binary32` (round to nearest even, NaN payloads kept; the payloads
  hardware produces, the zero `f32::max` returns on a tie of zeros, and `f32::exp`/`powi` are arbitrary oracles), and
  `R` (Coq reals; "exact arithmetic"). Theorems without a scalar hypothesis hold for every instance.
* `usize` is 64 bits; allocation never fails.

50 of the repository's 51 unit tests are replayed against the model in `RepoTests.v` with `vm_compute`
(`test_uniform_fill`, about the random generator, is not; C51 covers it), as evidence that the model computes what the
code computes.

### How the files fit together

| Files | Content |
|---|---|
| `Base.v`, `Arith.v`, `Float32.v`, `RealArith.v` | language layer: panics, u32/i32, loops; scalar record and its two instances |
| `Helper.v` ... `Serial.v`, `Rand.v` (table above) | the model; no proofs |
| `Spec*.v` | vocabulary of the property statements; no model function is used to define what it should compute |
| `Loops.v`, `*Facts.v`, `Layout.v`, `Net*.v`, `Real*.v`, `SerialLayer.v`, `FloatError.v` | lemmas |
| `Proofs*.v` | proofs of the properties |
| `Demo*.v` | concrete tensors, layers, networks and files for the examples |
| `Properties*.v` | the property theorems, one line each, with a concrete case and `Print Assumptions` |

## 2. Trusted base

See section 4.

## 3. Plan per property

Full texts are in `properties.jsonl`.  "Refuted" means the unchanged code violates the property as stated; then we
prove a `_refuted` witness and a `_partial` theorem with the exact guard under which it does hold.

- C01 pure arithmetic over N: injectivity + explicit inverse (div/mod).
- C02 refinement of a history of writes to a function index -> value.
- C03 invariant `wf` over a pool of tensors and an operation datatype covering the public tensor API; refuted for the
  outgoing convolution gradient, the tile count overflow and the raw index; partial with the conditions of `legal`.
- C04 debug: exact panic condition; release: refuted by 65536x65536x1.
- C05, C06, C07, C08, C09, C11 functional specification over arbitrary scalars.
- C10, C14, C24, C28 Flocq: running sums started at +0.0 are never -0.0, so `max` ties never matter.
- C12, C15 arithmetic; C15 refuted in release builds.
- C13 functional specification + frame condition.
- C16, C17 exact characterisation of the index ranges visited; refuted + partial.
- C18, C19 functional specification; argmax characterisation in f32.
- C20, C22, C25, C37, C57 real-number instance; derivatives along arbitrary differentiable curves (stdlib
  `derivable_pt_lim`). C20 refuted for windows without a maximum, C22 for shapes other than columns.
- C21 real instance for the distribution; Flocq for the [0,1] range. In f32, `exp` is an arbitrary function whose
  results are assumed not negative where the property needs it.
- C23 Flocq.
- C26, C27, C29 functional; the convolutional halves of C26 and C29 and the fully connected half of C27 are refuted.
- C30 generic.
- C31, C32, C34, C35, C36, C54, C55 invariants over histories of network operations; C35/C36 refuted for
  `switch_to_inference` (it sets the state to Training).
- C33 refinement of `infer` to a pure composition of layer functions.
- C38, C39, C41, C42, C52 codec round trip and prefix-rejection for the bincode format; hash-map order arbitrary.
- C40, C43, C44 refuted by concrete byte strings.
- C45 Flocq comparison.
- C46, C47 arithmetic and case analysis; refuted for size 0 / missing biases.
- C48, C49, C50 real instance.
- C51 rand's uniform distribution over arbitrary generator words, with the loop of its constructor; gaussian values as
  an arbitrary stream.
- C53, C56 Flocq error analysis.
- C58 simulation of the release build by the debug build, function by function.
- C59 induction over the batch on top of C57.
- C60, C62 invariants of the intermediate states on top of C33; C61, C64 on top of C33 and C41.
- C63 real instance; Flocq for monotonicity of the rounded division.
- C65 Flocq error analysis lifted from single operations (C53, C56) to layers and by induction to networks.
- C66 Lipschitz constants per layer, multiplied by induction over the layers; f32 by the triangle inequality with C65.
- C67 direct computation on each layer kind; general refutations for the two kinds that do not look at their mode.
- C68 normal forms of the switch functions per layer, lifted over the layer list.
- C69 division facts of `tiles` against the u32 arithmetic of the constructors.
- C70 both loops reduced to one sum over cells in storage order; commuted products are the same bits up to NaN payload, which relu removes.
- C71 rounding is monotone on f32 extended by infinities (`rank`), so sums of products of non-negative numbers, relu and max keep the order; induction over layers.
- C72 lengths of the encoding by structural recursion, the hash-map order being a permutation; loading is a left inverse of saving, so saving again is the identity on bytes.
- C73 the accumulated gradient is a fold over the batch; the fold's error is bounded as in C53, masks being those of the f32 pre-activation.
- C74 permutation invariance of real sums; in f32 the triangle inequality around the common exact sum of C73.
- C75 one layer maps a window to a window; induction over the layers with the stride product and the extent as the invariant, for two networks at once.
- C76 C60 gives the values before the last layer, then C63 and the sum of rounded quotients.
- C77 C65 and C66, and f32 comparison of finite values is comparison of reals.
- C78 relu is monotone on the running maximum and sends NaN and -infinity to 0; windows are not empty.
- C79 the windows of windows cover exactly the large window if there are no gaps; the maximum of maxima is the maximum.
- C80 switching rebuilds all buffers from the parameters, and the next inference overwrites the rest (induction over the layers).
- C81 sums of multiples of 2^g that are below 2^(24+g) are f32 values, so every correctly rounded operation is exact; then as C65.
- C82 arithmetic on the six-bit groups in both directions; loading by inversion of every loader.
- C83 computing the model on the empty layers with symbolic input.
- C84 C59 along the line of steps; the derivative is minus the sum of squares.
- C85 adding a zero does not change a sum that is not -0, and sums never are; the cells under a window are a sublist of the image's.
- C86 the f32 and the real network run in lockstep; each level carries a grid and a bound for values and for gradients, and a pooling window has the same winner in both.
- C87 the f32 and the real network run in lockstep; a span carries a bound and an error for values and for gradients. The accumulated gradients are tracked as partial sums with a relative error of (1+u)^k - 1. Away from the kinks both runs take the same branch of every ReLU and every pooling window.
- C88 C59 and C84 move one layer; here all move. A forward induction over the layers carries the curve of the intermediate state and the derivative of the remaining loss; the backward pass's gradient at each boundary and uniqueness of derivatives give the sum.
- C89 the small functions of helper.rs against the triples that are in range.
- C90 refuted: apply_gradients does nothing.
- C91 The closed forms of the layers' backward passes are sums of products with the incoming gradient; three runs of the loop over the layers are carried in step.
- C92 What the decoders return fits its types, so what a load accepted is encoded and decoded again without loss; a layer's load depends on its entries only through the last value of each key.
- C93 W x + b - (W' x' + b') = W (x - x') + (W - W') x' + (b - b'), carried through the layers together with a bound on the second network's values; relu, max and softmax as in C66.
- C94 the softmax outputs are positive and sum to 1, so y_i g_i - y_i sum(y g) is unchanged by a constant and determines g up to one; the remaining loop of backward reads nothing behind that boundary.
- C95 every operation keeps the layout of its destination, every switch allocates fresh buffers (C67), and the gradients are an end of the boundaries by induction over the history.
- C96 relu and maxima of non-negative values commute with positive factors, and a sum over all units does not depend on their order; layers in front and behind compute the same because `computes` is a function.
- C97 a relation on values preserved by addition and by multiplication with equal factors is preserved by forward and backward passes of two networks in step; rounding to nearest even is odd, so `opposite` is such a relation for f32.
- C98 the mask of a silent unit is +0.0, so its masked gradient is a zero and its products are zeros; partial sums started at +0.0 are never -0.0 and absorb zeros of either sign (C85). The layers around it run in step (C97).
- C99 close to a smooth point every layer but softmax moves cells evenly along lines (`straight`), which composes; an even function of one variable equals its tangent, and C37 and C57 give the tangent.
- C100 each reflection permutes the cells of a shape, so sums and maxima over turned windows are over the same values; gradients follow from C37 because a gradient is unique.
- C101 rounding commutes with powers of two for normal numbers, and small sums of f32 numbers are exact; so every operation of a layer commutes with the scaling.
- C102 a free theorem: every function of the model maps related states to related outcomes, panics and errors included, for any relation the scalar operations respect. The one use of max is safe because sums that start at +0.0 are never -0.0.
- C103 C88 for losses that need not be linear: the output of the moving network is a differentiable curve (its components come from C88 with unit gradients), and the chain rule of the loss applied to it gives the same number as C88.
- C104 Training commutes with renumbering and rescaling units: SpecRelabel (views of layer boundaries), ProofsRelabel (two networks in lockstep, batches, steps).
- C105 A network may be run in two pieces: SpecPieces (calls on two networks, what it means that they hold one network), ProofsPieces (the loops over layers split at any index).
- C106 Evaluations leave no trace in a training run: SpecTrace (runs with evaluations, layers equal but for masks and origins), ProofsTrace (a forward pass overwrites whatever an earlier one noted).
- C107 Names are only labels: SpecLabel (the same layer under another name), ProofsLabel (the lock-step lemmas of ProofsFree with equality on all fields but names).
- C108 Layers that do nothing: SpecNeutral (identity layers and the values they return unchanged), ProofsNeutral (binary32 sums with one term 1*v and zeros otherwise).
- C109 Equal units stay equal: SpecTwins, ProofsTwins (a network with equal units is itself with the two exchanged, so C104 relates its training to itself).

## 4. Trusted base

1. **Coq 8.16.1's kernel** (including `vm_compute`), the standard library and Flocq 4.1.0 as libraries of checked
   proofs. No axiom, parameter, functor, module type or kernel switch of our own.
2. **Axioms**, all from the standard library, as listed by `Print Assumptions`:

* No axioms ("Closed under the global context"): 123 theorems

  C01_flat_index_bijection, C01_constructed, C02_write_history, C02_fits_index, C04_debug,
  C04_release_exact_partial, C05_add, C05_add_to_self, C05_multiply_elementwise, C05_multiply_elementwise_self,
  C05_scale, C05_scale_self, C05_mismatch_unchanged, C06_fill_with_vec, C07_transpose, C07_transpose_involution,
  C08_matrix_multiply, C09_transpose_first, C09_transpose_second, C11_scatter_add, C12_debug_accepts,
  C12_no_tiling_is_rejected, C12_panics_partial, C12_panics_refuted, C12_release_exact_partial, C12_release_refuted,
  C13_convolution_bias, C13_no_panic, C15_debug_kernel_partial, C15_debug_convolutional_partial,
  C15_debug_convolutional_state_partial, C15_debug_max_pool_partial, C15_release_exact_partial,
  C16_outgoing_gradient_partial, C17_kernel_gradient_exact_partial, C17_kernel_gradient_one_channel_partial,
  C18_debug_unchanged, C18_unchanged_partial, C19_rejects, C10_mismatch_unchanged, C45_items, C45_ignores_strides,
  C31_structure_invariant, C32_accepts_exactly, C34_rejects, C35_training, C35_created, C35_inference_partial,
  C36_inference_rejected, C54_parameters_kept, C54_same_file, C55_intermediate_states, C55_output_is_last,
  C43_prefix_partial, C44_no_panic_partial, C52_other_kind, C24_accepted, C24_switched, C26_fully_connected_partial,
  C26_convolutional_last_pair_partial, C26_convolutional_clear_partial, C27_all_but_fully_connected_partial,
  C28_accepted, C28_switched, C29_mask_ignored_partial, C29_unclipped_partial, C30_forward, C30_same_in_both_modes,
  C30_accepted, C30_switched, C46_new_partial, C46_no_outputs_refuted, C46_no_inputs_refuted, C21_value,
  C21_mismatch_unchanged, C50_shift_covariant, C22_formula_partial, C22_other_shapes_fail_partial,
  C03_history_partial, C03_from_nothing_partial, C16_visited_partial, C16_first_window_refuted, C16_exactly_when,
  C51_gaussian, C58_tensor_history, C58_answers, C58_constructors, C58_layer, C58_network_operation, C58_reachable,
  C60_backward_keeps_states, C67_refused_partial, C67_max_pool_refuted, C67_convolutional_refuted, C68_switch,
  C68_forgets, C68_clear, C68_network_forgets, C69_convolutional, C69_convolutional_exact, C69_max_pool,
  C69_softmax, C69_fill, C72_network_size, C72_other_files, C72_own_file, C43_exactly_partial,
  C44_release_exactly_partial, C44_debug_panics_partial, C82_valid, C82_unique, C82_read, C82_loaded,
  C83_convolutional_refuted, C89_shapes, C89_equality, C89_fits, C89_indices, C89_total_size, C89_overflow,
  C89_transpose, C90_apply_gradients_partial, C45_not_equal

* `ClassicalDedekindReals.sig_forall_dec`, `FunctionalExtensionality.functional_extensionality_dep`: 1 theorems

  C103_squared

* `ClassicalDedekindReals.sig_forall_dec`, `ClassicalDedekindReals.sig_not_dec`, `FunctionalExtensionality.functional_extensionality_dep`: 47 theorems

  C21_exact_distribution, C48_norm, C48_zero_iff, C48_homogeneous, C49_associative, C49_distributes,
  C49_distributes_right, C49_transpose, C50_additive_in_image, C50_additive_in_kernel, C50_homogeneous,
  C16_gradient_partial, C17_gradient_partial, C20_conserves, C20_true_gradient, C22_column_partial,
  C25_true_gradients, C29_input_gradient_partial, C29_kernel_gradient_partial, C37_chain_rule,
  C57_parameter_gradients, C59_batch_gradients, C63_shift, C74_exact, C84_descent, C88_joint_gradient, C88_step,
  C91_linear, C91_zero, C93_fully_connected, C93_convolution, C94_constant_shift, C96_same_output, C97_scaled,
  C99_input, C99_parameters, C100_outputs, C100_gradients, C103_gradient, C103_step, C103_input, C103_softmax,
  C104_gradients, C104_training, C109_gradients, C109_training, C109_filled

* `ClassicalDedekindReals.sig_forall_dec`, `ClassicalDedekindReals.sig_not_dec`, `Classical_Prop.classic`, `FunctionalExtensionality.functional_extensionality_dep`: 127 theorems

  C04_release_refuted, C14_convolution_bias_relu, C15_release_refuted, C16_stride_refuted, C16_truncated_refuted,
  C16_panic_refuted, C17_channels_refuted, C18_window_maximum, C18_release_refuted, C19_track_origin,
  C10_fused_equals_unfused, C23_relu_mask, C23_output_range, C45_symmetric, C45_transitive,
  C45_reflexive_iff_no_nan, C48_f32_not_negative, C32_no_panic, C33_composition, C33_history_independent,
  C34_exactly, C35_inference_refuted, C36_no_panic_partial, C36_switched_refuted, C36_conv_refuted,
  C38_tensor_round_trip, C39_truncated, C39_extended, C40_well_formed_refuted, C40_well_formed_partial,
  C41_network_round_trip, C42_truncated, C43_atomic_refuted, C43_saved_atomic_partial, C43_undecodable_partial,
  C44_no_panic_refuted, C52_layer_round_trip_partial, C52_layer_round_trip_refuted, C24_forward,
  C24_same_in_both_modes, C26_convolutional_refuted, C27_fully_connected_refuted, C28_forward,
  C28_same_in_both_modes, C29_refuted, C47_forward_partial, C47_refuted, C21_f32_unit_interval, C53_matrix_multiply,
  C56_convolution, C56_fully_connected, C20_routing, C20_no_maximum_refuted, C22_all_shapes_refuted,
  C03_outgoing_gradient_refuted, C03_extent_edge_refuted, C03_raw_index_refuted, C51_uniform, C51_values,
  C60_states_are_prefixes, C61_joined, C62_clean_states, C64_file_determines, C63_order, C63_f32_order,
  C65_network_error, C66_exact, C66_float, C68_network_training, C68_network_inference, C69_max_pool_exact,
  C70_same_bits, C71_monotone, C72_tensor_size, C72_saved_again, C73_fully_connected, C73_outgoing, C73_kernels,
  C74_rounded, C75_receptive_field, C76_exact, C76_rounded_partial, C76_overflow_refuted, C47_exactly_partial,
  C77_agrees, C77_robust, C78_relu_pool, C79_pool_pool, C80_checkpoint, C80_history_forgotten, C81_exact,
  C83_empty_partial, C85_convolution, C85_ignored_inputs, C86_exact, C86_true_gradient, C87_gradients,
  C87_true_gradient, C90_apply_gradients_refuted, C92_tensor, C92_resaved, C92_entries, C93_exact, C93_float,
  C95_after_any_history, C95_training, C95_inference, C95_stable, C96_last_layer, C97_opposite, C97_from_zero,
  C98_idle, C98_unseen, C101_scaled, C101_same_bits, C102_step, C102_history, C102_files, C102_states, C103_entropy,
  C105_pieces, C106_forgotten, C106_training, C107_history, C107_constructors, C108_inserted, C108_behind_relu

   `sig_not_dec`, `sig_forall_dec` and `functional_extensionality_dep` come with the standard library's reals;
   `classic` comes with Flocq's binary floats (and, in the `_refuted` theorems and examples, with the type of f32
   constants).
3. **Faithfulness of the model** to the Rust source: the definitions were written by reading the code. What
   differs or is left out:
   * Aliasing: Rust's borrow rules exclude it, so `&mut` arguments are values in, values out. A pool operation of C03
     whose operands coincide would need a clone in Rust; the model allows it.
   * Panics: which panic happens is a tag (`PBounds`, `POverflow`, `PUnwrap`, `PAssert`, ...), its message is not
     modelled; state after a caught panic (`catch_unwind`) is not modelled.
   * Error messages of the project are kept; messages of serde/bincode/io errors are not.
   * f32: round to nearest even, no flush to zero, no fused multiply-add, no x87 excess precision. NaN payload
     selection, `max(+0,-0)`, `exp` and `powi` are arbitrary functions of their arguments. `sqrt` is correctly rounded.
   * rand: `thread_rng`'s words are an arbitrary stream. `Uniform::new_inclusive` is modelled from the documented
     algorithm of rand 0.8.5, whose source is not available here; `Normal`'s sampling is an arbitrary stream and
     only its parameter check is a flag.
   * Files: a file system is a function from names to byte strings; a write either stores everything, stores a
     prefix (crash), or fails to open. Permissions, concurrent writers and directories are not modelled.
   * bincode 1.3.3 with default options of `bincode::serialize`/`deserialize` (little endian, fixed-width integers,
     trailing bytes allowed), derived serde impls (fields in order, u32 enum tags, u64 lengths). Allocation limits are
     not modelled. A `HashMap` is an association list; its iteration order is an arbitrary permutation.
   * Memory exhaustion and stack overflow are not modelled; `usize` has 64 bits.
   * `main.rs` (one `println!`), debug formatting and `Clone` derivations are not modelled (cloning is identity).
4. **The statements**: a property theorem means what `Spec*.v` says. The `_case` examples show that hypotheses are
   satisfiable on non-trivial data.

## 5. Mutation tests

`seeded/LOG.jsonl` records deliberate changes to model definitions, made in a scratch copy, and the theorems whose
proofs then failed. Changes no property theorem noticed led to tightened statements, named in the entry.
