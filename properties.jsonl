{"id": "C01", "title": "Flat indexing is a bijection", "statement": "For a shape whose element count fits in u32, get_data_index never panics or wraps on in-range indices, maps distinct in-range (i,j,k) to distinct positions, and hits every position 0..total_size exactly once (column-major: i + di*j + di*dj*k).", "quantifier": "every shape (di,dj,dk) of u32 with di*dj and di*dj*dk below 2^32, every in-range index, debug and release builds", "why_tests_cant": "a unit test checks one index of one shape; aliasing could hide at any other index or shape", "anchors": ["src/tensor/helper.rs: TensorStride::new_from_shape, Mul<&TensorIndex>", "src/tensor.rs: Tensor::get_data_index"]}
{"id": "C02", "title": "A tensor is a faithful map from indices to values", "statement": "After any sequence of set_item and fill_with_value calls on a new tensor, get_item(idx) returns the value last written to exactly that index (0.0 if none); writing outside the shape changes nothing and reading outside returns 0.0.", "quantifier": "every shape that can be allocated, every finite history of writes, every index in or out of range", "why_tests_cant": "needs all histories and all pairs of indices", "anchors": ["src/tensor.rs: Tensor::new, set_item, get_item, fill_with_value", "src/tensor/helper.rs: TensorShape::fits_index"]}
{"id": "C03", "title": "Well-formedness is preserved by every tensor operation and none of them panics on well-formed operands", "statement": "Tensors built by Tensor::new always hold exactly total_size elements with matching strides; every public tensor operation, in any order and with any arguments drawn from such tensors (kernel not larger than image and stride non-zero where those matter), returns without panicking and keeps every tensor involved well-formed with its shape unchanged.", "quantifier": "every finite history of tensor operations over a pool of tensors, debug and release", "why_tests_cant": "needs every interleaving of every operation with every shape combination", "anchors": ["src/tensor.rs: impl Tensor"]}
{"id": "C04", "title": "A constructed tensor is readable and writable at every in-range index", "statement": "If Tensor::new returns, then get_item/set_item at any in-range index never panic. (Debug builds: construction panics exactly when di*dj or di*dj*dk exceeds u32. Release builds wrap and violate this.)", "quantifier": "every triple of u32 dimensions, both overflow modes", "why_tests_cant": "the failing shapes have more than 2^32 elements; no test allocates them", "anchors": ["src/tensor.rs: Tensor::new, get_item, set_item", "src/tensor/helper.rs: TensorShape::total_size"]}
{"id": "C05", "title": "Element-wise operations are pointwise and all-or-nothing on shape mismatch", "statement": "add, add_to_self, multiply_elementwise, multiply_elementwise_self and scale compute the pointwise result at every index when all shapes agree and leave the destination bit-for-bit unchanged otherwise; scale_self scales every element.", "quantifier": "all tensors, all scalars, all f32 values including NaN and infinities", "why_tests_cant": "must hold for every shape and element, and for the silent mismatch path", "anchors": ["src/tensor.rs: add, add_to_self, multiply_elementwise, multiply_elementwise_self, scale, scale_self"]}
{"id": "C06", "title": "fill_with_vec accepts exactly the vectors of the right length", "statement": "fill_with_vec succeeds iff the vector has total_items elements, then element (i,j,k) is the vector's entry i + di*j + di*dj*k; otherwise it returns Err and the tensor is unchanged.", "quantifier": "all well-formed tensors, all vectors", "why_tests_cant": "every length and position", "anchors": ["src/tensor.rs: fill_with_vec"]}
{"id": "C07", "title": "transpose_ij transposes every k-slice and is an involution", "statement": "transpose_ij succeeds iff the output shape is the input shape with i and j swapped; then out(j,i,k)=in(i,j,k) everywhere; transposing twice restores the input bit-for-bit; on Err the output is unchanged.", "quantifier": "all well-formed tensors", "why_tests_cant": "all shapes and all elements", "anchors": ["src/tensor.rs: transpose_ij"]}
{"id": "C08", "title": "matrix_multiply computes the matrix product of every k-slice", "statement": "When shapes agree, result(i,j,k) is the left-to-right f32 sum over ii of t1(i,ii,k)*t2(ii,j,k) starting from 0.0; when they do not, result is unchanged; no panic.", "quantifier": "all well-formed tensors, any scalar arithmetic (f32 or exact)", "why_tests_cant": "all shapes and values", "anchors": ["src/tensor.rs: matrix_multiply, check_matrix_multiply_dimensions"]}
{"id": "C09", "title": "Transposed multiplies agree with transposing first", "statement": "matrix_multiply_transpose_first(a,b) is bit-for-bit matrix_multiply(transpose(a),b), and matrix_multiply_transpose_second(a,b) is matrix_multiply(a,transpose(b)); they return Err exactly on shape mismatch leaving the result unchanged.", "quantifier": "all well-formed tensors", "why_tests_cant": "equality of two code paths over all shapes and values", "anchors": ["src/tensor.rs: matrix_multiply_transpose_first, matrix_multiply_transpose_second, transpose_ij"]}
{"id": "C10", "title": "The fused multiply-add-relu equals the unfused pipeline bit for bit", "statement": "matrix_multiply_add_relu gives exactly the f32 bits that matrix_multiply, add_to_self, relu_self_and_store_mask give, including on NaN, infinities and signed zeros, whichever zero f32::max picks on ties and whichever NaN payloads the hardware produces.", "quantifier": "all well-formed tensors of f32, all NaN-payload and max-tie choices", "why_tests_cant": "f32 corner cases (NaN, -0.0) over all inputs", "anchors": ["src/tensor.rs: matrix_multiply_add_relu, relu_self_and_store_mask"]}
{"id": "C11", "title": "add_from_index_list is scatter-add", "statement": "With in-range indices and a list no longer than the source, it returns Ok and every destination element p receives, in order, the sum of all source elements q with index_list[q]=p, all other elements unchanged; with an index out of range it returns Err.", "quantifier": "all well-formed tensors, all index lists", "why_tests_cant": "repeated indices, all positions", "anchors": ["src/tensor.rs: add_from_index_list"]}
{"id": "C12", "title": "The convolution dimension check accepts exactly the tilings", "statement": "check_convolution_dimensions returns Ok iff depths agree, the kernel tiles the image exactly with the stride in i and j, the result extents are the tile counts and the channel exists; in debug builds it panics only for stride 0 or a kernel larger than the image.", "quantifier": "all shapes, strides and channels, debug and release", "why_tests_cant": "all combinations of u32 values", "anchors": ["src/tensor/operations/convolution.rs: check_convolution_dimensions", "src/tensor.rs: does_kernel_stride_fit_image, get_convolution_dim_fit, check_max_pooling_dimensions"]}
{"id": "C13", "title": "convolution_bias computes the strided correlation plus bias and touches only its channel", "statement": "On Ok, result(i,j,channel) is bias plus the sum over (ki,kj,kk) of image(i*stride+ki, j*stride+kj, kk)*kernel(ki,kj,kk) in loop order; every other channel of result is unchanged; no out-of-bounds access; on Err result is unchanged.", "quantifier": "all well-formed image/kernel/bias/result tensors, strides, channels", "why_tests_cant": "all shapes, strides, values", "anchors": ["src/tensor/operations/convolution.rs: convolution_bias"]}
{"id": "C14", "title": "convolution_bias_relu is relu after convolution_bias, bit for bit", "statement": "convolution_bias_relu returns the same Ok/Err as convolution_bias and on Ok the written channel holds x if x>0 and +0.0 otherwise (NaN becomes 0.0), other channels unchanged.", "quantifier": "all well-formed f32 tensors, all NaN/max-tie choices", "why_tests_cant": "f32 corner cases over all inputs", "anchors": ["src/tensor/operations/convolution.rs: convolution_bias_relu"]}
{"id": "C15", "title": "A kernel or mask larger than the image is never accepted", "statement": "does_kernel_stride_fit_image, and so ConvolutionalLayer::new and MaxPoolLayer::new, never accept a kernel or mask larger than the input.", "quantifier": "all shapes and strides, debug and release", "why_tests_cant": "needs wrap-around inputs in release mode", "anchors": ["src/tensor.rs: does_kernel_stride_fit_image", "src/layer/convolutional.rs: ConvolutionalLayer::new", "src/layer/max_pool.rs: MaxPoolLayer::new"]}
{"id": "C16", "title": "convolution_backprop_outgoing_gradient is the adjoint of the convolution", "statement": "The outgoing gradient at (a,b,c) is the sum over all kernels k and all output positions (i,j) whose window covers (a,b) of kernel_k(a-s*i, b-s*j, c)*incoming(i,j,k), i.e. the gradient of <incoming, convolution(image)> with respect to image.", "quantifier": "all shapes, strides, kernels and gradients accepted by the dimension check", "why_tests_cant": "one stride-1 3x3/2x2 test passes while other sizes are wrong", "anchors": ["src/tensor/operations/convolution.rs: convolution_backprop_outgoing_gradient"]}
{"id": "C17", "title": "convolution_backprop_kernel is the kernel gradient of its channel", "statement": "The kernel gradient for channel ch at (l,m,n) is the sum over (i,j) of image(l+s*i, m+s*j, n)*incoming(i,j,ch).", "quantifier": "all shapes, strides, channel counts, values", "why_tests_cant": "only a single-channel case is tested", "anchors": ["src/tensor/operations/convolution.rs: convolution_backprop_kernel"]}
{"id": "C18", "title": "max_pool returns the window maximum", "statement": "When dimensions check, result(i,j,k) is the largest non-NaN element of the mask window at (i*stride,j*stride) in channel k (negative infinity when the window has none); otherwise result is unchanged.", "quantifier": "all well-formed images, masks, strides; all f32 values", "why_tests_cant": "all windows and values, NaN handling", "anchors": ["src/tensor.rs: max_pool, check_max_pooling_dimensions"]}
{"id": "C19", "title": "max_pool_track_origin agrees with max_pool and records the argmax", "statement": "It produces the same pooled tensor as max_pool, and each recorded origin is the flat index of the first window element attaining the maximum (when some window element exceeds negative infinity).", "quantifier": "all well-formed images, masks, strides, all f32 values", "why_tests_cant": "all windows; ties; NaN", "anchors": ["src/tensor.rs: max_pool_track_origin"]}
{"id": "C20", "title": "Max-pool backward routes each gradient to the pixel that won, and conserves the total", "statement": "After a training forward pass, backward sets each input pixel's gradient to the sum of incoming gradients of the windows it won and 0.0 elsewhere; over exact arithmetic the total gradient is conserved, and it is the true gradient wherever each window has a unique maximum.", "quantifier": "all layers, images and gradients", "why_tests_cant": "overlapping windows, ties, all shapes", "anchors": ["src/layer/max_pool.rs: MaxPoolLayer::forward, backward", "src/tensor.rs: add_from_index_list"]}
{"id": "C21", "title": "softmax yields a probability distribution", "statement": "When shapes agree softmax writes exp(x)/sum(exp) at every position: strictly positive and summing to 1 in exact arithmetic; in f32 every output lies in [0,1] provided the exponential sum is finite and non-zero; otherwise unchanged output.", "quantifier": "all tensors", "why_tests_cant": "overflow and rounding over all inputs", "anchors": ["src/tensor.rs: softmax"]}
{"id": "C22", "title": "Softmax backward multiplies by the softmax Jacobian", "statement": "In training mode, backward on any layer shape accepted by SoftmaxLayer::new computes outgoing = J^T * incoming for the Jacobian of softmax at the forward input.", "quantifier": "all shapes, inputs and incoming gradients", "why_tests_cant": "only the Ok status is asserted by the test, for one 3-vector", "anchors": ["src/layer/softmax.rs: SoftmaxLayer::backward"]}
{"id": "C23", "title": "The relu mask records exactly the active elements", "statement": "relu_self_and_store_mask returns Ok iff shapes agree; then each element x becomes x with mask 1.0 if x>0, else 0.0 with mask 0.0 (NaN included); no output is NaN or negative.", "quantifier": "all well-formed f32 tensors", "why_tests_cant": "all f32 bit patterns", "anchors": ["src/tensor.rs: relu_self_and_store_mask"]}
{"id": "C24", "title": "Fully connected forward is relu(W x + b), identically in training and inference mode", "statement": "forward on a layer made by new/fill_from_state (depth 1) writes relu of the row sums plus bias; the output bits do not depend on run mode or on what the output tensor held before.", "quantifier": "all layer sizes, weights, biases, inputs, modes", "why_tests_cant": "bitwise agreement of two pipelines over all inputs", "anchors": ["src/layer/fully_connected.rs: FullyConnectedLayer::forward"]}
{"id": "C25", "title": "Fully connected backward computes the true gradients", "statement": "After forward in training mode with no pre-activation at 0, backward's outgoing gradient, weight gradient and bias gradient contributions are the derivatives of <incoming, forward> with respect to input, weights and bias (exact arithmetic).", "quantifier": "all sizes, weights, inputs, incoming gradients", "why_tests_cant": "an analytic identity over all reals", "anchors": ["src/layer/fully_connected.rs: FullyConnectedLayer::backward"]}
{"id": "C26", "title": "Parameter gradients accumulate over forward/backward pairs until cleared", "statement": "Each forward/backward pair in training mode adds its gradient to the stored parameter gradients; clear_gradients resets them to zero.", "quantifier": "all histories of forward/backward/clear, every layer type", "why_tests_cant": "needs histories of any length", "anchors": ["src/layer/fully_connected.rs: backward, clear_gradients", "src/layer/convolutional.rs: backward, clear_gradients"]}
{"id": "C27", "title": "A repeated backward call uses the same activation mask", "statement": "Calling backward twice after one forward gives the same outgoing gradient both times for the same incoming gradient.", "quantifier": "all layers and gradients", "why_tests_cant": "the mask is overwritten in place", "anchors": ["src/layer/fully_connected.rs: backward", "src/layer/convolutional.rs: backward"]}
{"id": "C28", "title": "Convolutional forward gives the same bits in training and inference mode", "statement": "forward writes relu(convolution+bias) to every output channel; the output bits do not depend on run mode or on previous output contents.", "quantifier": "all layers accepted by fill_from_state with matching biases, all images", "why_tests_cant": "bitwise agreement over all inputs", "anchors": ["src/layer/convolutional.rs: ConvolutionalLayer::forward"]}
{"id": "C29", "title": "Convolutional backward respects the relu mask", "statement": "backward's outgoing gradient and kernel gradients are those of relu(convolution+bias): outputs clipped by relu contribute nothing.", "quantifier": "all layers, images and gradients", "why_tests_cant": "the layer test only asserts the gradient is non-zero", "anchors": ["src/layer/convolutional.rs: ConvolutionalLayer::backward"]}
{"id": "C30", "title": "Max-pool forward gives the same output in training and inference mode", "statement": "MaxPoolLayer::forward writes the same output tensor whichever mode the layer is in.", "quantifier": "all layers, images", "why_tests_cant": "two code paths over all inputs", "anchors": ["src/layer/max_pool.rs: MaxPoolLayer::forward"]}
{"id": "C31", "title": "Network structure invariant", "statement": "In every reachable network: adjacent layer shapes agree, input/output shapes are those of the first/last layer, and there is exactly one intermediate state per layer boundary with that boundary's shape.", "quantifier": "every finite history of add_layer, load_from_file, infer, backward, switch_to_training, switch_to_inference", "why_tests_cant": "needs all histories", "anchors": ["src/network.rs: Network"]}
{"id": "C32", "title": "add_layer accepts exactly compatible layers and a rejection changes nothing", "statement": "On a non-empty network add_layer returns Ok iff the layer's input shape equals the current output shape; on Err the layers, shapes and intermediate states are unchanged.", "quantifier": "all networks and layers", "why_tests_cant": "all histories", "anchors": ["src/network.rs: Network::add_layer"]}
{"id": "C33", "title": "infer computes the composition of the layers, independent of history", "statement": "After infer(x) returns Ok, get_output is the composition of the layers' forward functions applied to x, the same for every history of earlier infer/backward calls and in both modes.", "quantifier": "all networks of well-formed layers, all inputs, all histories", "why_tests_cant": "hidden state could leak between calls", "anchors": ["src/network.rs: Network::infer, get_output"]}
{"id": "C34", "title": "infer rejects inputs of the wrong shape and networks without layers, changing nothing", "statement": "infer returns Err leaving every intermediate state unchanged iff the input shape differs from the network's or there are no layers; otherwise on well-formed networks it returns Ok without panicking.", "quantifier": "all networks and inputs", "why_tests_cant": "all shapes and histories", "anchors": ["src/network.rs: Network::infer"]}
{"id": "C35", "title": "Mode switches are reflected in the network and every layer", "statement": "After switch_to_training / switch_to_inference, get_run_state and every layer's get_run_mode report that mode, and layers added later get it too.", "quantifier": "all histories", "why_tests_cant": "the state test checks the layers but never get_run_state after switching back", "anchors": ["src/network.rs: switch_to_training, switch_to_inference, get_run_state, add_layer"]}
{"id": "C36", "title": "backward outside training mode is rejected with Err", "statement": "A network not in training mode answers backward with Err; backward never panics on a network built by the API.", "quantifier": "all histories", "why_tests_cant": "needs histories mixing switches and backward", "anchors": ["src/network.rs: Network::backward, switch_to_inference"]}
{"id": "C37", "title": "Network backward is the chain rule", "statement": "For networks of fully connected, max-pool, softmax (column vector) and convolutional layers (the latter at stride 1 with kernels of the output's extents, and no output clipped), after switch_to_training and infer(x), backward(g) leaves in the first gradient slot the gradient of <g, network(x)> with respect to x, at every point where the network is differentiable layer by layer (exact arithmetic).", "quantifier": "all such networks of any depth, inputs and loss gradients", "why_tests_cant": "analytic statement over all depths", "anchors": ["src/network.rs: Network::backward"]}
{"id": "C38", "title": "Tensor files round-trip bit for bit", "statement": "Tensor::from_file after save_to_file returns a tensor with identical shape, strides and f32 bit patterns (NaN payloads and signed zeros included).", "quantifier": "all tensors", "why_tests_cant": "all bit patterns and sizes", "anchors": ["src/tensor.rs: save_to_file, from_file"]}
{"id": "C39", "title": "A truncated tensor file is always rejected", "statement": "from_file returns Err on every strict prefix of a saved tensor (any crash point during the write); bytes after the end are ignored.", "quantifier": "all tensors, all cut points, all suffixes", "why_tests_cant": "every crash point", "anchors": ["src/tensor.rs: from_file"]}
{"id": "C40", "title": "from_file only returns well-formed tensors", "statement": "Any tensor returned by from_file has as many elements as its shape says and the matching strides, so later operations do not panic.", "quantifier": "all file contents", "why_tests_cant": "all byte strings", "anchors": ["src/tensor.rs: from_file, get_item"]}
{"id": "C41", "title": "Networks round-trip through files", "statement": "Loading a saved network into a fresh network gives the same layer kinds, names, shapes and parameters bit for bit, whatever order the hash maps iterate in, and the loaded network infers the same output bits for every input.", "quantifier": "all networks, all hash-map iteration orders at every save, all inputs", "why_tests_cant": "iteration order is random per process; all weights", "anchors": ["src/network.rs: save_to_file, load_from_file, SerializedNetwork", "src/layer.rs: SerializedLayer::add_to_network"]}
{"id": "C42", "title": "A truncated network file is rejected and leaves the network unchanged", "statement": "load_from_file returns Err and does not touch the network on every strict prefix of a saved network file.", "quantifier": "all networks, orders and cut points", "why_tests_cant": "every crash point", "anchors": ["src/network.rs: load_from_file"]}
{"id": "C43", "title": "A failed load leaves the network as it was", "statement": "If load_from_file returns Err the network is unchanged.", "quantifier": "all files and networks", "why_tests_cant": "needs a file whose later layer does not fit", "anchors": ["src/network.rs: load_from_file, SerializedNetwork::populate_network"]}
{"id": "C44", "title": "load_from_file never panics", "statement": "For every file content load_from_file returns Ok or Err.", "quantifier": "all byte strings", "why_tests_cant": "all byte strings", "anchors": ["src/layer.rs: add_to_network", "src/layer/fully_connected.rs: load_from_serialized_data", "src/layer/softmax.rs: load_from_serialized_data"]}
{"id": "C45", "title": "Tensor equality", "statement": "Equality is symmetric, implies equal items (as f32 ==) at every index, ignores strides, and is reflexive exactly on tensors without NaN; != is its negation.", "quantifier": "all tensors", "why_tests_cant": "all f32 values", "anchors": ["src/tensor.rs: PartialEq for Tensor"]}
{"id": "C46", "title": "Fully connected construction honours the requested sizes", "statement": "FullyConnectedLayer::new(n,m) returns a layer with input shape (n,1,1) and output shape (m,1,1), zero weights and biases, in inference mode, without panicking.", "quantifier": "all u32 sizes with n*m below 2^32", "why_tests_cant": "zero sizes are special", "anchors": ["src/layer/fully_connected.rs: FullyConnectedLayer::new, fill_from_state"]}
{"id": "C47", "title": "An accepted convolutional layer can run forward", "statement": "If fill_from_state returned Ok, forward on an image of the layer's input shape and an output of its output shape returns Ok without panicking.", "quantifier": "all kernels, biases, shapes and strides", "why_tests_cant": "bias count/shape and kernel depth are never cross-checked in tests", "anchors": ["src/layer/convolutional.rs: fill_from_state, forward"]}
{"id": "C48", "title": "get_norm is the Euclidean norm", "statement": "In exact arithmetic get_norm is the square root of the sum of squares: zero iff all elements are zero, and absolutely homogeneous under scale_self; in f32 it is never negative.", "quantifier": "all tensors and scalars", "why_tests_cant": "analytic law", "anchors": ["src/tensor.rs: get_norm"]}
{"id": "C49", "title": "Matrix product algebra", "statement": "In exact arithmetic matrix_multiply is associative, distributes over add, and transposing a product reverses it.", "quantifier": "all well-formed tensors of compatible shapes", "why_tests_cant": "algebraic laws over all matrices", "anchors": ["src/tensor.rs: matrix_multiply, transpose_ij, add"]}
{"id": "C50", "title": "Convolution is linear in image and in kernel, and shift-covariant", "statement": "In exact arithmetic convolution_bias is additive and homogeneous in the image and in the kernel (bias 0).", "quantifier": "all images, kernels, scalars", "why_tests_cant": "algebraic law", "anchors": ["src/tensor/operations/convolution.rs: convolution_bias"]}
{"id": "C51", "title": "Random fills only replace values", "statement": "fill_with_uniform(min,max) panics exactly if the bounds are not finite, out of order or too far apart; otherwise it keeps shape and element count, leaves every element within [min,max], and draws each element from its own generator word, monotonically and starting at min: the word's upper 23 bits as a fraction times the largest scale that keeps all values at or below max, plus min, each operation rounded once; fill_with_gaussian keeps shape and element count.", "quantifier": "all tensors and all generator outputs", "why_tests_cant": "all generator outcomes", "anchors": ["src/tensor.rs: fill_with_uniform, fill_with_gaussian"]}
{"id": "C52", "title": "Every layer serializes and deserializes to itself", "statement": "load_from_serialized(get_serialized(l)) succeeds on an empty layer of that kind and restores name, shapes, stride and parameters bit for bit, for every layer kind; run mode is not stored; data of another layer kind is rejected with the layer unchanged.", "quantifier": "all layers", "why_tests_cant": "all parameters and names", "anchors": ["src/layer/fully_connected.rs: get_serialized, load_from_serialized", "src/layer/convolutional.rs: get_serialized", "src/layer/max_pool.rs: get_serialized", "src/layer/softmax.rs: get_serialized"]}
{"id": "C53", "title": "f32 dot products have the standard forward error bound", "statement": "Each element computed by matrix_multiply in f32 differs from the exact product by at most the standard (1+u)^n-1 times the sum of absolute products plus an underflow term, when nothing overflows.", "quantifier": "all sizes and finite f32 values", "why_tests_cant": "rounding over all inputs", "anchors": ["src/tensor.rs: matrix_multiply"]}
{"id": "C54", "title": "Running a network never changes its parameters", "statement": "infer, backward, switch_to_training and switch_to_inference change no layer's weights, biases, kernels, stride, shapes or name, so the saved file depends only on the layers added.", "quantifier": "all histories", "why_tests_cant": "needs all histories", "anchors": ["src/network.rs: infer, backward, save_to_file"]}
{"id": "C55", "title": "Intermediate states are exposed exactly for existing layer boundaries", "statement": "get_intermediate_state(id) returns Ok iff id is at most the number of layers (and there is a layer), with that boundary's shape; get_output is the last one.", "quantifier": "all histories and ids", "why_tests_cant": "all histories", "anchors": ["src/network.rs: get_intermediate_state, get_output"]}
{"id": "C56", "title": "f32 convolutions and fully connected layers stay close to exact arithmetic", "statement": "Each output of convolution_bias, and each pre-activation of a fully connected layer, that is finite differs from the exact sum of products plus bias by at most ((1+u)^(n+1)-1) times the sum of absolute values plus an underflow term.", "quantifier": "all shapes, strides and f32 values", "why_tests_cant": "rounding over all inputs", "anchors": ["src/tensor/operations/convolution.rs: convolution_bias", "src/layer/fully_connected.rs: FullyConnectedLayer::forward"]}
{"id": "C57", "title": "Network training accumulates the true parameter gradients", "statement": "After infer(x) and backward(g) on a network in training mode, every fully connected layer's weight and bias gradients have grown by the gradient of <g, network(x)> with respect to that layer's weights and biases, at every point where the network is differentiable layer by layer (exact arithmetic).", "quantifier": "all networks of fully connected, max-pool, column softmax and unclipped stride-1 convolutional layers with kernels of the output's extents, any depth, any of their fully connected layers", "why_tests_cant": "analytic statement over all depths", "anchors": ["src/network.rs: infer, backward", "src/layer/fully_connected.rs: FullyConnectedLayer::backward"]}
{"id": "C58", "title": "Debug and release builds agree wherever the debug build does not panic", "statement": "If an operation does not panic in a debug build (overflow checks on) then the release build returns the same result: tensor operations, layer construction, forward, backward and mode switches, and every network operation including loading a file; so the networks reachable in a debug build are reachable in a release build.", "quantifier": "all inputs, histories and file contents", "why_tests_cant": "tests run in one build mode on a few inputs", "anchors": ["src/tensor.rs: all operations", "src/network.rs: add_layer, infer, backward, load_from_file", "src/layer.rs: Layer"]}
{"id": "C59", "title": "Training on a batch accumulates the gradient of the batch loss", "statement": "In exact arithmetic, running infer and backward for each sample of a batch adds to the weight and bias gradients of any fully connected layer the gradient of the sum over the samples of <g, network(x)> with respect to that layer's weights and biases.", "quantifier": "all batches, all networks as in C57 and all samples at which the network is differentiable", "why_tests_cant": "analytic statement over all batch sizes and depths", "anchors": ["src/network.rs: infer, backward", "src/layer/fully_connected.rs: FullyConnectedLayer::backward"]}
{"id": "C60", "title": "Intermediate states are the outputs of the network's prefixes", "statement": "After a successful infer(x), get_intermediate_state(i) is the composition of the first i layers applied to x; backward leaves every intermediate state unchanged.", "quantifier": "all networks built by the API, all inputs, all i", "why_tests_cant": "all depths", "anchors": ["src/network.rs: infer, backward, get_intermediate_state"]}
{"id": "C61", "title": "Loading a file behind existing layers composes the two networks", "statement": "Loading a saved network into a network whose output shape is the saved one's input shape appends its layers, and inference of the result is inference of the first network followed by inference of the saved one.", "quantifier": "all pairs of networks built by the API, all inputs, all hash-map orders", "why_tests_cant": "all pairs of networks", "anchors": ["src/network.rs: load_from_file, save_to_file, infer"]}
{"id": "C62", "title": "NaN and values below zero do not survive a layer", "statement": "After a successful infer on any input (NaN and infinities included) no output of a fully connected or convolutional layer is NaN or below zero and no output of a max-pool layer is NaN.", "quantifier": "all networks built by the API, all f32 inputs", "why_tests_cant": "all bit patterns", "anchors": ["src/network.rs: infer", "src/tensor.rs: relu, max_pool", "src/tensor/operations/convolution.rs: convolution_bias_relu"]}
{"id": "C63", "title": "Softmax keeps the order of its inputs and ignores a common shift", "statement": "In exact arithmetic a larger input has a larger softmax output and equal inputs equal outputs, and adding a constant to all inputs changes nothing; in f32 the order is kept whenever exp keeps it and the total is finite and not zero.", "quantifier": "all tensors", "why_tests_cant": "all inputs", "anchors": ["src/tensor.rs: softmax"]}
{"id": "C64", "title": "A saved file determines the network", "statement": "Two networks whose saved bytes are equal have the same layers: kinds, parameters (bit for bit), shapes, strides and names, in the same order, whatever the hash-map order of either save.", "quantifier": "all pairs of networks built by the API, all hash-map orders", "why_tests_cant": "injectivity over all networks", "anchors": ["src/network.rs: save_to_file, SerializedNetwork::to_byte_array"]}
{"id": "C65", "title": "An f32 network stays close to the exact one", "statement": "Inference of a whole network in f32 neither overflows nor drifts: inputs of bounded size and known accuracy give, after any sequence of layers, finite outputs whose distance to the outputs of the same network in exact arithmetic is bounded layer by layer (fully connected and convolutional: sum of absolute weights, number of products, bias; max-pool: unchanged; softmax: accuracy of exp).", "quantifier": "all networks built by the API, all inputs in the bounded range", "why_tests_cant": "error analysis over all inputs and all networks", "anchors": ["src/network.rs: infer", "src/tensor.rs: matrix_multiply, matrix_multiply_add_relu, max_pool, softmax", "src/tensor/operations/convolution.rs: convolution_bias_relu"]}
{"id": "C66", "title": "A small change of the input changes the output by little", "statement": "In exact arithmetic two inputs that differ by at most d in every element give outputs that differ by at most g*d, g being the product over the layers of the largest sum of absolute weights behind one output (1 for max-pool, 1/2 for softmax); in f32 the outputs differ by at most g*d plus twice the rounding bound of C65.", "quantifier": "all networks built by the API, all pairs of inputs", "why_tests_cant": "stability over all pairs of inputs and all depths", "anchors": ["src/network.rs: infer", "src/tensor.rs: matrix_multiply_add_relu, max_pool, softmax", "src/tensor/operations/convolution.rs: convolution_bias_relu"]}
{"id": "C67", "title": "A layer outside training mode refuses backward", "statement": "Calling backward on a layer in inference mode changes nothing and answers with an error.", "quantifier": "all layers in inference mode, all operands", "why_tests_cant": "all layers, all operands and both builds", "anchors": ["src/layer/fully_connected.rs: backward", "src/layer/convolutional.rs: backward", "src/layer/max_pool.rs: backward", "src/layer/softmax.rs: backward"]}
{"id": "C68", "title": "Mode switches give fresh buffers and keep the parameters", "statement": "Switching a layer to training gives zero gradient buffers of the parameters' shapes, switching to inference leaves one-element placeholders; parameters and names stay, and the result depends on nothing else (no history of training survives). A network switches all its layers and rebuilds or drops its gradients.", "quantifier": "all layers and networks built by the API, after any history", "why_tests_cant": "all histories of a layer", "anchors": ["src/network.rs: switch_to_training, switch_to_inference", "src/layer/fully_connected.rs: switch_to_training, switch_to_inference, clear_gradients", "src/layer/convolutional.rs: switch_to_training, switch_to_inference, clear_gradients"]}
{"id": "C69", "title": "Layer constructors honour the requested sizes", "statement": "new on a convolutional or max-pool layer succeeds exactly when the mask and stride tile the input, and then has the output shape (input - mask) / stride + 1 per direction, the requested number of zero kernels and biases, the stride and the name; softmax keeps its shape; filling weights or biases sets all of them and nothing else.", "quantifier": "all shapes, strides, depths and names; both builds", "why_tests_cant": "all combinations of sizes", "anchors": ["src/layer/convolutional.rs: new", "src/layer/max_pool.rs: new", "src/layer/softmax.rs: new", "src/layer/fully_connected.rs: fill_weights_with_value, fill_bias_with_value"]}
{"id": "C70", "title": "A convolution over the whole image is a fully connected layer", "statement": "A convolutional layer whose kernels have the shape of the image and a fully connected layer whose weight rows are those kernels in storage order give the same f32 bits, for all inputs including NaN and infinities.", "quantifier": "all images, kernels, biases, modes and both builds", "why_tests_cant": "two code paths over all inputs", "anchors": ["src/tensor/operations/convolution.rs: convolution_bias_relu", "src/layer/convolutional.rs: forward", "src/layer/fully_connected.rs: forward", "src/tensor.rs: matrix_multiply_add_relu"]}
{"id": "C71", "title": "Networks with non-negative weights are monotone", "statement": "For a network whose layers have non-negative weights and kernels (any finite biases) and no softmax, of two finite inputs that are nowhere negative the one that is larger in every element gives an f32 output, and f32 intermediate states, that are at least as large in every element and never NaN, as long as no state before the last overflows on the larger input.", "quantifier": "all such networks built by the API, all pairs of ordered non-negative inputs", "why_tests_cant": "all pairs of inputs, all depths, with rounding", "anchors": ["src/network.rs: infer", "src/tensor.rs: matrix_multiply_add_relu, max_pool", "src/tensor/operations/convolution.rs: convolution_bias_relu"]}
{"id": "C72", "title": "File sizes and independence of files", "statement": "The number of bytes of a saved network and of a saved tensor is a closed formula of its layers, shapes and names, whatever the hash-map order; a loaded network is saved exactly like the original; saving, whatever goes wrong on disk, leaves other files alone, and loading depends on the named file only.", "quantifier": "all networks and tensors, hash-map orders, file systems and outcomes of writing", "why_tests_cant": "all networks and all orders", "anchors": ["src/network.rs: save_to_file, load_from_file", "src/tensor.rs: save_to_file, from_file"]}
{"id": "C73", "title": "Gradients in f32 are close to the exact sums", "statement": "After any batch, every weight and bias gradient of a fully connected layer, the gradient it hands on, and every kernel gradient a convolutional layer stores is within an explicit rounding bound (number of terms, sum of absolute terms) of the exact sum over the batch, unless it overflowed.", "quantifier": "all layers, batches, inputs and gradients", "why_tests_cant": "error analysis over all f32 values and batch sizes", "anchors": ["src/layer/fully_connected.rs: backward", "src/layer/convolutional.rs: backward", "src/tensor/operations/convolution.rs: convolution_backprop_kernel"]}
{"id": "C74", "title": "The order of a batch", "statement": "In exact arithmetic the gradients accumulated by a fully connected layer over a batch do not depend on the order of the samples; in f32 two orders differ by at most twice the rounding bound of C73.", "quantifier": "all batches and permutations", "why_tests_cant": "all permutations of all batches", "anchors": ["src/layer/fully_connected.rs: backward, forward"]}
{"id": "C75", "title": "Receptive fields", "statement": "In a network of convolutional and max-pool layers the output at (i, j) depends only on the input window that starts at (i, j) times the product of the strides and has the extent computed layer by layer; the same layers on a larger image compute the same f32 bits wherever the windows agree.", "quantifier": "all such networks built by the API, all images and positions", "why_tests_cant": "all networks, image sizes and positions", "anchors": ["src/network.rs: infer", "src/tensor/operations/convolution.rs: convolution_bias_relu", "src/tensor.rs: max_pool"]}
{"id": "C76", "title": "Networks ending in softmax are classifiers", "statement": "The outputs of a network whose last layer is softmax are a probability distribution that keeps the order of the values before that layer: exactly in exact arithmetic, and in f32 up to rounding with the outputs in [0, 1] and their sum within an explicit bound of 1.", "quantifier": "all networks built by the API that end in softmax, all inputs", "why_tests_cant": "all networks and all inputs", "anchors": ["src/network.rs: infer, get_output, get_intermediate_state", "src/layer/softmax.rs: forward", "src/tensor.rs: softmax"]}
{"id": "C77", "title": "Margins certify classifications", "statement": "If two outputs of the exact network differ by more than twice the rounding bound of C65, the f32 network orders them the same way; if two f32 outputs differ by more than twice the change bound of C66, every input within the distance d gets them in the same order.", "quantifier": "all networks and inputs within the size conditions of C65 and C66", "why_tests_cant": "all inputs in a neighbourhood, with rounding", "anchors": ["src/network.rs: infer, get_output", "src/tensor.rs: matrix_multiply_add_relu, max_pool, softmax", "src/tensor/operations/convolution.rs: convolution_bias_relu"]}
{"id": "C78", "title": "ReLU and max pooling commute", "statement": "Applying relu and then max-pooling gives the same f32 bits as max-pooling and then relu, for every image including NaNs, infinities and signed zeros, and for every mask and stride.", "quantifier": "all f32 images, masks, strides and builds", "why_tests_cant": "all f32 bit patterns, NaN included", "anchors": ["src/tensor.rs: relu_self_and_store_mask, max_pool"]}
{"id": "C79", "title": "Pooling twice is pooling once", "statement": "Max-pooling with mask m1 and stride s1 and then with mask m2 and stride s2 selects, if windows of the first step leave no gaps, the maxima of the windows of mask (m2-1)*s1+m1 and stride s1*s2; the shapes fit too.", "quantifier": "all f32 images, masks and strides without gaps", "why_tests_cant": "all images, masks and strides", "anchors": ["src/tensor.rs: max_pool"]}
{"id": "C80", "title": "Training resumes exactly from a saved network", "statement": "A network with any history and its copy loaded from the file it was saved to, both switched to the same mode, are in the same state after the next inference: layers, masks, gradients and intermediate states. So are any two networks with the same layers.", "quantifier": "all networks built by the API, histories, hash-map orders, modes and inputs", "why_tests_cant": "all histories and all continuations", "anchors": ["src/network.rs: save_to_file, load_from_file, switch_to_training, switch_to_inference, infer", "src/layer.rs: switch_to_training, switch_to_inference, forward"]}
{"id": "C81", "title": "Fixed-point networks are computed exactly", "statement": "If inputs, weights and biases are multiples of powers of two and the weighted sums need at most 24 bits, no operation of an inference rounds: every f32 output is the real number the exact network computes.", "quantifier": "all networks of fully connected, convolutional and max-pool layers, all inputs within the size conditions", "why_tests_cant": "all networks and inputs on all grids", "anchors": ["src/network.rs: infer, get_output", "src/tensor.rs: matrix_multiply_add_relu, max_pool", "src/tensor/operations/convolution.rs: convolution_bias_relu"]}
{"id": "C82", "title": "Names are UTF-8", "statement": "A string in a file is accepted exactly if its bytes are the UTF-8 encoding of a sequence of Unicode scalar values, of which there is only one; whatever a network file contains, no layer of the loaded network has any other name.", "quantifier": "all byte sequences, files and networks", "why_tests_cant": "all byte sequences and all files", "anchors": ["src/network.rs: load_from_file", "src/layer.rs: add_to_network", "src/layer/fully_connected.rs: load_from_serialized_data", "src/layer/convolutional.rs: load_from_serialized_data", "src/layer/max_pool.rs: load_from_serialized_data", "src/layer/softmax.rs: load_from_serialized_data"]}
{"id": "C83", "title": "The layers returned by empty() can be run", "statement": "Every layer type's empty() returns a layer that a network of either mode takes and runs: on a 1x1x1 input the fully connected one answers zero, the max-pool one the input (negative infinity for a NaN), the softmax one the quotient of the input's exponential by itself.", "quantifier": "all f32 inputs, both builds and modes", "why_tests_cant": "all inputs; NaNs and infinities included", "anchors": ["src/layer/fully_connected.rs: empty", "src/layer/convolutional.rs: empty", "src/layer/max_pool.rs: empty", "src/layer/softmax.rs: empty", "src/network.rs: add_layer, infer"]}
{"id": "C84", "title": "Accumulated gradients are a descent direction", "statement": "After training a batch from zero gradients, subtracting a small enough multiple of a fully connected layer's accumulated weight or bias gradients from its weights or biases lowers the loss of that batch, unless these gradients are zero everywhere.", "quantifier": "all networks, batches, layers and small steps", "why_tests_cant": "all networks and batches, a limit argument", "anchors": ["src/network.rs: infer, backward", "src/layer/fully_connected.rs: forward, backward", "src/layer/max_pool.rs: backward", "src/layer/softmax.rs: backward", "src/layer/convolutional.rs: backward"]}
{"id": "C85", "title": "A convolution is a sparse fully connected layer", "statement": "The fully connected layer whose rows hold the kernels at the positions under each window and zeros elsewhere computes, on finite images, the same f32 bits as the convolutional layer, for every stride. More generally, finite inputs all of whose weights are zero do not change a fully connected layer's output at all.", "quantifier": "all kernels (NaN and infinite included), strides, finite images; all layers and inputs", "why_tests_cant": "all shapes and strides, bit equality", "anchors": ["src/tensor/operations/convolution.rs: convolution_bias_relu", "src/layer/convolutional.rs: forward", "src/layer/fully_connected.rs: forward", "src/tensor.rs: matrix_multiply_add_relu"]}
{"id": "C86", "title": "Fixed-point networks are trained exactly", "statement": "If the inputs, loss gradients, weights and biases of a network of fully connected and max-pooling layers are multiples of powers of two whose sums, forward, backward and over the batch, fit in 24 bits, then training on the batch rounds nowhere: the f32 weight and bias gradients are those of exact arithmetic, hence the true gradient of the loss summed over the batch.", "quantifier": "all networks of fully connected and max-pooling layers, batches, grids", "why_tests_cant": "all depths, batch sizes and values", "anchors": ["src/network.rs: infer, backward", "src/layer/fully_connected.rs: forward, backward", "src/layer/max_pool.rs: forward, backward", "src/tensor.rs: matrix_multiply_add_relu, relu_self_and_store_mask, matrix_multiply_transpose_first, matrix_multiply_transpose_second, max_pool_track_origin, add_from_index_list"]}
{"id": "C87", "title": "f32 gradients are within a stated bound of the true gradient", "statement": "In a network of fully connected, max-pooling and (n,1,1) softmax layers, if the inputs and loss gradients are known up to stated errors, nothing overflows, and on the exact samples no ReLU pre-activation is within its error of 0 and no pooling maximum is within twice the error of another value of its window, then training on a batch in f32 succeeds and every accumulated weight and bias gradient is finite and within an explicit bound of that of exact arithmetic, hence of the true gradient of the loss summed over the batch.", "quantifier": "all networks of these layers, batches, errors and bounds", "why_tests_cant": "all depths, batch sizes and values; compares rounding in f32 with exact arithmetic", "anchors": ["src/network.rs: infer, backward", "src/layer/fully_connected.rs: forward, backward", "src/layer/max_pool.rs: forward, backward", "src/layer/softmax.rs: forward, backward", "src/tensor.rs: matrix_multiply_transpose_second, add_to_self"]}
{"id": "C88", "title": "The accumulated gradients of all layers are one joint gradient", "statement": "After training on a batch, if the weights and biases of all fully connected layers move at the same time along any differentiable curves, the loss summed over the batch is differentiable and its derivative is the sum over the layers of the pairings of the accumulated gradients with the velocities. If some accumulated gradient is not zero, every short enough step against all of them at once lowers the loss.", "quantifier": "all networks, batches and differentiable curves of all parameters", "why_tests_cant": "a joint statement over all directions of the whole parameter space", "anchors": ["src/network.rs: infer, backward", "src/layer/fully_connected.rs: forward, backward", "src/layer/max_pool.rs: backward", "src/layer/softmax.rs: backward", "src/tensor.rs: matrix_multiply_transpose_second, add_to_self"]}
{"id": "C89", "title": "Shapes and indices mean what their constructors say", "statement": "TensorShape::new keeps positive extents and replaces 0 by 1, new_1d and new_2d fill up with 1, get returns the extents and determines equality, fits_index accepts exactly the indices below the extents, total_size is their number, transpose_ij swaps the first two components and is an involution.", "quantifier": "all extents and indices", "why_tests_cant": "all u32 values; counts all fitting indices", "anchors": ["src/tensor/helper.rs: TensorShape::new, new_1d, new_2d, total_size, fits_index, get, transpose_ij, TensorIndex::index_1d, index_2d, zero"]}
{"id": "C90", "title": "apply_gradients applies the accumulated gradients", "statement": "Layer::apply_gradients moves the parameters of a trained layer along its accumulated gradients.", "quantifier": "all layers and training histories", "why_tests_cant": "all layers and histories; the default body is empty", "anchors": ["src/layer.rs: Layer::apply_gradients"]}
{"id": "C91", "title": "Backward is linear in the gradient of the loss", "statement": "From any state of training, backward passes with the loss gradients g1, g2 and a g1 + b g2 all succeed, and the gradients at every boundary, the amounts added to the stored gradients of fully connected layers and the kernel gradients of convolutions are combined with the same a and b. A zero loss gradient adds nothing and gives zero at every boundary.", "quantifier": "all networks, histories, loss gradients and factors", "why_tests_cant": "a relation between three runs for all gradients and factors", "anchors": ["src/network.rs: backward", "src/layer/fully_connected.rs: backward", "src/layer/convolutional.rs: backward", "src/layer/max_pool.rs: backward", "src/layer/softmax.rs: backward", "src/tensor/operations/convolution.rs: convolution_backprop_outgoing_gradient, convolution_backprop_kernel"]}
{"id": "C92", "title": "Files written by something else", "statement": "A file reads as a tensor exactly if it starts with what save writes for that tensor. Any file that loads into an empty network, whatever the order of its entries, repeated keys or left-over bytes, can be replaced by the file saved from that network: on every network the new file gives the same layers, the same error or the same panic as the old one. Of several entries of a layer with the same key only the last counts, and the order of different keys does not matter.", "quantifier": "all files, map orders and networks loaded into", "why_tests_cant": "quantifies over all byte strings", "anchors": ["src/network.rs: load", "src/network.rs: save", "src/network.rs: populate_network", "src/tensor/operations/convolution.rs: load", "src/layer/fully_connected.rs: load", "src/layer/max_pool.rs: load", "src/layer/softmax.rs: load", "src/tensor.rs: from_file"]}
{"id": "C93", "title": "A small change of the parameters changes the output by little", "statement": "For two networks of the same structure whose weights and biases differ, run on inputs that are close, the difference of the outputs stays within a bound computed layer by layer from the sums of absolute weights, of their differences and of the biases. If no parameter of a layer changes by more than eps the layer adds at most (number of inputs of a unit) * eps * a + eps. Two f32 networks differ by at most this plus the rounding errors of C65.", "quantifier": "all networks, parameters, inputs and histories", "why_tests_cant": "quantifies over all pairs of parameter sets and all inputs", "anchors": ["src/network.rs: infer", "src/layer/fully_connected.rs: forward", "src/layer/convolutional.rs: forward", "src/layer/max_pool.rs: forward", "src/layer/softmax.rs: forward"]}
{"id": "C94", "title": "Behind softmax, loss gradients that differ by a constant have the same effect", "statement": "In a network in training mode whose last layer is a softmax layer of shape (n,1,1), backward after infer puts a gradient whose elements sum to zero in front of the softmax layer. For two loss gradients these are the same exactly if the loss gradients differ by one constant in all elements. Then every layer in front of the softmax layer accumulates the same gradients and every gradient between those layers is the same.", "quantifier": "all such networks, histories, inputs and pairs of loss gradients", "why_tests_cant": "quantifies over all real inputs, loss gradients and constants", "anchors": ["src/layer/softmax.rs: backward", "src/network.rs: backward"]}
{"id": "C95", "title": "The size of a network is fixed by its parameters and mode", "statement": "After any history of adding, loading, running and switching, the number of values each layer stores is a formula of its parameters and mode: 3|W|+3|b| for a fully connected layer in training mode and |W|+|b|+4 in inference mode, 2 sum|K|+sum|b|+#K+|out| and sum|K|+sum|b|+1 for a convolution, |out| and 0 for max pooling, 1+|s| and 2 for softmax. The intermediate states hold one value per element of each layer boundary, the intermediate gradients belong to the last boundaries. So infer and backward, whatever they return, never change the size of a network; in training mode it is the sum of the layers and twice the boundaries, after a switch to inference the sum of the layers and once the boundaries.", "quantifier": "all histories of operations on networks of well-formed layers, both build modes", "why_tests_cant": "quantifies over all histories; a leak can need a long history or a rare order of operations", "anchors": ["src/network.rs: add_layer, infer, backward, switch_to_inference, switch_to_training", "src/layer.rs: switch_to_training, switch_to_inference"]}
{"id": "C96", "title": "Hidden units and channels may be renumbered and rescaled", "statement": "Renumber the units between two consecutive fully connected layers of a network, multiply the weights and bias of each by a positive factor, and let the second layer read the renumbered units and divide by that factor: in exact arithmetic the network computes the same output for every input. The same holds for the channels between two convolutions, with any number of max pooling layers in between. All other layers of the two networks are the same. If each unit (channel) u of the last layer is a copy of unit s(u) of another network with the same layers in front, its output u is the other's output s(u), in f32 bit for bit.", "quantifier": "all networks, inputs, renumberings and positive factors", "why_tests_cant": "quantifies over all permutations and real factors", "anchors": ["src/network.rs: infer", "src/layer/fully_connected.rs: forward", "src/layer/convolutional.rs: forward", "src/layer/max_pool.rs: forward"]}
{"id": "C97", "title": "Negated losses give negated gradients", "statement": "Run a network in training mode on any batch, sample by sample, and run it again from the same zero gradients on the same inputs with every loss gradient negated. In f32 every stored gradient of the second run is the exact negative of the first run's, up to the sign of zeros; infinities become opposite infinities and NaN stays NaN. The values between the layers are the same and the gradients between them negated. The same holds from any two states with opposite stored gradients. In exact arithmetic a common factor of the loss gradients becomes a factor of all gradients.", "quantifier": "all networks whose backward pass succeeds, batches and loss gradients, including non-finite ones", "why_tests_cant": "quantifies over all batches and all f32 values; overflow, NaN and rounding have to be symmetric in every operation", "anchors": ["src/network.rs: infer, backward", "src/layer/fully_connected.rs: backward", "src/layer/convolutional.rs: backward", "src/layer/max_pool.rs: backward", "src/layer/softmax.rs: backward"]}
{"id": "C98", "title": "A unit that does not fire neither learns nor matters", "statement": "Train a network in f32 with samples on which output u of some fully connected layer is zero. The gradients stored for the weights and the bias of u keep their values, whatever the loss is. And the weights and bias of u have no influence: another network that differs in them alone, and in which u is zero on the same sample too, gives the same values at all layer boundaries, the same gradients at all layer boundaries and the same stored gradients. The inputs of the layer, the weights of u and the gradient that reaches u must be finite (zero times infinity is NaN), and stored gradients of -0.0 become +0.0.", "quantifier": "all networks whose backward pass succeeds, layers, units, samples and loss gradients", "why_tests_cant": "quantifies over all networks and f32 values; a sum passes through zero terms of either sign, NaN and infinities in other units", "anchors": ["src/layer/fully_connected.rs: forward, backward", "src/tensor.rs: relu_self_and_store_mask, multiply_elementwise_self, matrix multiplication", "src/network.rs: infer, backward"]}
{"id": "C99", "title": "Close to a smooth point the gradient predicts changes exactly", "statement": "Take a network of fully connected, pooling and exactly differentiated convolutional layers in training mode and an input at which it is smooth. In exact arithmetic there is a positive radius such that for every other input within it the change of the output, weighted by the output gradient handed to backward, equals the pairing of the input gradient backward leaves with the change of the input: not approximately, but exactly. The same holds for changes of one fully connected layer's weights, and of its biases, with the gradients backward adds to that layer.", "quantifier": "all networks without softmax, smooth inputs, output gradients, nearby inputs and parameters", "why_tests_cant": "infinitely many nearby points, networks of any depth; sampled finite differences cannot tell an exact prediction from a close one", "anchors": ["src/network.rs: infer, backward", "src/layer/fully_connected.rs: forward, backward", "src/layer/convolutional.rs: forward, backward", "src/layer/max_pool.rs: forward, backward"]}
{"id": "C100", "title": "No direction of an image is special", "statement": "Transpose an image, or flip its rows or columns, and give it to the network whose shapes, kernels and masks are turned in the same way: in exact arithmetic the output is the original output turned in the same way. This holds for networks of convolutions, max pooling and softmax. Where such networks are differentiable the input gradients backward leaves are turned in the same way too.", "quantifier": "all networks of convolutions, max pooling and softmax, all images, all three reflections (which generate all symmetries of a rectangle)", "why_tests_cant": "a mixed-up pair of axes only shows on shapes and kernels that are not symmetric themselves; the claim quantifies over all of them", "anchors": ["src/network.rs: infer, backward", "src/tensor/operations/convolution.rs: convolution_bias_relu", "src/layer/convolutional.rs: forward, backward", "src/layer/max_pool.rs: forward, backward", "src/layer/softmax.rs: forward"]}
{"id": "C101", "title": "Powers of two do not round", "statement": "Multiply the image given to a network of fully connected, convolutional and max-pooling layers by a power of two and the weights and biases of every layer so that its outputs are multiplied by powers of two as well: unless something overflows or a product underflows, the f32 outputs are the original ones times that power of two, rounding errors included. Scaling that is undone by a later layer leaves every bit of the output as it was.", "quantifier": "all networks of these layers, all images, all powers of two for every layer, all f32 environments", "why_tests_cant": "the claim is about the rounding of every intermediate sum for all parameters, not about a tolerance", "anchors": ["src/network.rs: infer", "src/layer/fully_connected.rs: forward", "src/layer/convolutional.rs: forward", "src/tensor/operations/convolution.rs: convolution_bias_relu", "src/layer/max_pool.rs: forward"]}
{"id": "C102", "title": "The platform does not show", "statement": "The language leaves open which NaN an f32 operation produces and which zero f32::max returns for +0.0 and -0.0. Whatever a platform chooses, the same calls on a network (adding layers, loading files, inference, backward passes, switching modes, in any order, with well-formed arguments or not) panic at the same call for the same reason or return the same results, and all numbers in the network agree bit by bit, except that one NaN may be another NaN. What leaves a fully connected, convolutional or pooling layer agrees in every bit, and so do saved files.", "quantifier": "all pairs of f32 environments with the same exp, all call sequences, all arguments, both build modes", "why_tests_cant": "tests run on one platform; the claim compares it with every other for every sequence of calls", "anchors": ["src/network.rs: infer, backward, add_layer, load_from_file, switch_to_training, switch_to_inference", "src/tensor.rs: matrix_multiply_add_relu", "src/tensor/operations/convolution.rs: convolution_bias_relu"]}
{"id": "C103", "title": "Any differentiable loss", "statement": "Every training sample may have its own loss, any function of the output differentiable at the network's output there, and hands the gradient of that loss to backward. After a batch, starting from cleared gradients, the accumulated weight and bias gradients of all layers are the gradient of the total loss in all parameters together; a short enough step against them lowers the total loss unless they are all zero; and the gradient left at the input is the gradient of the sample's loss in the input. For the squared error the tensor to hand over is output minus target, for the cross entropy it is minus target over output, and a softmax layer turns the latter into output minus target.", "quantifier": "all losses differentiable at the output, all batches, all networks of fully connected, pooling and column softmax layers at points where they are differentiable, all differentiable ways to move the parameters", "why_tests_cant": "a test can compare difference quotients for one loss at some points; the claim is about derivatives for every loss", "anchors": ["src/network.rs: infer, backward", "src/layer/fully_connected.rs: backward", "src/layer/softmax.rs: backward"]}
{"id": "C104", "title": "Training after renumbering and rescaling units", "statement": "Let a second network be the first with the units between fully connected layers renumbered and multiplied by positive factors, which the readers divide out. Then any batch of forward and backward passes succeeds on both, and leaves values, gradients between the layers and accumulated gradients that correspond entry by entry: a weight's gradient is divided by the factor of what it makes and multiplied by the factor of what it reads. Without rescaling, any number of batches with gradient descent steps in between (step lengths may vary) leads to networks that are again the same up to the renumbering.", "quantifier": "all networks built in training mode (max pooling, softmax and convolutions whose backward pass stays inside may stand at boundaries that are not renumbered), renumberings, positive factors, batches, inputs, loss gradients and step lengths, over the reals", "why_tests_cant": "symmetry of whole training runs", "anchors": ["src/layer/fully_connected.rs: forward, backward", "src/network.rs: infer, backward"]}
{"id": "C105", "title": "A network may be run in two pieces", "statement": "Keep the front layers of a network in one network and the rest in another, hand the output of the first to the second in forward passes and the gradient the second leaves at its input to the first in backward passes, and make any calls (inference, backward passes, mode switches, new layers; inputs of the wrong shape and layers that do not fit included). In f32 the pieces panic exactly when the whole network does and for the same reason, or every call returns the same answer, and the pieces hold what the whole holds bit for bit: parameters, accumulated gradients, and the values and gradients at all layer boundaries.", "quantifier": "all well-formed layers, all positions of the cut, all sequences of calls with well-formed tensors and layers, both build profiles, every behaviour of exp and NaNs", "why_tests_cant": "all cuts and all call sequences, failures included", "anchors": ["src/network.rs: add_layer, infer, backward, switch_to_training, switch_to_inference, get_output"]}
{"id": "C106", "title": "Evaluations leave no trace in a training run", "statement": "Running inputs through a network, in training mode too, is forgotten. After any number of inference calls (inputs of the wrong shape included) all parameters, accumulated gradients, names, shapes and modes are what they were, and inference on one more input leaves exactly the network, bit for bit, that this inference alone would have left. So a training run with evaluations inserted before the forward pass of any of its samples ends in the very network that the run without evaluations ends in, or panics for the same reason. An evaluation between a sample's forward and backward pass does change the gradients; the example shows one.", "quantifier": "all networks built with the API, all evaluation inputs of any shape, all training runs with inputs of the network's input shape and any well-formed gradients, both build profiles, every behaviour of exp and NaNs", "why_tests_cant": "all networks, all runs and all places for evaluations", "anchors": ["src/network.rs: infer, backward", "src/layer/fully_connected.rs: forward", "src/layer/convolutional.rs: forward", "src/layer/max_pool.rs: forward", "src/tensor.rs: relu_self_and_store_mask, max_pooling_track_origin"]}
{"id": "C107", "title": "Names are only labels", "statement": "The names of layers influence nothing. Make any calls (new layers, loading files, inference, backward passes, mode switches) on two networks that differ in the names of their layers, with added layers under other names too: both panic for the same reason, or all calls return the same results, error messages included, and the networks afterwards differ in names only, bit for bit. Duplicate, empty or exchanged names are no exception. The constructors of all four kinds of layer, given another name, fail alike or return the same layer under that name.", "quantifier": "all networks, well-formed or not, all renamings, all sequences of calls, all file contents, both build profiles, every behaviour of exp and NaNs", "why_tests_cant": "all names and all call sequences", "anchors": ["src/network.rs: add_layer, infer, backward, switch_to_training, switch_to_inference, load_from_file", "src/layer/fully_connected.rs: new, forward, backward", "src/layer/convolutional.rs: new, forward, backward", "src/layer/max_pool.rs: new, forward, backward", "src/layer/softmax.rs: new, forward, backward"]}
{"id": "C108", "title": "Layers that do nothing", "statement": "Putting a layer that does nothing anywhere into a network leaves the inference output as it was, bit for bit: a fully connected layer with the identity matrix and zero bias, a convolution with stride 1 and one 1x1 kernel per channel that reads only its own channel, with zero biases, or pooling with 1x1 windows and stride 1. For this the values at that place must be finite with sign bit 0 (the identity matrix and kernels clip negative values), or merely not NaN for pooling; directly behind a fully connected or convolutional layer it is enough that they are finite.", "quantifier": "all networks built by any sequence of calls, all places of insertion, all inputs whose values at that place are as stated, both build profiles, every behaviour of exp and NaNs", "why_tests_cant": "all networks, all depths and all binary32 inputs", "anchors": ["src/network.rs: infer, forward", "src/layer/fully_connected.rs: forward", "src/layer/convolutional.rs: forward", "src/tensor/operations/convolution.rs: convolution_bias_relu", "src/layer/max_pool.rs: forward"]}
{"id": "C109", "title": "Equal units stay equal", "statement": "Training never tells two hidden units apart that start out equal. If two units between consecutive fully connected layers have the same weights and bias and are read with the same weights by the next layer, then after any batch of forward and backward passes both have the same accumulated gradients, and after any number of batches with a gradient descent step after each (step lengths may vary) they still have the same weights, biases and outgoing weights. In a layer whose weights and biases were filled with one value by fill_weights_with_value and fill_bias_with_value, read by a layer filled the same way, any two units are such a pair.", "quantifier": "all networks built in training mode with cleared gradients (any other layers, convolutions only if their backward pass stays inside), all pairs of units, batches, inputs, loss gradients and step lengths, both build profiles, over the reals", "why_tests_cant": "all networks and all training runs", "anchors": ["src/network.rs: infer, backward", "src/layer/fully_connected.rs: forward, backward, fill_weights_with_value, fill_bias_with_value"]}
