(** * The repository's own unit tests, replayed on the model

    50 of the 51 [#[test]] functions of /repo/src, on the f32 instance in a debug build, evaluated by the
    kernel (the three [_self] variants share an example with their counterpart; [test_uniform_fill] is
    about the random generator and is left out). These are tests, not proofs of properties: they tie
    the model to the behaviour the authors recorded. [test_write_read_tensor] uses a fixed list of samples
    instead of the generator and the file system of Serial.v. *)
From Coq.Strings Require Import Byte.
From Flocq Require Import IEEE754.Bits.
From Verif Require Import Base Arith Helper Tensor Convolution Network Bincode Serial Float32.
Local Open Scope string_scope.
Local Open Scope N_scope.

Notation bm := Debug.
#[local] Existing Instance f32_bits.
#[local] Instance demo_arith : Arith f32 := f32_arith demo_env.

Definition z (n : Z) : f32 := f32_of_Z n.
(** The decimal literal n/d, rounded once. *)
Definition q (n d : Z) : f32 := f32_div demo_env (z n) (z d).
Definition vec (l : list Z) : list f32 := map z l.

(** [Tensor { shape, strides: new_from_shape, data }] *)
Definition mk (s : shape) (d : list f32) : res (tensor f32) :=
  st <- stride_of_shape bm s ;; Done (mkTensor st s d).

Definition is_ok {A} (r : result A) : bool := match r with Ok _ => true | Err _ => false end.

(** A test passes when it runs without panicking and all its assertions hold. *)
Definition passes (t : res bool) : bool := match t with Done b => b | Panic _ => false end.

(** [t.fill_with_vec(d)] on a new tensor, asserted ok. *)
Definition filled (s : shape) (d : list f32) : res (tensor f32) :=
  t <- tensor_new bm s ;;
  '(t', r) <- fill_with_vec bm t d ;;
  if is_ok r then Done t' else Panic PUnwrap.

Definition unwrap {A} (r : res (result A)) : res A :=
  x <- r ;; match x with Ok a => Done a | Err _ => Panic PUnwrap end.

(** ** helper.rs *)
Definition stride_eqb (a b : stride3) : bool := (si a =? si b) && (sj a =? sj b) && (sk a =? sk b).

Example test_tensorshape_total_size : passes (
  a <- total_size bm (shape_new 5 4 8) ;;
  b <- total_size bm (shape_new 0 2 0) ;;
  Done ((a =? 160) && (b =? 2))) = true.
Proof. vm_compute; reflexivity. Qed.

Example test_tensor_shape_serialize_deserialize :
  match deserialize dec_shape (enc_shape (mkShape 2 3 5)) with
  | Some s => shape_eqb (mkShape 2 3 5) s
  | None => false
  end && (len (enc_shape (mkShape 2 3 5)) =? 12) = true.
Proof. vm_compute; reflexivity. Qed.

Example test_tensor_stride_from_shape : passes (
  s <- stride_of_shape bm (shape_new 5 6 10) ;; Done (stride_eqb s (mkStride 1 5 30))) = true.
Proof. vm_compute; reflexivity. Qed.

Example test_index_fits_shape :
  fits_index (shape_new 5 6 10) (mkIndex 2 4 7) && negb (fits_index (shape_new 5 6 10) (mkIndex 5 4 7)) = true.
Proof. vm_compute; reflexivity. Qed.

Example test_index_stride_multiply : passes (
  s <- stride_of_shape bm (shape_new 5 6 10) ;;
  i <- stride_mul bm s (mkIndex 2 4 7) ;; Done (i =? 232)) = true.
Proof. vm_compute; reflexivity. Qed.

(** ** tensor.rs *)
Example test_create_tensor : passes (
  t <- tensor_new bm (shape_new 3 4 5) ;; n <- total_items bm t ;; Done (n =? 60)) = true.
Proof. vm_compute; reflexivity. Qed.

Example test_get_set_tensor : passes (
  t <- tensor_new bm (shape_new 3 4 5) ;;
  a <- get_item bm t (mkIndex 1 3 2) ;;
  t <- set_item bm t (mkIndex 1 3 2) (z 7) ;;
  b <- get_item bm t (mkIndex 1 3 2) ;;
  t <- set_item bm t (mkIndex 5 3 2) (z 16) ;;
  c <- get_item bm t (mkIndex 5 3 2) ;;
  Done (feqb a (z 0) && feqb b (z 7) && feqb c (z 0))) = true.
Proof. vm_compute; reflexivity. Qed.

Example test_value_fill : passes (
  t <- tensor_new bm (mkShape 2 3 4) ;;
  Done (forallb (fun d => feqb d (z 7)) (data (fill_with_value t (z 7))))) = true.
Proof. vm_compute; reflexivity. Qed.

Example test_vec_fill : passes (
  t <- filled (mkShape 2 2 2) (vec [1;2;3;4;5;6;7;8])%Z ;;
  a <- get_item bm t (mkIndex 0 1 1) ;; Done (feqb a (z 7))) = true.
Proof. vm_compute; reflexivity. Qed.

Example test_get_norm : passes (
  t <- filled (mkShape 1 3 1) (vec [1;2;3])%Z ;;
  Done (feqb (get_norm t) (fsqrt (z 14)))) = true.
Proof. vm_compute; reflexivity. Qed.

Example test_tensor_equals : passes (
  t1 <- mk (shape_new 2 3 1) (vec [1;2;3;4;5;6])%Z ;;
  t2 <- mk (shape_new 2 3 1) (vec [2;3;4;5;6;7])%Z ;;
  t3 <- mk (shape_new 2 3 1) (vec [1;2;3;4;5;6])%Z ;;
  Done (tensor_eqb t1 t3 && tensor_neb t1 t2)) = true.
Proof. vm_compute; reflexivity. Qed.

Example test_tensor_add : passes (
  t1 <- mk (shape_new 2 3 1) (vec [1;2;3;4;5;6])%Z ;;
  t2 <- mk (shape_new 2 3 1) (vec [2;3;4;5;6;7])%Z ;;
  r <- tensor_new bm (shape_new 2 3 1) ;;
  x <- mk (shape_new 2 3 1) (vec [3;5;7;9;11;13])%Z ;;
  Done (tensor_eqb x (add t1 t2 r) && tensor_eqb x (add_to_self t1 t2))) = true.
Proof. vm_compute; reflexivity. Qed.

Example test_tensor_add_from_index_list : passes (
  t1 <- mk (shape_new 2 2 1) (vec [1;2;3;4])%Z ;;
  x <- mk (shape_new 3 3 1) (vec [4;2;0;4;0;0;0;0;0])%Z ;;
  image <- tensor_new bm (shape_new 3 3 1) ;;
  '(image, r) <- add_from_index_list bm t1 image [0;1;0;3] ;;
  Done (is_ok r && tensor_eqb x image)) = true.
Proof. vm_compute; reflexivity. Qed.

Example test_tensor_relu_self_and_store_mask : passes (
  i <- mk (shape_new 7 1 1) (vec [1;2;-3;-4;5;-6;7])%Z ;;
  m <- tensor_new bm (shape_new 7 1 1) ;;
  x <- mk (shape_new 7 1 1) (vec [1;1;0;0;1;0;1])%Z ;;
  let '(_, m', r) := relu_self_and_store_mask i m in
  Done (is_ok r && tensor_eqb x m')) = true.
Proof. vm_compute; reflexivity. Qed.

Example test_tensor_multiply_elementwise : passes (
  t1 <- filled (shape_2d 2 3) (vec [1;2;3;4;5;6])%Z ;;
  t2 <- filled (shape_2d 2 3) (vec [2;1;3;5;2;1])%Z ;;
  x <- filled (shape_2d 2 3) (vec [2;2;9;20;10;6])%Z ;;
  r <- tensor_new bm (shape_2d 2 3) ;;
  Done (tensor_eqb x (multiply_elementwise_self t1 t2) && tensor_eqb x (multiply_elementwise t1 t2 r))) = true.
Proof. vm_compute; reflexivity. Qed.

Example test_tensor_transpose_ij : passes (
  i <- mk (shape_new 2 3 2) (vec [1;2;3;4;5;6;7;8;9;10;11;12])%Z ;;
  x <- mk (shape_new 3 2 2) (vec [1;3;5;2;4;6;7;9;11;8;10;12])%Z ;;
  o <- tensor_new bm (shape_new 3 2 2) ;;
  '(o, r) <- transpose_ij bm i o ;;
  Done (is_ok r && tensor_eqb x o)) = true.
Proof. vm_compute; reflexivity. Qed.

Example test_tensor_scale : passes (
  t1 <- mk (shape_new 2 3 1) (vec [1;2;3;4;5;6])%Z ;;
  x <- mk (shape_new 2 3 1) (vec [2;4;6;8;10;12])%Z ;;
  r <- tensor_new bm (shape_new 2 3 1) ;;
  Done (tensor_eqb x (scale t1 (z 2) r) && tensor_eqb x (scale_self t1 (z 2)))) = true.
Proof. vm_compute; reflexivity. Qed.

Example test_softmax : passes (
  t1 <- mk (shape_new 1 3 1) (vec [1;2;3])%Z ;;
  r <- tensor_new bm (shape_new 1 3 1) ;;
  let f1 := fexp (z 1) in let f2 := fexp (z 2) in let f3 := fexp (z 3) in
  let sum := fadd (fadd f1 f2) f3 in
  x <- mk (shape_new 1 3 1) [fdiv f1 sum; fdiv f2 sum; fdiv f3 sum] ;;
  o <- softmax t1 r ;;
  Done (tensor_eqb x o)) = true.
Proof. vm_compute; reflexivity. Qed.

Example test_tensor_matrix_multiply : passes (
  t1 <- mk (shape_new 2 3 1) (vec [1;2;3;4;5;6])%Z ;;
  t2 <- mk (shape_new 3 3 1) (vec [1;1;1;1;1;1;1;1;1])%Z ;;
  r <- tensor_new bm (shape_new 2 3 1) ;;
  x <- mk (shape_new 2 3 1) (vec [9;12;9;12;9;12])%Z ;;
  o <- matrix_multiply bm t1 t2 r ;;
  Done (tensor_eqb x o)) = true.
Proof. vm_compute; reflexivity. Qed.

Example test_tensor_matrix_multiply_transpose_first : passes (
  t1 <- mk (shape_new 3 1 1) (vec [1;2;3])%Z ;;
  t2 <- mk (shape_new 3 1 1) (vec [3;4;5])%Z ;;
  r <- tensor_new bm (shape_new 1 1 1) ;;
  x <- mk (shape_new 1 1 1) (vec [26])%Z ;;
  '(o, e) <- matrix_multiply_transpose_first bm t1 t2 r ;;
  Done (is_ok e && tensor_eqb x o)) = true.
Proof. vm_compute; reflexivity. Qed.

Example test_tensor_matrix_multiply_transpose_second : passes (
  t1 <- mk (shape_new 3 1 1) (vec [1;2;3])%Z ;;
  t2 <- mk (shape_new 3 1 1) (vec [3;4;5])%Z ;;
  r <- tensor_new bm (shape_new 3 3 1) ;;
  x <- mk (shape_new 3 3 1) (vec [3;6;9;4;8;12;5;10;15])%Z ;;
  '(o, e) <- matrix_multiply_transpose_second bm t1 t2 r ;;
  Done (is_ok e && tensor_eqb x o)) = true.
Proof. vm_compute; reflexivity. Qed.

Example test_matrix_multiply_shape_check :
  check_matrix_multiply_dimensions (shape_new 5 6 7) (shape_new 6 8 7) (shape_new 5 8 7)
  && negb (check_matrix_multiply_dimensions (shape_new 6 8 7) (shape_new 5 6 7) (shape_new 5 8 7)) = true.
Proof. vm_compute; reflexivity. Qed.

Example test_max_pooling : passes (
  i <- tensor_new bm (shape_new 5 5 3) ;;
  let i := fill_with_value i (z 1) in
  i <- set_item bm i (mkIndex 0 0 0) (z 2) ;;
  i <- set_item bm i (mkIndex 2 2 1) (z 3) ;;
  i <- set_item bm i (mkIndex 4 4 2) (z 4) ;;
  r <- tensor_new bm (shape_new 2 2 3) ;;
  x <- mk (shape_new 2 2 3) (vec [2;1;1;1;3;3;3;3;1;1;1;4])%Z ;;
  o <- max_pool bm i (shape_new 3 3 1) 2 r ;;
  Done (tensor_eqb o x)) = true.
Proof. vm_compute; reflexivity. Qed.

Fixpoint Nlist_eqb (a b : list N) : bool :=
  match a, b with
  | [], [] => true
  | x :: a, y :: b => (x =? y) && Nlist_eqb a b
  | _, _ => false
  end.

Example test_max_pooling_track_output : passes (
  i <- filled (shape_new 3 3 1) (vec [1;2;3;4;5;6;7;8;9])%Z ;;
  r <- tensor_new bm (shape_new 2 2 1) ;;
  x <- mk (shape_new 2 2 1) (vec [5;6;8;9])%Z ;;
  n <- total_size bm (shape_new 2 2 1) ;;
  '(o, tr, e) <- max_pool_track_origin bm i (shape_new 2 2 1) 1 r (repeat 0 (N.to_nat n)) ;;
  Done (is_ok e && tensor_eqb o x && Nlist_eqb [4;5;7;8] tr)) = true.
Proof. vm_compute; reflexivity. Qed.

Example test_multiply_add_relu : passes (
  i <- mk (shape_new 2 1 1) [z 1; q 1 2] ;;
  b <- mk (shape_new 3 1 1) (vec [1;0;-1])%Z ;;
  w <- mk (shape_new 3 2 1) (vec [1;0;2;2;-1;0])%Z ;;
  r <- tensor_new bm (shape_new 3 1 1) ;;
  x <- mk (shape_new 3 1 1) (vec [3;0;1])%Z ;;
  o <- matrix_multiply_add_relu bm i w b r ;;
  Done (tensor_eqb o x)) = true.
Proof. vm_compute; reflexivity. Qed.

Example test_tensor_serialize_deserialize : passes (
  t <- tensor_new bm (mkShape 5 5 5) ;;
  match deserialize dec_tensor (enc_tensor t) with
  | Some t' => Done (tensor_eqb t' t)
  | None => Panic PUnwrap
  end) = true.
Proof. vm_compute; reflexivity. Qed.

(** The generator is replaced by the samples 0.0, 1.0, 2.0, .. *)
Example test_write_read_tensor : passes (
  t <- tensor_new bm (mkShape 3 4 5) ;;
  t <- fill_with_gaussian true (fun n => z (Z.of_nat n)) t ;;
  let '(fs, r) := tensor_save t (fun _ => None) "tensor.tsr" WriteOk in
  match tensor_from_file fs "tensor.tsr" with
  | Ok t' => Done (is_ok r && tensor_eqb t t')
  | Err _ => Panic PUnwrap
  end) = true.
Proof. vm_compute; reflexivity. Qed.

(** ** convolution.rs *)
Definition test_image : res (tensor f32) :=
  filled (shape_new 4 4 1)
    [z 1; z 1; z 0; z 0; z 0; z 1; q 1 2; z 0; z 0; z 0; z 1; q 1 2; z 0; z 0; z 0; q 1 2].

Example test_convolution : passes (
  i <- test_image ;;
  k <- mk (shape_new 3 3 1) (vec [1;0;0;0;1;0;0;0;1])%Z ;;
  b <- mk (shape_new 1 1 1) (vec [1])%Z ;;
  r <- tensor_new bm (shape_new 2 2 1) ;;
  x <- mk (shape_new 2 2 1) [z 4; z 3; z 1; q 7 2] ;;
  '(o, e) <- convolution_bias bm i k b 1 r 0 ;;
  Done (is_ok e && tensor_eqb o x)) = true.
Proof. vm_compute; reflexivity. Qed.

Example test_convolution_bias_relu : passes (
  i <- test_image ;;
  k <- mk (shape_new 3 3 1) (vec [1;0;0;0;1;0;0;0;1])%Z ;;
  b <- tensor_new bm (shape_1d 1) ;;
  let b := fill_with_value b (q (-21) 10) in
  r <- tensor_new bm (shape_new 2 2 1) ;;
  x <- mk (shape_new 2 2 1) [fadd (z 3) (q (-21) 10); z 0; z 0; fadd (q 5 2) (q (-21) 10)] ;;
  '(o, e) <- convolution_bias_relu bm i k b 1 r 0 ;;
  Done (is_ok e && tensor_eqb o x)) = true.
Proof. vm_compute; reflexivity. Qed.

Example test_convolution_backprop_kernel : passes (
  i <- test_image ;;
  g <- filled (shape_new 2 2 1) (vec [1;2;0;2])%Z ;;
  kg <- tensor_new bm (shape_new 2 2 1) ;;
  x <- filled (shape_new 2 2 1) (vec [3;2;1;2])%Z ;;
  '(o, e) <- convolution_backprop_kernel bm g i 2 0 kg ;;
  Done (is_ok e && tensor_eqb o x)) = true.
Proof. vm_compute; reflexivity. Qed.

Example test_convolution_backprop_outgoing_gradient : passes (
  g <- filled (shape_new 2 2 2) (vec [1;2;0;2;1;0;0;1])%Z ;;
  k1 <- filled (shape_new 2 2 1) (vec [1;2;3;4])%Z ;;
  k2 <- filled (shape_new 2 2 1) (vec [8;7;6;5])%Z ;;
  og <- tensor_new bm (shape_new 3 3 1) ;;
  x <- filled (shape_new 3 3 1) (vec [9;11;4;9;25;19;0;12;13])%Z ;;
  '(o, e) <- convolution_backprop_outgoing_gradient bm g [k1; k2] 1 og ;;
  Done (is_ok e && tensor_eqb x o)) = true.
Proof. vm_compute; reflexivity. Qed.

Example test_convolution_check_dimensions : passes (
  a <- check_convolution_dimensions bm (shape_new 17 25 7) (shape_new 3 3 7) 2 (shape_new 8 12 3) 1 ;;
  b <- check_convolution_dimensions bm (shape_new 17 25 7) (shape_new 3 3 7) 3 (shape_new 8 12 3) 1 ;;
  Done (is_ok a && negb (is_ok b))) = true.
Proof. vm_compute; reflexivity. Qed.

(** ** fully_connected.rs *)
Example test_value_filling : passes (
  l <- fc_new bm 4 4 "Test layer" ;;
  let l := fc_fill_bias (fc_fill_weights l (z 7)) (z 25) in
  b <- get_item bm (fc_bias l) (index_1d 2) ;;
  w <- get_item bm (fc_weights l) (index_2d 1 2) ;;
  Done (feqb b (z 25) && feqb w (z 7))) = true.
Proof. vm_compute; reflexivity. Qed.

Example test_fc_serialize_deserialize : passes (
  l <- fc_new bm 4 4 "Test layer" ;;
  let l := fc_fill_bias (fc_fill_weights l (z 7)) (z 25) in
  o <- fc_empty bm ;;
  '(o, r) <- fc_load bm o (fc_get_serialized l) ;;
  Done (is_ok r && tensor_eqb (fc_weights o) (fc_weights l) && tensor_eqb (fc_bias o) (fc_bias l)
        && String.eqb (fc_name o) (fc_name l))) = true.
Proof. vm_compute; reflexivity. Qed.

Example test_fc_backprop : passes (
  l <- fc_empty bm ;;
  w <- filled (shape_2d 3 3) (vec [1;2;3;-1;-2;-8;1;1;-2])%Z ;;
  b <- filled (shape_1d 3) (vec [1;0;2])%Z ;;
  i <- filled (shape_1d 3) (vec [2;1;1])%Z ;;
  xo <- filled (shape_1d 3) (vec [3;3;0])%Z ;;
  o <- tensor_new bm (shape_1d 3) ;;
  og <- tensor_new bm (shape_1d 3) ;;
  ig <- filled (shape_1d 3) (vec [1;2;3])%Z ;;
  xog <- filled (shape_1d 3) (vec [5;-5;3])%Z ;;
  xbg <- filled (shape_1d 3) (vec [1;2;0])%Z ;;
  xwg <- filled (shape_2d 3 3) (vec [2;4;0;1;2;0;1;2;0])%Z ;;
  xm <- filled (shape_1d 3) (vec [1;1;0])%Z ;;
  '(l, r1) <- fc_fill_from_state bm l w b "Test layer" ;;
  l <- fc_switch_to_training bm l ;;
  '(l, o, r2) <- fc_forward bm l i o ;;
  let m := fc_relu_mask l in
  '(l, og, r3) <- fc_backward bm l i o ig og ;;
  Done (is_ok r1 && is_ok r2 && is_ok r3 && tensor_eqb o xo && tensor_eqb m xm && tensor_eqb og xog
        && tensor_eqb (fc_bias_gradients l) xbg && tensor_eqb (fc_weights_gradients l) xwg)) = true.
Proof. vm_compute; reflexivity. Qed.

(** ** convolutional.rs *)
Fixpoint tensors_eqb (a b : list (tensor f32)) : bool :=
  match a, b with
  | [], [] => true
  | x :: a, y :: b => tensor_eqb x y && tensors_eqb a b
  | _, _ => false
  end.

Example test_cv_serialize_deserialize : passes (
  l <- unwrap (cv_new bm (mkShape 2 2 1) (mkShape 4 4 1) 2 4 "Convolutional layer") ;;
  n <- cv_empty bm ;;
  '(n, r) <- cv_load bm n (cv_get_serialized l) ;;
  Done (is_ok r && tensors_eqb (cv_kernels n) (cv_kernels l) && tensors_eqb (cv_biases n) (cv_biases l)
        && shape_eqb (cv_input_shape n) (cv_input_shape l) && shape_eqb (cv_output_shape n) (cv_output_shape l)
        && (cv_stride n =? cv_stride l) && String.eqb (cv_name n) (cv_name l))) = true.
Proof. vm_compute; reflexivity. Qed.

Example test_cv_backprop : passes (
  i <- filled (shape_new 3 3 1) [z 1; z 1; z 0; z 0; z 1; q 1 2; z 0; z 0; z 1] ;;
  k1 <- filled (shape_new 2 2 1) (vec [1;0;0;1])%Z ;;
  k2 <- filled (shape_new 2 2 1) (vec [1;1;0;0])%Z ;;
  b1 <- tensor_new bm (shape_1d 1) ;;
  let b1 := fill_with_value b1 (z 0) in
  b2 <- tensor_new bm (shape_1d 1) ;;
  let b2 := fill_with_value b2 (q (-3) 2) in
  l <- cv_empty bm ;;
  '(l, r1) <- cv_fill_from_state bm l [k1; k2] [b1; b2] (shape_new 3 3 1) 1 "Convolutional layer" ;;
  o <- tensor_new bm (shape_new 2 2 2) ;;
  x <- filled (shape_new 2 2 2) [z 2; q 3 2; z 0; z 2; q 1 2; z 0; z 0; z 0] ;;
  '(l, o1, r2) <- cv_forward bm l i o ;;
  l <- cv_switch_to_training bm l ;;
  '(l, o2, r3) <- cv_forward bm l i o1 ;;
  ig <- filled (get_shape o2) (vec [1;0;0;1;0;1;1;0])%Z ;;
  og <- tensor_new bm (get_shape i) ;;
  '(l, og', r4) <- cv_backward bm l i o2 ig og ;;
  Done (is_ok r1 && is_ok r2 && is_ok r3 && is_ok r4 && tensor_eqb o1 x && tensor_eqb o2 x
        && tensor_neb og' og)) = true.
Proof. vm_compute; reflexivity. Qed.

(** ** max_pool.rs *)
Example test_mp_serialize_deserialize : passes (
  l <- unwrap (mp_new bm (mkShape 2 2 1) (mkShape 4 4 1) 1 "Max pooling") ;;
  n <- unwrap (mp_new bm (mkShape 1 1 1) (mkShape 1 1 1) 1 "Empty layer") ;;
  '(n, r) <- mp_load bm n (mp_get_serialized l) ;;
  Done (is_ok r && String.eqb (mp_name n) "Max pooling" && shape_eqb (mp_mask_shape n) (mkShape 2 2 1)
        && shape_eqb (mp_input_shape n) (mkShape 4 4 1) && (mp_stride n =? 1))) = true.
Proof. vm_compute; reflexivity. Qed.

Example test_mp_backprop : passes (
  i <- filled (shape_2d 3 3) (vec [1;2;3;4;5;6;7;8;9])%Z ;;
  o <- tensor_new bm (shape_2d 2 2) ;;
  xo <- filled (shape_2d 2 2) (vec [5;6;8;9])%Z ;;
  ig <- filled (shape_2d 2 2) (vec [5;4;3;2])%Z ;;
  og <- tensor_new bm (get_shape i) ;;
  xog <- filled (get_shape i) (vec [0;0;0;0;5;4;0;3;2])%Z ;;
  '(l, r1) <- mp_fill_from_state bm mp_empty (get_shape i) (shape_2d 2 2) 1 "Test layer" ;;
  l <- mp_switch_to_training bm l ;;
  '(l, o, r2) <- mp_forward bm l i o ;;
  '(l', og, r3) <- mp_backward bm l i o ig og ;;
  Done (is_ok r1 && is_ok r2 && is_ok r3 && tensor_eqb o xo && Nlist_eqb (mp_origin l) [4;5;7;8]
        && tensor_eqb og xog)) = true.
Proof. vm_compute; reflexivity. Qed.

(** ** softmax.rs *)
Example test_sm_serialize_deserialize : passes (
  l <- unwrap (sm_new bm (mkShape 5 4 3) "Softmax layer") ;;
  n <- unwrap (sm_new bm (shape_new 1 1 1) "Nothing") ;;
  '(n, r) <- sm_load (F := f32) n (sm_get_serialized (F := f32) l) ;;
  Done (is_ok r && String.eqb (sm_name n) "Softmax layer" && shape_eqb (sm_shape n) (mkShape 5 4 3))) = true.
Proof. vm_compute; reflexivity. Qed.

Example test_sm_backprop : passes (
  i <- filled (shape_1d 3) (vec [1;2;3])%Z ;;
  o <- tensor_new bm (shape_1d 3) ;;
  og <- tensor_new bm (shape_1d 3) ;;
  let sum := fadd (fadd (fexp (z 1)) (fexp (z 2))) (fexp (z 3)) in
  xo <- filled (shape_1d 3) [fdiv (fexp (z 1)) sum; fdiv (fexp (z 2)) sum; fdiv (fexp (z 3)) sum] ;;
  ig <- filled (shape_1d 3) (vec [4;5;6])%Z ;;
  l <- unwrap (sm_new bm (get_shape i) "softmax layer") ;;
  l <- sm_switch_to_training bm l ;;
  '(l, o, r1) <- sm_forward l i o ;;
  '(l, og, r2) <- sm_backward bm l i o ig og ;;
  Done (is_ok r1 && tensor_eqb o xo && is_ok r2)) = true.
Proof. vm_compute; reflexivity. Qed.

(** ** network.rs *)
Definition two_layers : res (fc_layer f32 * fc_layer f32) :=
  l1 <- fc_new bm 2 3 "full_layer_1" ;;
  l2 <- fc_new bm 3 2 "full_layer_2" ;;
  Done (fc_fill_bias (fc_fill_weights l1 (z 1)) (z 2), fc_fill_bias (fc_fill_weights l2 (z 3)) (z 4)).

Definition added (n : network f32) (l : layer f32) : res (network f32) :=
  '(n', r) <- add_layer bm n l ;; if is_ok r then Done n' else Panic PUnwrap.

Example test_adding_layer : passes (
  l1 <- unwrap (cv_new bm (shape_new 2 2 1) (shape_new 4 2 1) 1 1 "conv_layer_1") ;;
  l2 <- fc_new bm 3 8 "full_layer_1" ;;
  l3 <- fc_new bm 3 8 "full_layer_2" ;;
  let n := network_new Inference in
  n <- added n (LConv l1) ;;
  n <- added n (LFC l2) ;;
  '(n, r) <- add_layer bm n (LFC l3) ;;
  Done (negb (is_ok r) && shape_eqb (net_input_shape n) (cv_input_shape l1)
        && shape_eqb (net_output_shape n) (fc_output_shape l2))) = true.
Proof. vm_compute; reflexivity. Qed.

Definition all_mode (n : network f32) (s : run_state) : bool :=
  forallb (fun l => run_state_eqb (get_run_mode l) s) (layers n).

Example test_run_state : passes (
  l1 <- fc_new bm 3 8 "full_layer_1" ;;
  l2 <- fc_new bm 8 4 "full_layer_2" ;;
  n1 <- added (network_new Inference) (LFC l1) ;;
  n2 <- net_switch_to_training bm n1 ;;
  n3 <- added n2 (LFC l2) ;;
  n4 <- net_switch_to_inference bm n3 ;;
  Done (all_mode n1 Inference && all_mode n2 Training && all_mode n3 Training && all_mode n4 Inference)) = true.
Proof. vm_compute; reflexivity. Qed.

Example test_getting_intermediate_states : passes (
  l1 <- unwrap (cv_new bm (shape_new 2 2 1) (shape_new 4 2 1) 1 1 "conv_layer_1") ;;
  l2 <- fc_new bm 3 8 "full_layer_1" ;;
  n <- added (network_new Inference) (LConv l1) ;;
  n <- added n (LFC l2) ;;
  t <- unwrap (get_intermediate_state n 1) ;;
  Done (shape_eqb (get_shape t) (cv_output_shape l1))) = true.
Proof. vm_compute; reflexivity. Qed.

Example test_network_infer : passes (
  '(l1, l2) <- two_layers ;;
  i <- tensor_new bm (shape_new 2 1 1) ;;
  let i := fill_with_value i (z 1) in
  n <- added (network_new Inference) (LFC l1) ;;
  n <- added n (LFC l2) ;;
  '(n, r) <- infer bm n i ;;
  o <- unwrap (get_output n) ;;
  x <- tensor_new bm (mkShape 2 1 1) ;;
  Done (is_ok r && tensor_eqb (fill_with_value x (z 40)) o)) = true.
Proof. vm_compute; reflexivity. Qed.

Example test_network_backward : passes (
  '(l1, l2) <- two_layers ;;
  i <- tensor_new bm (shape_new 2 1 1) ;;
  let i := fill_with_value i (z 1) in
  n <- added (network_new Inference) (LFC l1) ;;
  n <- added n (LFC l2) ;;
  n <- net_switch_to_training bm n ;;
  '(n, r) <- infer bm n i ;;
  o <- unwrap (get_output n) ;;
  x <- tensor_new bm (mkShape 2 1 1) ;;
  ig <- tensor_new bm (get_shape o) ;;
  let ig := fill_with_value ig (z 1) in
  '(n', r') <- net_backward bm n ig ;;
  g1 <- tensor_new bm (shape_1d 3) ;;
  g0 <- tensor_new bm (get_shape i) ;;
  h1 <- vget (intermediate_gradients n') 1 ;;
  h0 <- vget (intermediate_gradients n') 0 ;;
  Done (is_ok r && is_ok r' && tensor_eqb (fill_with_value x (z 40)) o
        && tensor_eqb (fill_with_value g1 (z 6)) h1 && tensor_eqb (fill_with_value g0 (z 18)) h0)) = true.
Proof. vm_compute; reflexivity. Qed.

Example test_network_serialize_deserialize : passes (
  '(l1, l2) <- two_layers ;;
  n <- added (network_new Inference) (LFC l1) ;;
  n <- added n (LFC l2) ;;
  i <- tensor_new bm (shape_new 2 1 1) ;;
  let i := fill_with_value i (z 1) in
  '(n, r) <- infer bm n i ;;
  o <- unwrap (get_output n) ;;
  '(m, r2) <- populate_network bm (new_from_network n) (network_new Inference) ;;
  '(m', r3) <- infer bm m i ;;
  o' <- unwrap (get_output m') ;;
  n0 <- vget (layers m') 0 ;;
  n0' <- vget (layers n) 0 ;;
  Done (is_ok r && is_ok r2 && is_ok r3 && (len (layers m') =? 2)
        && String.eqb (get_name n0) (get_name n0') && tensor_eqb o o')) = true.
Proof. vm_compute; reflexivity. Qed.
