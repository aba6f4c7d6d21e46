(** * Model of src/layer/convolutional.rs (serialization is in Serial.v) *)
From Verif Require Import Base Arith Helper Tensor Convolution FullyConnected.
Local Open Scope string_scope.
Local Open Scope N_scope.

(** convolutional.rs:18-29 [struct ConvolutionalLayer]. *)
Record conv_layer (F : Type) := mkConv {
  cv_kernels : list (tensor F);
  cv_biases : list (tensor F);
  cv_kernel_gradients : list (tensor F);
  cv_bias_gradients : list (tensor F);
  cv_stride : N;
  cv_relu_mask : tensor F;
  cv_input_shape : shape;
  cv_output_shape : shape;
  cv_name : string;
  cv_run_state : run_state
}.
Arguments mkConv {F}.
Arguments cv_kernels {F} _.
Arguments cv_biases {F} _.
Arguments cv_kernel_gradients {F} _.
Arguments cv_bias_gradients {F} _.
Arguments cv_stride {F} _.
Arguments cv_relu_mask {F} _.
Arguments cv_input_shape {F} _.
Arguments cv_output_shape {F} _.
Arguments cv_name {F} _.
Arguments cv_run_state {F} _.

Section WithBuild.
Context (bm : build).
Context {F : Type} {AR : Arith F}.
Notation T := (tensor F).
Notation L := (conv_layer F).

(** convolutional.rs:32-51 [update_gradient_and_intermediate_tensors]. *)
Definition cv_update (l : L) : res L :=
  match cv_run_state l with
  | Inference =>
      rm <- tensor_empty bm ;;
      Done (mkConv (cv_kernels l) (cv_biases l) [] [] (cv_stride l) rm
                   (cv_input_shape l) (cv_output_shape l) (cv_name l) (cv_run_state l))
  | Training =>
      kg <- forM (cv_kernels l) (fun k acc =>
              g <- tensor_new bm (get_shape k) ;; Done (acc ++ [g])%list) [] ;;
      b <- tensor_new bm (shape_1d 1) ;;
      let bg := repeat b (length (cv_kernels l)) in
      rm <- tensor_new bm (cv_output_shape l) ;;
      Done (mkConv (cv_kernels l) (cv_biases l) kg bg (cv_stride l) rm
                   (cv_input_shape l) (cv_output_shape l) (cv_name l) (cv_run_state l))
  end.

(** convolutional.rs:74-96 [ConvolutionalLayer::empty]. *)
Definition cv_empty : res L :=
  rm <- tensor_empty bm ;;
  Done (mkConv [] [] [] [] 1 rm (mkShape 1 1 1) (mkShape 1 1 1)
               "Empty convolutional layer" Inference).

(** convolutional.rs:98-140 [fill_from_state]. *)
Definition cv_fill_from_state (l : L) (kernels biases : list T) (input_shape : shape) (stride : N)
    (name : string) : res (L * result unit) :=
  match kernels with
  | [] => Done (l, Err "Kernel list should contain at least 1 kernel")
  | k0 :: _ =>
      let kernel_shape := get_shape k0 in
      if negb (forallb (fun k => shape_eqb (get_shape k) kernel_shape) kernels) then
        Done (l, Err "All kernels in kernel list should have the same shape")
      else
        fits <- does_kernel_stride_fit_image bm input_shape kernel_shape stride ;;
        if negb fits then Done (l, Err "Kernel does not fit in image with given stride")
        else
          '(dim0, dim1) <- get_convolution_dim_fit bm input_shape kernel_shape stride ;;
          Done (mkConv kernels biases (cv_kernel_gradients l) (cv_bias_gradients l) stride
                       (cv_relu_mask l) input_shape
                       (mkShape dim0 dim1 (as_u32 (len kernels))) name (cv_run_state l), Ok tt)
  end.

(** convolutional.rs:52-72 [ConvolutionalLayer::new]. *)
Definition cv_new (kernel_shape input_shape : shape) (stride output_depth : N) (name : string)
  : res (result L) :=
  l <- cv_empty ;;
  k <- tensor_new bm kernel_shape ;;
  let kernels := repeat k (N.to_nat output_depth) in
  b <- tensor_new bm (shape_1d 1) ;;
  let biases := repeat b (N.to_nat output_depth) in
  '(l', r) <- cv_fill_from_state l kernels biases input_shape stride name ;;
  match r with
  | Ok _ => Done (Ok l')
  | Err v => Done (Err v)
  end.

(** [self.relu_mask = m]. *)
Definition cv_set_mask (l : L) (m : T) : L :=
  mkConv (cv_kernels l) (cv_biases l) (cv_kernel_gradients l) (cv_bias_gradients l) (cv_stride l) m
         (cv_input_shape l) (cv_output_shape l) (cv_name l) (cv_run_state l).

(** [self.kernel_gradients = g]. *)
Definition cv_set_kernel_gradients (l : L) (g : list T) : L :=
  mkConv (cv_kernels l) (cv_biases l) g (cv_bias_gradients l) (cv_stride l) (cv_relu_mask l)
         (cv_input_shape l) (cv_output_shape l) (cv_name l) (cv_run_state l).

(** convolutional.rs:196-228 [forward]; returns (layer, output, Result). *)
Definition cv_forward (l : L) (input output : T) : res (L * T * result unit) :=
  match cv_run_state l with
  | Inference =>
      '(out, r) <- tryM (Nrange 0 (dk (cv_output_shape l)))
        (fun i out =>
           k <- vget (cv_kernels l) i ;;
           b <- vget (cv_biases l) i ;;
           convolution_bias_relu bm input k b (cv_stride l) out i) output ;;
      Done (l, out, r)
  | Training =>
      '(out, r) <- tryM (Nrange 0 (dk (cv_output_shape l)))
        (fun i out =>
           k <- vget (cv_kernels l) i ;;
           b <- vget (cv_biases l) i ;;
           convolution_bias bm input k b (cv_stride l) out i) output ;;
      match r with
      | Err e => Done (l, out, Err e)
      | Ok _ =>
          let '(out', mask, r') := relu_self_and_store_mask out (cv_relu_mask l) in
          Done (cv_set_mask l mask, out', r')
      end
  end.

(** convolutional.rs:229-264 [backward]; returns (layer, outgoing_gradient, Result). *)
Definition cv_backward (l : L) (input output incoming outgoing : T) : res (L * T * result unit) :=
  let l1 := cv_set_mask l (multiply_elementwise_self (cv_relu_mask l) incoming) in
  '(kg, r) <- tryM (Nrange 0 (len (cv_kernels l1)))
    (fun i kg =>
       g <- vget kg i ;;
       '(g', r) <- convolution_backprop_kernel bm incoming input (cv_stride l1) (as_u32 i) g ;;
       kg' <- vset kg i g' ;;
       Done (kg', r)) (cv_kernel_gradients l1) ;;
  let l2 := cv_set_kernel_gradients l1 kg in
  match r with
  | Err e => Done (l2, outgoing, Err e)
  | Ok _ =>
      '(og, r2) <- convolution_backprop_outgoing_gradient bm incoming (cv_kernels l2)
                     (cv_stride l2) outgoing ;;
      Done (l2, og, r2)
  end.

(** convolutional.rs:280-285 [clear_gradients]. *)
Definition cv_clear_gradients (l : L) : L :=
  cv_set_kernel_gradients l (map (fun v => fill_with_value v fzero) (cv_kernel_gradients l)).

(** [self.run_state = s] (lines 288, 292). *)
Definition cv_set_run_state (l : L) (s : run_state) : L :=
  mkConv (cv_kernels l) (cv_biases l) (cv_kernel_gradients l) (cv_bias_gradients l) (cv_stride l)
         (cv_relu_mask l) (cv_input_shape l) (cv_output_shape l) (cv_name l) s.

(** convolutional.rs:287-290 [switch_to_inference]. *)
Definition cv_switch_to_inference (l : L) : res L := cv_update (cv_set_run_state l Inference).

(** convolutional.rs:291-294 [switch_to_training]. *)
Definition cv_switch_to_training (l : L) : res L := cv_update (cv_set_run_state l Training).

End WithBuild.
