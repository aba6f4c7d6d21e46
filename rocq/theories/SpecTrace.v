(** * Vocabulary for C106: evaluations between the steps of a training run *)
From Verif Require Import Base Arith Helper Tensor Network Bincode Serial Spec SpecLayer SpecNet.

Section Trace.
Context {F : Type}.

(** A sample of a training run: inputs the network is evaluated on first, then the input and the loss gradient trained with. *)
Definition evaluated_sample : Type := list (tensor F) * (tensor F * tensor F).

Definition with_evaluations (run : list evaluated_sample) : list (net_op F) :=
  flat_map (fun '(zs, (x, g)) => (map OInfer zs ++ [OInfer x; OBackward g])%list) run.
Definition without_evaluations (run : list evaluated_sample) : list (net_op F) :=
  flat_map (fun '(zs, (x, g)) => [OInfer x; OBackward g]) run.

(** Layers that agree in all but what a forward pass in training mode notes for the next backward pass: relu masks and pooling origins. *)
Definition same_but_trace (l l' : layer F) : Prop :=
  match l, l' with
  | LFC f, LFC f' => fc_weights f' = fc_weights f /\ fc_bias f' = fc_bias f /\ fc_weights_gradients f' = fc_weights_gradients f
      /\ fc_weights_gradients_intermediate f' = fc_weights_gradients_intermediate f /\ fc_bias_gradients f' = fc_bias_gradients f /\ fc_name f' = fc_name f /\ fc_run_state f' = fc_run_state f
  | LConv c, LConv c' => cv_kernels c' = cv_kernels c /\ cv_biases c' = cv_biases c /\ cv_kernel_gradients c' = cv_kernel_gradients c
      /\ cv_bias_gradients c' = cv_bias_gradients c /\ cv_stride c' = cv_stride c /\ cv_input_shape c' = cv_input_shape c
      /\ cv_output_shape c' = cv_output_shape c /\ cv_name c' = cv_name c /\ cv_run_state c' = cv_run_state c
  | LMaxPool p, LMaxPool p' => mp_mask_shape p' = mp_mask_shape p /\ mp_stride p' = mp_stride p /\ mp_input_shape p' = mp_input_shape p
      /\ mp_output_shape p' = mp_output_shape p /\ mp_name p' = mp_name p /\ mp_run_state p' = mp_run_state p
  | LSoftmax s, LSoftmax s' => s' = s
  | _, _ => False
  end.

End Trace.
Arguments evaluated_sample F : clear implicits.
