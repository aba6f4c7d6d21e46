(** * Vocabulary for C67-C69: the buffers of a layer *)
From Verif Require Import Base Arith Helper Tensor Network Spec SpecLayer.

Section Scalars.
Context {F : Type} {AR : Arith F}.

(** A tensor of shape [s] full of zeros. *)
Definition zeros (bm : build) (t : tensor F) (s : shape) : Prop := holds bm t s (fun _ _ _ => fzero).

(** One zero buffer of the right shape for everything backward accumulates or looks up. *)
Definition cleared (bm : build) (l : layer F) : Prop :=
  match l with
  | LFC l =>
      zeros bm (fc_weights_gradients l) (tshape (fc_weights l)) /\ zeros bm (fc_weights_gradients_intermediate l) (tshape (fc_weights l))
      /\ zeros bm (fc_bias_gradients l) (tshape (fc_bias l)) /\ zeros bm (fc_relu_mask l) (tshape (fc_bias l))
  | LConv l =>
      Forall2 (fun g k => zeros bm g (tshape k)) (cv_kernel_gradients l) (cv_kernels l)
      /\ Forall2 (fun g _ => zeros bm g (mkShape 1 1 1)) (cv_bias_gradients l) (cv_kernels l)
      /\ zeros bm (cv_relu_mask l) (cv_output_shape l)
  | LMaxPool l =>
      mp_origin l = repeat 0 (N.to_nat (di (mp_output_shape l) * dj (mp_output_shape l) * dk (mp_output_shape l)))
  | LSoftmax l => zeros bm (sm_intermediate1 l) (mkShape 1 1 1) /\ zeros bm (sm_intermediate2 l) (sm_shape l)
  end.

(** Nothing but placeholders of one element. *)
Definition dropped (bm : build) (l : layer F) : Prop :=
  let placeholder t := zeros bm t (mkShape 1 1 1) in
  match l with
  | LFC l =>
      placeholder (fc_weights_gradients l) /\ placeholder (fc_weights_gradients_intermediate l)
      /\ placeholder (fc_bias_gradients l) /\ placeholder (fc_relu_mask l)
  | LConv l => cv_kernel_gradients l = [] /\ cv_bias_gradients l = [] /\ placeholder (cv_relu_mask l)
  | LMaxPool l => mp_origin l = []
  | LSoftmax l => placeholder (sm_intermediate1 l) /\ placeholder (sm_intermediate2 l)
  end.

Definition buffers (bm : build) (st : run_state) (l : layer F) : Prop :=
  match st with Training => cleared bm l | Inference => dropped bm l end.

Definition switch_to (bm : build) (st : run_state) (l : layer F) : res (layer F) :=
  match st with Training => switch_to_training bm l | Inference => switch_to_inference bm l end.

(** Layers that were built or last switched to inference mode. *)
Definition idle (bm : build) (l : layer F) : Prop := get_run_mode l = Inference /\ dropped bm l.

End Scalars.
