(** * Vocabulary for C95: how many numbers a network stores *)
From Verif Require Import Base Arith Helper Tensor Network Spec SpecLayer.

Definition total (l : list N) : N := fold_right N.add 0 l.

(** The size a shape stands for. *)
Definition volume (s : shape) : N := di s * dj s * dk s.

Section Scalars.
Context {F : Type}.
Notation T := (tensor F).

(** What the vectors of these tensors hold. *)
Definition stored (ts : list T) : N := total (map (fun t => len (data t)) ts).

Definition layer_stored (l : layer F) : N :=
  match l with
  | LFC l => stored [fc_weights l; fc_bias l; fc_weights_gradients l; fc_weights_gradients_intermediate l; fc_bias_gradients l; fc_relu_mask l]
  | LConv l => stored (cv_kernels l ++ cv_biases l ++ cv_kernel_gradients l ++ cv_bias_gradients l ++ [cv_relu_mask l])
  | LMaxPool l => len (mp_origin l)
  | LSoftmax l => stored [sm_intermediate1 l; sm_intermediate2 l]
  end.

Definition net_stored (n : network F) : N :=
  total (map layer_stored (layers n)) + stored (intermediate_states n) + stored (intermediate_gradients n).

(** What a layer with these parameters takes in this mode. *)
Definition takes (st : run_state) (p : params F) : N :=
  let sizes ts := total (map (fun t : T => volume (tshape t)) ts) in
  match p, st with
  | PFC w b, Training => 3 * volume (tshape w) + 3 * volume (tshape b)
  | PFC w b, Inference => volume (tshape w) + volume (tshape b) + 4
  | PConv kernels biases _ _ outs, Training => 2 * sizes kernels + sizes biases + len kernels + volume outs
  | PConv kernels biases _ _ _, Inference => sizes kernels + sizes biases + 1
  | PMaxPool _ _ outs _, Training => volume outs
  | PMaxPool _ _ _ _, Inference => 0
  | PSoftmax s, Training => 1 + volume s
  | PSoftmax _, Inference => 2
  end.

End Scalars.
