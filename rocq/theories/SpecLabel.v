(** * Vocabulary for C107: layers and networks with other names *)
From Verif Require Import Base Arith Helper Tensor Network Bincode Serial Spec SpecLayer SpecNet.

Section Label.
Context {F : Type}.

Definition rename (s : string) (l : layer F) : layer F :=
  match l with
  | LConv c => LConv (mkConv (cv_kernels c) (cv_biases c) (cv_kernel_gradients c) (cv_bias_gradients c) (cv_stride c) (cv_relu_mask c)
                             (cv_input_shape c) (cv_output_shape c) s (cv_run_state c))
  | LFC f => LFC (mkFC (fc_weights f) (fc_weights_gradients f) (fc_weights_gradients_intermediate f) (fc_bias f) (fc_bias_gradients f) (fc_relu_mask f)
                       s (fc_run_state f))
  | LMaxPool p => LMaxPool (mkMP (mp_input_shape p) (mp_mask_shape p) (mp_output_shape p) (mp_stride p) s (mp_run_state p) (mp_origin p))
  | LSoftmax m => LSoftmax (mkSM (sm_shape m) s (sm_intermediate1 m) (sm_intermediate2 m) (sm_run_state m))
  end.

(** The same layer under some name. *)
Definition renamed (l l' : layer F) : Prop := exists s, l' = rename s l.

(** Networks equal in all but the names of their layers. *)
Definition renamed_net (n n' : network F) : Prop :=
  Forall2 renamed (layers n) (layers n') /\ intermediate_states n' = intermediate_states n /\ intermediate_gradients n' = intermediate_gradients n
  /\ net_input_shape n' = net_input_shape n /\ net_output_shape n' = net_output_shape n /\ net_run_state n' = net_run_state n.

(** The same call, up to the name of the layer that is added. *)
Definition renamed_op (op op' : net_op F) : Prop :=
  match op, op' with
  | OAdd l, OAdd l' => renamed l l'
  | _, _ => op' = op
  end.

(** What a constructor returns: the same error, or the same layer under another name. *)
Definition renamed_result {X} (c : X -> layer F) (r r' : result X) : Prop :=
  match r, r' with
  | Ok x, Ok x' => renamed (c x) (c x')
  | Err e, Err e' => e' = e
  | _, _ => False
  end.

End Label.
