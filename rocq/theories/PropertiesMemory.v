(** * C95: the size of a network is fixed by its parameters and mode *)
From Verif Require Import Base Arith Helper Tensor Network Bincode Serial Float32 Spec SpecLayer SpecNet SpecMemory ProofsFloat ProofsMemory Demo DemoNet.

(** After any history every layer stores what its parameters and mode say, the states hold one value per boundary element, and the gradients
    belong to the last boundaries. *)
Theorem C95_after_any_history : forall e bm (n : network f32),
  let AR := f32_arith e in
  well_built bm n ->
  map layer_stored (layers n) = map (fun l => takes (get_run_mode l) (params_of l)) (layers n)
  /\ stored (intermediate_states n) = total (map volume (boundaries (layers n)))
  /\ (exists bs, boundaries (layers n) = (bs ++ map tshape (intermediate_gradients n))%list)
  /\ stored (intermediate_gradients n) <= total (map volume (boundaries (layers n))).
Proof. exact (fun e bm n => @memory_built f32 (f32_arith e) f32_bits bm n (f32_relu_agrees e)). Qed.
Print Assumptions C95_after_any_history.

Theorem C95_training : forall e bm (n : network f32),
  let AR := f32_arith e in
  training_built bm n ->
  net_stored n = total (map (takes Training) (map params_of (layers n))) + 2 * total (map volume (boundaries (layers n))).
Proof. exact (fun e bm n => @memory_training f32 (f32_arith e) f32_bits bm n (f32_relu_agrees e)). Qed.
Print Assumptions C95_training.

Theorem C95_inference : forall e bm (n n' : network f32),
  let AR := f32_arith e in
  well_built bm n -> net_switch_to_inference bm n = Done n' ->
  net_stored n' = total (map (takes Inference) (map params_of (layers n))) + total (map volume (boundaries (layers n))).
Proof. exact (fun e bm n n' => @memory_inference f32 (f32_arith e) f32_bits bm n n' (f32_relu_agrees e)). Qed.
Print Assumptions C95_inference.

(** Running the network, forwards or backwards, with whatever result. *)
Theorem C95_stable : forall e bm (n : network f32) op n' r,
  let AR := f32_arith e in
  well_built bm n -> good_op op -> match op with OInfer _ | OBackward _ => True | _ => False end ->
  run_op bm n op = Done (n', r) -> net_stored n' = net_stored n.
Proof. exact (fun e bm n op n' r => @memory_stable f32 (f32_arith e) f32_bits bm n op n' r (f32_relu_agrees e)). Qed.
Print Assumptions C95_stable.

(** Pooling, a fully connected layer and softmax: 51 numbers in training mode and 26 after the switch to inference. *)
Example C95_case : exists n, run_all Debug (network_new Training) [OAdd d_mp; OAdd d_fc; OAdd d_sm] = Some n
  /\ training_built Debug n
  /\ (net_stored n = 51
      /\ match run_all Debug n [OInfer (tn (mkShape 4 2 1) [1;2;3;4;5;6;7;8]%Z); OBackward (tn (mkShape 2 1 1) [1;2]%Z)] with Some n' => net_stored n' = 51 | None => False end
      /\ match run_all Debug n [OInference] with Some n' => net_stored n' = 26 | None => False end).
Proof.
  apply (computed _ (training_built Debug)).
  - intros n. apply run_all_training; [apply train_new|]. constructor; [split; [exact d_mp_ok|discriminate]|]. constructor; [split; [exact d_fc_ok|discriminate]|].
    constructor; [split; [exact d_sm_ok|discriminate]|constructor].
  - vm_compute. repeat split.
Qed.

(** A convolution of two 2x2 kernels: 62 and 28. *)
Example C95_conv_case : exists n, run_all Debug (network_new Training) [OAdd d_cv] = Some n
  /\ training_built Debug n
  /\ (net_stored n = 62 /\ match run_all Debug n [OInference] with Some n' => net_stored n' = 28 | None => False end).
Proof.
  apply (computed _ (training_built Debug)).
  - intros n. apply run_all_training; [apply train_new|]. constructor; [split; [exact d_cv_ok|discriminate]|constructor].
  - vm_compute. repeat split.
Qed.
