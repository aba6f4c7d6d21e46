(** * C102: the platform does not show *)
From Verif Require Import Base Arith Helper Tensor Network Bincode Serial Float32 Spec SpecLayer SpecNet SpecPlatform.
From Verif Require Import ProofsPlatform Demo DemoNet DemoPlatform.
Local Open Scope N_scope.

(** One call on any two networks that agree up to NaNs, well-formed or not. *)
Theorem C102_step : forall e1 e2 bm (n n' : network f32) op op', same_exp e1 e2 -> like_net same_bits n n' -> like_op same_bits op op' ->
  outcome (like_answer same_bits) (@run_op f32 (f32_arith e1) f32_bits bm n op) (@run_op f32 (f32_arith e2) f32_bits bm n' op').
Proof. exact (fun e1 e2 bm n n' op op' S => step_like e1 e2 S bm n n' op op'). Qed.
Print Assumptions C102_step.

(** Any sequence of calls, from a new network: both platforms panic for the same reason, or all calls return the same results and
    leave networks that agree up to NaNs. *)
Theorem C102_history : forall e1 e2 bm st (ops : list (net_op f32)), same_exp e1 e2 ->
  outcome (fun a a' => like_net same_bits (fst a) (fst a') /\ snd a' = snd a)
    (@history f32 (f32_arith e1) f32_bits bm (network_new st) ops) (@history f32 (f32_arith e2) f32_bits bm (network_new st) ops).
Proof. exact (fun e1 e2 bm st ops S => history_same e1 e2 S bm st ops). Qed.
Print Assumptions C102_history.

(** A file saved after any sequence of calls has the same bytes. *)
Theorem C102_files : forall e1 e2 bm st (ops : list (net_op f32)) h, same_exp e1 e2 ->
  outcome (fun a a' => to_byte_array h (new_from_network (fst a')) = to_byte_array h (new_from_network (fst a)))
    (@history f32 (f32_arith e1) f32_bits bm (network_new st) ops) (@history f32 (f32_arith e2) f32_bits bm (network_new st) ops).
Proof. exact (fun e1 e2 bm st ops h S => history_file e1 e2 S bm st ops h). Qed.
Print Assumptions C102_files.

(** What leaves a fully connected, convolutional or pooling layer has the same bits. *)
Theorem C102_states : forall e1 e2 bm (n n' : network f32) X X' m i l t, same_exp e1 e2 ->
  @well_built f32 (f32_arith e1) f32_bits bm n -> like_net same_bits n n' -> wf X -> like_tensor same_bits X X' ->
  @infer bm f32 (f32_arith e1) n X = Done (m, Ok tt) -> nth_error (layers n) (N.to_nat i) = Some l -> match l with LSoftmax _ => False | _ => True end ->
  get_intermediate_state m (i + 1) = Done (Ok t) ->
  exists m', @infer bm f32 (f32_arith e2) n' X' = Done (m', Ok tt) /\ get_intermediate_state m' (i + 1) = Done (Ok t).
Proof. exact (fun e1 e2 bm n n' X X' m i l t S => state_same e1 e2 S bm n n' X X' m i l t). Qed.
Print Assumptions C102_states.

(** Two platforms that differ in every choice they have: the bias gradients hold different NaNs, everything else agrees. The last
    call has an input of the wrong shape. *)
Example C102_case :
  same_exp platform_a platform_b
  /\ bits (f32_max platform_a (b32 2147483648) f32_zero) <> bits (f32_max platform_b (b32 2147483648) f32_zero)
  /\ p_seen platform_a = Some ([true; true; true; true; true; false],
       [[2143289344; 1065353216]; [0; 0]; [1056964608; 1056964608]], [[2143289344; 2143289344]; []])%Z
  /\ p_seen platform_b = Some ([true; true; true; true; true; false],
       [[2143289344; 1065353216]; [0; 0]; [1056964608; 1056964608]], [[4294967295; 4294967295]; []])%Z.
Proof.
  split; [exact p_same|]. split; [vm_compute; discriminate|]. split; vm_compute; reflexivity.
Qed.
