(** * C106: evaluations leave no trace in a training run *)
From Verif Require Import Base Arith Helper Tensor Network Bincode Serial Float32 Spec SpecLayer SpecNet SpecPlatform SpecTrace.
From Verif Require Import ProofsFloat NetRun ProofsTrace Demo DemoNet DemoPieces DemoTrace.
Local Open Scope N_scope.

(** However often a network has been evaluated, its parameters and gradients are what they were, and after one more evaluation the network
    is the one that evaluation alone would have left. *)
Theorem C106_forgotten : forall e bm (n : network f32) zs x, let AR := f32_arith e in
  well_built bm n -> layers n <> [] -> Forall wf zs -> shaped x (net_input_shape n) ->
  exists m rs n1, history bm n (map OInfer zs) = Done (m, rs) /\ infer bm m x = Done (n1, Ok tt) /\ infer bm n x = Done (n1, Ok tt)
    /\ intermediate_gradients m = intermediate_gradients n /\ Forall2 same_but_trace (layers n) (layers m).
Proof. exact (fun e bm n zs x => @evaluations_forgotten f32 (f32_arith e) f32_bits bm n zs x (f32_relu_agrees e)). Qed.
Print Assumptions C106_forgotten.

(** Training with evaluations between the samples ends in the network training without them ends in, or panics for the same reason. *)
Theorem C106_training : forall e bm (n : network f32) run, let AR := f32_arith e in
  well_built bm n -> layers n <> [] -> Forall (fun '(zs, (x, g)) => Forall wf zs /\ shaped x (net_input_shape n) /\ wf g) run ->
  outcome (fun a b => fst b = fst a) (history bm n (without_evaluations run)) (history bm n (with_evaluations run)).
Proof.
  exact (fun e bm n run B => @training_undisturbed f32 (f32_arith e) f32_bits bm run (f32_relu_agrees e) n (@built_ok f32 (f32_arith e) f32_bits bm n (f32_relu_agrees e) B)).
Qed.
Print Assumptions C106_training.

(** Pooling and two fully connected layers, evaluated before the first and the third sample, once with an input of the wrong shape. An
    evaluation between a sample's forward and backward pass does change the gradients: the runs of the theorem have none there. *)
Example C106_case :
  let AR := f32_arith demo_env in
  well_built Debug c_n /\ layers c_n <> [] /\ Forall (fun '(zs, (x, g)) => Forall wf zs /\ shaped x (net_input_shape c_n) /\ wf g) e_run
  /\ c_whole (with_evaluations e_run) = inl ([true; false; true; true; true; true; true; true; true; true], [[]; [1103101952; 0; 1091567616; 0]; [1113063424; 0; 0; 0]])%Z
  /\ c_whole (without_evaluations e_run) = inl ([true; true; true; true; true; true], [[]; [1103101952; 0; 1091567616; 0]; [1113063424; 0; 0; 0]])%Z
  /\ c_whole [OInfer d_image; OBackward (tn (mkShape 2 1 1) [1; 2]%Z)] = inl ([true; true], [[]; [1090519040; 0; 1077936128; 0]; [1099956224; 0; 0; 0]])%Z
  /\ c_whole [OInfer d_image; OInfer e_other; OBackward (tn (mkShape 2 1 1) [1; 2]%Z)] = inl ([true; true; true],
      [[]; [3233808384; 1102053376; 3249012736; 1117388800]; [1103101952; 1111490560; 1102577664; 1110966272]])%Z.
Proof. split; [exact e_built|]. split; [exact e_some|]. split; [exact e_fit|]. repeat split; vm_compute; reflexivity. Qed.
