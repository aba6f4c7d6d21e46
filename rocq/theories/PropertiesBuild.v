(** * C58: where a debug build does not panic, a release build does the same *)
From Verif Require Import Base Arith Helper Tensor Convolution Network Bincode Serial Float32 Spec SpecOps SpecNet ProofsBuild Demo DemoNet.

(** Histories of tensor operations, *)
Theorem C58_tensor_history : forall F (AR : Arith F) (h : list (tensor_op F)) p p',
  run_ops Debug h p = Done p' -> run_ops Release h p = Done p'.
Proof. exact @build_ops. Qed.
Print Assumptions C58_tensor_history.

(** the answers those histories drop, *)
Theorem C58_answers : forall F (AR : Arith F) (t r : tensor F) (x : index) (im k : shape) (stride : N) (rs : shape) (ch : N) (d : list F) l,
  (forall v, get_item Debug t x = Done v -> get_item Release t x = Done v)
  /\ (forall v, get_data_index Debug t x = Done v -> get_data_index Release t x = Done v)
  /\ (forall v, total_items Debug t = Done v -> total_items Release t = Done v)
  /\ (forall v, fill_with_vec Debug t d = Done v -> fill_with_vec Release t d = Done v)
  /\ (forall v, max_pool_track_origin Debug t im stride r l = Done v -> max_pool_track_origin Release t im stride r l = Done v)
  /\ (forall v, does_kernel_stride_fit_image Debug im k stride = Done v -> does_kernel_stride_fit_image Release im k stride = Done v)
  /\ (forall v, get_convolution_dim_fit Debug im k stride = Done v -> get_convolution_dim_fit Release im k stride = Done v)
  /\ (forall v, check_max_pooling_dimensions Debug im k stride rs = Done v -> check_max_pooling_dimensions Release im k stride rs = Done v)
  /\ (forall v, check_convolution_dimensions Debug im k stride rs ch = Done v -> check_convolution_dimensions Release im k stride rs ch = Done v).
Proof. exact @build_queries. Qed.
Print Assumptions C58_answers.

(** constructing and running layers, *)
Theorem C58_constructors : forall F (AR : Arith F) (i o stride outs : N) (a b : shape) (name : string),
  (forall v, @fc_new Debug F AR i o name = Done v -> fc_new Release i o name = Done v)
  /\ (forall v, @cv_new Debug F AR a b stride outs name = Done v -> cv_new Release a b stride outs name = Done v)
  /\ (forall v, mp_new Debug a b stride name = Done v -> mp_new Release a b stride name = Done v)
  /\ (forall v, @sm_new Debug F AR a name = Done v -> sm_new Release a name = Done v).
Proof. exact @build_constructors. Qed.
Print Assumptions C58_constructors.

Theorem C58_layer : forall F (AR : Arith F) (l : layer F) (x y g og : tensor F),
  (forall v, forward Debug l x y = Done v -> forward Release l x y = Done v)
  /\ (forall v, backward Debug l x y g og = Done v -> backward Release l x y g og = Done v)
  /\ (forall v, switch_to_training Debug l = Done v -> switch_to_training Release l = Done v)
  /\ (forall v, switch_to_inference Debug l = Done v -> switch_to_inference Release l = Done v).
Proof. exact @build_layer. Qed.
Print Assumptions C58_layer.

(** and every operation on a network, loading any file included. *)
Theorem C58_network_operation : forall F (AR : Arith F) (BT : Bits F) (n : network F) op v,
  SpecNet.run_op Debug n op = Done v -> SpecNet.run_op Release n op = Done v.
Proof. exact @build_net. Qed.
Print Assumptions C58_network_operation.

Theorem C58_reachable : forall F (AR : Arith F) (BT : Bits F) (n : network F), reachable Debug n -> reachable Release n.
Proof. exact @build_reachable. Qed.
Print Assumptions C58_reachable.

(** A history that does not panic, and a network reached in debug mode. *)
Example C58_case :
  match run_ops Debug [ONew (mkShape 2 2 1); ONew (mkShape 2 2 1); OVec 0 (map f32_of_Z [1; -2; 3; -4]%Z); OTranspose 0 1; OMatMul 0 1 0] [] with
  | Done p => map tbits p = [ints [10; -14; -14; 20]%Z; ints [1; 3; -2; -4]%Z]
  | Panic _ => False
  end
  /\ exists n, run_all Debug (network_new Training) d_ops = Some n /\ reachable Debug n /\ len (layers n) = 3.
Proof.
  split; [vm_compute; reflexivity|]. apply computed; [intros n E; exact (run_all_reachable _ _ _ _ (reach_new _ _) E)|vm_compute; auto].
Qed.
