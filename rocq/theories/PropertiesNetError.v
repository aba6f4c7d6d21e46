(** * C65: a whole network in f32 against the same network in exact arithmetic *)
From Coq Require Import Reals Lra.
From Verif Require Import Base Arith Helper Tensor Network Bincode Serial Float32 Spec SpecLayer SpecNet SpecReal SpecError SpecNetError RealArith.
From Verif Require Import ProofsNetError Demo DemoNet DemoReal DemoGrad DemoNetError.
Local Open Scope R_scope.

(** [n'] is the f32 network [n] with its parameters read as real numbers. If inputs known up to [d] and of at most [a] are bounded by
    [net_bounds] along the layers then nothing overflows and the outputs differ by at most [d1]. *)
Theorem C65_network_error : forall e (BT : Bits R) low bm (n : network f32) (n' : network R) X X' x x' a d a1 d1,
  @well_built f32 (f32_arith e) f32_bits bm n -> @well_built R (R_arith low) BT bm n' -> layers n <> [] ->
  Forall2 exact_params (map params_of (layers n)) (map params_of (layers n')) -> net_input_shape n' = net_input_shape n ->
  @holds f32 (f32_arith e) bm X (net_input_shape n) x -> @holds R (R_arith low) bm X' (net_input_shape n) x' ->
  0 <= a -> 0 <= d -> near a d (net_input_shape n) x x' -> net_bounds e low bm (map params_of (layers n')) a d a1 d1 ->
  exists n1 n1' Y Y' s y y',
    @infer bm f32 (f32_arith e) n X = Done (n1, Ok tt) /\ get_output n1 = Done (Ok Y)
    /\ @infer bm R (R_arith low) n' X' = Done (n1', Ok tt) /\ get_output n1' = Done (Ok Y')
    /\ @holds f32 (f32_arith e) bm Y s y /\ @holds R (R_arith low) bm Y' s y' /\ near a1 d1 s y y'.
Proof. exact network_error. Qed.
Print Assumptions C65_network_error.

(** Pooling and a fully connected layer: inputs of at most 9 give outputs of at most 55 and errors of at most 3 * 55 units in the
    last place; softmax of three values in [-1/4, 1/4]. *)
Example C65_case : (exists n, run_all Debug (network_new Inference) [OAdd d_mp; OAdd d_fc] = Some n
  /\ (well_built Debug n /\ Forall2 exact_params (map params_of (layers n)) (map params_of (layers x_net)))
  /\ net_input_shape n = mkShape 4 2 1)
  /\ well_built Debug x_net /\ net_input_shape x_net = mkShape 4 2 1
  /\ net_bounds demo_env (-1000) Debug (map params_of (layers x_net)) 9 0 (6 * 9 + 1) (6 * 0 + bound_biased 2 (6 * (9 + 0)) 1)
  /\ layer_bounds flat_exp (-1000) Debug (PSoftmax (mkShape 3 1 1)) (/ 4) 0 1 (softmax_factor 3 0 (/ 2) - 1 + eta).
Proof.
  split; [|split; [exact x_net_built|split; [run_R; reflexivity|split; [exact demo_bounds|exact flat_bounds]]]].
  apply computed; [|vm_compute; reflexivity]. intros n E. split; [|exact (demo_exact n E)].
  refine (run_all_built _ _ _ _ (built_new _ _) _ E). constructor; [exact d_mp_ok|constructor; [exact d_fc_ok|constructor]].
Qed.
