(** * C66: a small change of the input changes the output by little *)
From Coq Require Import Reals Lra.
From Verif Require Import Base Arith Helper Tensor Network Bincode Serial Float32 Spec SpecLayer SpecNet SpecReal SpecError SpecNetError SpecGain RealArith.
From Verif Require Import ProofsGain Demo DemoNet DemoReal DemoGrad DemoNetError DemoGain.
Local Open Scope R_scope.

(** Exact arithmetic; two networks with the same parameters, whatever their histories. *)
Theorem C66_exact : forall (BT : Bits R) low bm (n n' : network R) X X' x x' d g,
  let AR := R_arith low in
  well_built bm n -> well_built bm n' -> layers n <> [] -> map params_of (layers n) = map params_of (layers n') -> net_input_shape n' = net_input_shape n ->
  holds bm X (net_input_shape n) x -> holds bm X' (net_input_shape n) x' ->
  0 <= d -> apart d (net_input_shape n) x x' -> net_gain low bm (map params_of (layers n)) g ->
  exists n1 n1' Y Y' s y y', infer bm n X = Done (n1, Ok tt) /\ get_output n1 = Done (Ok Y)
    /\ infer bm n' X' = Done (n1', Ok tt) /\ get_output n1' = Done (Ok Y')
    /\ holds bm Y s y /\ holds bm Y' s y' /\ apart (g * d) s y y'.
Proof. exact network_lipschitz. Qed.
Print Assumptions C66_exact.

(** The f32 network, within the sizes of C65: the exact change plus the rounding errors of the two runs. *)
Theorem C66_float : forall e (BT : Bits R) low bm (n : network f32) (n' : network R) X X' x x' a d a1 d1 g,
  @well_built f32 (f32_arith e) f32_bits bm n -> @well_built R (R_arith low) BT bm n' -> layers n <> [] ->
  Forall2 exact_params (map params_of (layers n)) (map params_of (layers n')) -> net_input_shape n' = net_input_shape n ->
  @holds f32 (f32_arith e) bm X (net_input_shape n) x -> @holds f32 (f32_arith e) bm X' (net_input_shape n) x' ->
  (forall i j k, in_shape (net_input_shape n) i j k -> fin (x i j k) = true /\ fin (x' i j k) = true /\ Rabs (real (x i j k)) <= a /\ Rabs (real (x' i j k)) <= a
     /\ Rabs (real (x i j k) - real (x' i j k)) <= d) ->
  0 <= a -> 0 <= d -> net_bounds e low bm (map params_of (layers n')) a 0 a1 d1 -> net_gain low bm (map params_of (layers n')) g ->
  exists n1 n1' Y Y' s y y',
    @infer bm f32 (f32_arith e) n X = Done (n1, Ok tt) /\ get_output n1 = Done (Ok Y)
    /\ @infer bm f32 (f32_arith e) n X' = Done (n1', Ok tt) /\ get_output n1' = Done (Ok Y')
    /\ @holds f32 (f32_arith e) bm Y s y /\ @holds f32 (f32_arith e) bm Y' s y'
    /\ forall i j k, in_shape s i j k -> fin (y i j k) = true /\ fin (y' i j k) = true /\ Rabs (real (y i j k) - real (y' i j k)) <= g * d + 2 * d1.
Proof. exact network_stable. Qed.
Print Assumptions C66_float.

(** The pooling and fully connected layers of C65 amplify by at most 1 and 6; softmax by a half. *)
Example C66_case : well_built Debug x_net /\ layers x_net <> []
  /\ net_gain (-1000) Debug (map params_of (layers x_net)) (1 * (6 * 1))
  /\ net_bounds demo_env (-1000) Debug (map params_of (layers x_net)) 9 0 (6 * 9 + 1) (6 * 0 + bound_biased 2 (6 * (9 + 0)) 1)
  /\ net_gain (-1000) Debug [PSoftmax (mkShape 3 1 1)] (/ 2 * 1)
  /\ apart (/ 4) (mkShape 2 1 1) (fun i _ _ => if (i =? 0)%N then 1 else 2) (fun i _ _ => if (i =? 0)%N then 5 / 4 else 2).
Proof.
  split; [exact x_net_built|]. split.
  { intros E. apply (f_equal (map params_of)) in E. rewrite x_net_params in E. discriminate E. }
  split. { exact demo_gain. } split; [exact demo_bounds|]. split; [constructor; constructor|].
  intros i j k _. destruct (i =? 0)%N; [rewrite Rabs_left|rewrite Rminus_diag_eq, Rabs_R0]; lra.
Qed.
