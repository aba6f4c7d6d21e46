(** * C77: which of two outputs is larger is certified by their margin *)
From Coq Require Import Reals Lra.
From Verif Require Import Base Arith Helper Tensor Network Bincode Serial Float32 Spec SpecLayer SpecNet SpecReal SpecError SpecNetError SpecGain RealArith.
From Verif Require Import ProofsMargin Demo DemoNet DemoReal DemoGrad DemoNetError DemoGain.
Local Open Scope R_scope.

(** Two outputs that differ by more than twice the error bound [d1] of C65 in exact arithmetic are ordered the same way by the f32 network. *)
Theorem C77_agrees : forall e (BT : Bits R) low bm (n : network f32) (n' : network R) X X' x x' a d a1 d1,
  @well_built f32 (f32_arith e) f32_bits bm n -> @well_built R (R_arith low) BT bm n' -> layers n <> [] ->
  Forall2 exact_params (map params_of (layers n)) (map params_of (layers n')) -> net_input_shape n' = net_input_shape n ->
  @holds f32 (f32_arith e) bm X (net_input_shape n) x -> @holds R (R_arith low) bm X' (net_input_shape n) x' ->
  0 <= a -> 0 <= d -> near a d (net_input_shape n) x x' -> net_bounds e low bm (map params_of (layers n')) a d a1 d1 ->
  exists n1 n1' Y Y' s y y',
    @infer bm f32 (f32_arith e) n X = Done (n1, Ok tt) /\ get_output n1 = Done (Ok Y)
    /\ @infer bm R (R_arith low) n' X' = Done (n1', Ok tt) /\ get_output n1' = Done (Ok Y')
    /\ @holds f32 (f32_arith e) bm Y s y /\ @holds R (R_arith low) bm Y' s y'
    /\ forall i j k i' j' k', in_shape s i j k -> in_shape s i' j' k' -> y' i' j' k' + 2 * d1 < y' i j k -> f32_gtb (y i j k) (y i' j' k') = true.
Proof. exact margin_agrees. Qed.
Print Assumptions C77_agrees.

(** Two outputs whose f32 values differ by enough keep their order on every input within [d]. *)
Theorem C77_robust : forall e (BT : Bits R) low bm (n : network f32) (n' : network R) X X' x x' a d a1 d1 g,
  @well_built f32 (f32_arith e) f32_bits bm n -> @well_built R (R_arith low) BT bm n' -> layers n <> [] ->
  Forall2 exact_params (map params_of (layers n)) (map params_of (layers n')) -> net_input_shape n' = net_input_shape n ->
  @holds f32 (f32_arith e) bm X (net_input_shape n) x -> @holds f32 (f32_arith e) bm X' (net_input_shape n) x' ->
  (forall i j k, in_shape (net_input_shape n) i j k -> fin (x i j k) = true /\ fin (x' i j k) = true /\ Rabs (real (x i j k)) <= a /\ Rabs (real (x' i j k)) <= a
     /\ Rabs (real (x i j k) - real (x' i j k)) <= d) ->
  0 <= a -> 0 <= d -> net_bounds e low bm (map params_of (layers n')) a 0 a1 d1 -> net_gain low bm (map params_of (layers n')) g ->
  exists n1 n1' Y Y' s y y',
    @infer bm f32 (f32_arith e) n X = Done (n1, Ok tt) /\ get_output n1 = Done (Ok Y)
    /\ @infer bm f32 (f32_arith e) n X' = Done (n1', Ok tt) /\ get_output n1' = Done (Ok Y')
    /\ @holds f32 (f32_arith e) bm Y s y /\ @holds f32 (f32_arith e) bm Y' s y'
    /\ forall i j k i' j' k', in_shape s i j k -> in_shape s i' j' k' -> real (y i' j' k') + 2 * (g * d + 2 * d1) < real (y i j k) ->
         f32_gtb (y' i j k) (y' i' j' k') = true.
Proof. exact margin_robust. Qed.
Print Assumptions C77_robust.

(** The network of C65: outputs 1 apart are ordered correctly, and outputs 2 apart stay in order if the inputs move by 1/100. Its outputs are
    31 and 19 here. *)
Example C77_case : (exists n, run_all Debug (network_new Inference) [OAdd d_mp; OAdd d_fc] = Some n
  /\ (well_built Debug n /\ Forall2 exact_params (map params_of (layers n)) (map params_of (layers x_net)))
  /\ match infer Debug n (tn (mkShape 4 2 1) [1;2;3;4;5;6;7;8]%Z) with
     | Done (n1, Ok _) => match get_output n1 with Done (Ok y) => tbits y = ints [31;19]%Z | _ => False end
     | _ => False
     end)
  /\ well_built Debug x_net
  /\ net_bounds demo_env (-1000) Debug (map params_of (layers x_net)) 9 0 (6 * 9 + 1) (6 * 0 + bound_biased 2 (6 * (9 + 0)) 1)
  /\ net_gain (-1000) Debug (map params_of (layers x_net)) (1 * (6 * 1))
  /\ 2 * (6 * 0 + bound_biased 2 (6 * (9 + 0)) 1) < 1 /\ 2 * (1 * (6 * 1) * / 100 + 2 * (6 * 0 + bound_biased 2 (6 * (9 + 0)) 1)) < 2.
Proof.
  split; [|split; [exact x_net_built|split; [exact demo_bounds|split; [exact demo_gain|exact demo_margin]]]].
  apply computed; [|vm_compute; reflexivity]. intros n E. split; [|exact (demo_exact n E)].
  refine (run_all_built _ _ _ _ (built_new _ _) _ E). constructor; [exact d_mp_ok|constructor; [exact d_fc_ok|constructor]].
Qed.
