(** * C81: fixed-point networks are computed exactly *)
From Coq Require Import Reals Lra Lia.
From Verif Require Import Base Arith Helper Tensor Network Bincode Serial Float32 Spec SpecLayer SpecNet SpecReal SpecError SpecNetError SpecGrid RealArith.
From Verif Require Import ProofsGrid Demo DemoNet DemoReal DemoGrad DemoNetError.
Local Open Scope R_scope.

(** [n'] is the f32 network [n] with its parameters read as real numbers. If inputs and parameters are multiples of powers of two with
    sums of at most 24 bits ([net_grid]) then no operation rounds: the f32 outputs are the exact ones. *)
Theorem C81_exact : forall e (BT : Bits R) low bm (n : network f32) (n' : network R) X X' x x' g a g1 a1,
  @well_built f32 (f32_arith e) f32_bits bm n -> @well_built R (R_arith low) BT bm n' -> layers n <> [] ->
  Forall2 exact_params (map params_of (layers n)) (map params_of (layers n')) -> net_input_shape n' = net_input_shape n ->
  @holds f32 (f32_arith e) bm X (net_input_shape n) x -> @holds R (R_arith low) bm X' (net_input_shape n) x' ->
  0 <= a -> exact_on g a (net_input_shape n) x x' -> net_grid low bm (map params_of (layers n')) g a g1 a1 ->
  exists n1 n1' Y Y' s y y',
    @infer bm f32 (f32_arith e) n X = Done (n1, Ok tt) /\ get_output n1 = Done (Ok Y)
    /\ @infer bm R (R_arith low) n' X' = Done (n1', Ok tt) /\ get_output n1' = Done (Ok Y')
    /\ @holds f32 (f32_arith e) bm Y s y /\ @holds R (R_arith low) bm Y' s y' /\ exact_on g1 a1 s y y'.
Proof. exact network_exact. Qed.
Print Assumptions C81_exact.

(** Integer weights, and inputs of at most 9 with two fractional bits. The bound of 24 bits is needed: 2^24 + 1 is not an f32. *)
Example C81_case : (exists n, run_all Debug (network_new Inference) [OAdd d_mp; OAdd d_fc] = Some n
  /\ (well_built Debug n /\ Forall2 exact_params (map params_of (layers n)) (map params_of (layers x_net)))
  /\ net_input_shape n = mkShape 4 2 1)
  /\ well_built Debug x_net /\ net_input_shape x_net = mkShape 4 2 1
  /\ net_grid (-1000) Debug (map params_of (layers x_net)) (-2) 9 (0 + -2) (6 * 9 + 1)
  /\ real (f32_add demo_env (f32_of_Z 16777216) (f32_of_Z 1)) <> real (f32_of_Z 16777216) + real (f32_of_Z 1).
Proof.
  split; [|split; [exact x_net_built|split; [run_R; reflexivity|split]]].
  - apply computed; [|vm_compute; reflexivity]. intros n E. split; [|exact (demo_exact n E)].
    refine (run_all_built _ _ _ _ (built_new _ _) _ E). constructor; [exact d_mp_ok|constructor; [exact d_fc_ok|constructor]].
  - rewrite x_net_params. econstructor; [constructor; try reflexivity; lra|]. econstructor; [|constructor].
    assert (HW : holds Debug (rt (mkShape 2 2 1) [1; -2; 3; 4]) (mkShape 2 2 1) (at_ (rt (mkShape 2 2 1) [1; -2; 3; 4]))) by demo_rhold.
    assert (HB : holds Debug (rt (mkShape 2 1 1) [1; -1]) (mkShape 2 1 1) (at_ (rt (mkShape 2 1 1) [1; -1]))) by demo_rhold.
    apply (GridFC (-1000) Debug _ _ 2 2 _ _ 6 1 (-2) 0 9 HW HB); try lra.
    + intros i p Hi Hp. assert (D : (i = 0 \/ i = 1)%N) by lia. assert (D' : (p = 0 \/ p = 1)%N) by lia.
      destruct D as [-> | ->], D' as [-> | ->]; [exists 1%Z|exists 3%Z|exists (-2)%Z|exists 4%Z]; rewrite Rmult_1_r; reflexivity.
    + intros i Hi. assert (D : (i = 0 \/ i = 1)%N) by lia. destruct D as [-> | ->]; [exists 4%Z|exists (-4)%Z]; unfold powerRZ; cbn [Z.add Z.opp Pos.to_nat pow]; cbv - [Rmult Rinv Rplus IZR Ropp]; lra.
    + intros i Hi. change (upto 2) with [0; 1]%N. cbn [map Rsum fold_right]. assert (D : i = 0%N \/ i = 1%N) by lia.
      destruct D as [-> | ->]; cbv - [Rplus Rle IZR Ropp Rabs]; repeat (first [rewrite Rabs_pos_eq by lra|rewrite Rabs_left by lra]); lra.
    + intros i Hi. assert (D : i = 0%N \/ i = 1%N) by lia.
      destruct D as [-> | ->]; cbv - [Rplus Rle IZR Ropp Rabs]; [rewrite Rabs_pos_eq by lra|rewrite Rabs_left by lra]; lra.
    + split; [lia|]. replace (powerRZ 2 (0 + -2)) with (/ 4) by (unfold powerRZ; cbv - [Rmult Rinv Rplus IZR Ropp]; lra). lra.
  - cbn. unfold Defs.F2R. cbn. lra.
Qed.
