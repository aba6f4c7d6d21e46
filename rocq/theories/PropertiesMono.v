(** * C71: networks with non-negative weights are monotone *)
From Coq Require Import Reals.
From Verif Require Import Base Arith Helper Tensor Network Bincode Serial Float32 Spec SpecLayer SpecNet SpecError SpecMono.
From Verif Require Import ProofsMono Demo DemoNet DemoMono.

(** A larger input gives larger intermediate states and a larger output, in f32, as long as no state before the last one
    overflows on the larger input. *)
Theorem C71_monotone : forall e bm (n : network f32) (X X' : tensor f32),
  @well_built f32 (f32_arith e) f32_bits bm n -> layers n <> [] -> shaped X (net_input_shape n) -> shaped X' (net_input_shape n) ->
  Forall (positive_layer e bm) (map params_of (layers n)) ->
  Forall2 (fun a b => fin a = true /\ fin b = true /\ (0 <= real a <= real b)%R) (data X) (data X') ->
  exists n1 n1', @infer bm f32 (f32_arith e) n X = Done (n1, Ok tt) /\ @infer bm f32 (f32_arith e) n X' = Done (n1', Ok tt)
    /\ ((forall i t, i < len (layers n) -> get_intermediate_state n1' i = Done (Ok t) -> Forall (fun v => fin v = true) (data t)) ->
        forall i, i <= len (layers n) -> exists t t', get_intermediate_state n1 i = Done (Ok t) /\ get_intermediate_state n1' i = Done (Ok t')
          /\ tshape t = tshape t' /\ Forall2 (fun a b => isnan a = false /\ isnan b = false /\ f32_gtb a b = false) (data t) (data t')).
Proof. exact network_mono. Qed.
Print Assumptions C71_monotone.

(** A convolution, pooling and a fully connected layer on two 6x4 images. *)
Example C71_case : exists n, run_all Debug (network_new Inference) (map OAdd m_layers) = Some n
  /\ (well_built Debug n /\ Forall (positive_layer demo_env Debug) (map params_of (layers n)))
  /\ match infer Debug n m_small, infer Debug n m_large with
     | Done (n1, Ok _), Done (n1', Ok _) => match get_intermediate_state n1 2, get_intermediate_state n1' 2, get_output n1, get_output n1' with
         | Done (Ok t), Done (Ok t'), Done (Ok y), Done (Ok y') =>
             tbits t = ints [11;9]%Z /\ tbits t' = ints [21;16]%Z /\ tbits y = ints [12;0]%Z /\ tbits y' = ints [22;16]%Z
         | _, _, _, _ => False
         end
     | _, _ => False
     end.
Proof.
  apply computed.
  - intros n E. split; [eapply run_all_built; [apply built_new| |exact E]; constructor; [exact m_cv_ok|constructor; [exact d_mp_ok|constructor; [exact m_fc_ok|constructor]]]|].
    rewrite (added_params _ _ _ _ E); [exact (m_layers_positive Debug)|].
    assert (L : option_map (fun n : network f32 => length (layers n)) (run_all Debug (network_new Inference) (map OAdd m_layers)) = Some 3%nat) by (vm_compute; reflexivity).
    rewrite E in L. cbn [option_map] in L. injection L as ->. reflexivity.
  - vm_compute. repeat split.
Qed.

(** Without the condition on overflow it fails: weights 2^127 and then 0 with bias 5 map 1 to 5 and 4 to 0. *)
Example C71_overflow : exists n, run_all Debug (network_new Inference) (map OAdd [m_huge; m_zero]) = Some n
  /\ (well_built Debug n /\ Forall (positive_layer demo_env Debug) (map params_of (layers n)))
  /\ match infer Debug n (tn (mkShape 1 1 1) [1]%Z), infer Debug n (tn (mkShape 1 1 1) [4]%Z) with
     | Done (n1, Ok _), Done (n1', Ok _) => match get_output n1, get_output n1' with
         | Done (Ok y), Done (Ok y') => tbits y = ints [5]%Z /\ tbits y' = ints [0]%Z
         | _, _ => False
         end
     | _, _ => False
     end.
Proof.
  apply computed.
  - intros n E. split; [eapply run_all_built; [apply built_new| |exact E]; constructor; [exact m_huge_ok|constructor; [exact m_zero_ok|constructor]]|].
    rewrite (added_params _ _ _ _ E); [exact (m_overflow_positive Debug)|].
    assert (L : option_map (fun n : network f32 => length (layers n)) (run_all Debug (network_new Inference) (map OAdd [m_huge; m_zero])) = Some 2%nat) by (vm_compute; reflexivity).
    rewrite E in L. cbn [option_map] in L. injection L as ->. reflexivity.
  - vm_compute. repeat split.
Qed.
