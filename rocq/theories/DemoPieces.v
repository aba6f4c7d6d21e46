(** * The example of C105: pooling and a fully connected layer in one network, another fully connected layer in the other *)
From Verif Require Import Base Arith Helper Tensor Network Bincode Serial Spec SpecLayer SpecNet SpecPlatform SpecPieces Float32 Demo DemoNet.
Local Open Scope N_scope.

Definition c_front : list (layer f32) := [d_mp; d_fc].
Definition c_calls : list (net_op f32) :=
  [OInfer d_image; OBackward (tn (mkShape 2 1 1) [1; 2]%Z); OAdd d_fc3; OInfer d_image; OBackward (tn (mkShape 2 1 1) [3; -1]%Z); OInfer (tn (mkShape 1 1 1) [1]%Z)].

Definition c_gradients (n : network f32) : list (list Z) :=
  map (fun l => match l with LFC f => tbits (fc_weights_gradients f) | _ => [] end) (layers n).
Definition c_answers (rs : list (result unit)) : list bool := map (fun r => match r with Ok _ => true | Err _ => false end) rs.

Definition c_a := match @history _ (f32_arith demo_env) f32_bits Debug (network_new Training) (map OAdd c_front) with Done (a, _) => a | Panic _ => network_new Training end.
Definition c_n := match @add_layer Debug _ (f32_arith demo_env) c_a d_fc with Done (n, _) => n | Panic _ => network_new Training end.
Definition c_b := match @add_layer Debug _ (f32_arith demo_env) (network_new Training) d_fc with Done (n, _) => n | Panic _ => network_new Training end.

Definition c_whole (calls : list (net_op f32)) :=
  match @history _ (f32_arith demo_env) f32_bits Debug c_n calls with
  | Done (n, rs) => inl (c_answers rs, c_gradients n)
  | Panic p => inr p
  end.
Definition c_pieces (calls : list (net_op f32)) :=
  match @pieces_history _ (f32_arith demo_env) f32_bits Debug (c_a, c_b) calls with
  | Done ((a, b), rs) => inl (c_answers rs, c_gradients a, c_gradients b)
  | Panic p => inr p
  end.

Lemma c_ok : Forall layer_ok (d_fc :: c_front).
Proof. constructor; [exact d_fc_ok|]. constructor; [exact d_mp_ok|]. constructor; [exact d_fc_ok|constructor]. Qed.
Lemma c_good : Forall good_op c_calls.
Proof.
  assert (layer_ok d_fc3) by (exists 1, 3; split; [split; [demo_wf|reflexivity]|]; split; [split; [demo_wf|reflexivity]|discriminate]).
  repeat (constructor; [cbn [good_op]; first [assumption|demo_wf]|]). constructor.
Qed.
Lemma c_a_built : exists ra, @history _ (f32_arith demo_env) f32_bits Debug (network_new Training) (map OAdd c_front) = Done (c_a, ra).
Proof.
  unfold c_a. assert (Q : match @history _ (f32_arith demo_env) f32_bits Debug (network_new Training) (map OAdd c_front) with Done _ => true | Panic _ => false end = true)
    by (vm_compute; reflexivity).
  destruct (history _ _ _) as [(a & ra)|]; [eauto|discriminate].
Qed.
Lemma c_n_built : @add_layer Debug _ (f32_arith demo_env) c_a d_fc = Done (c_n, Ok tt).
Proof.
  unfold c_n. assert (Q : match @add_layer Debug _ (f32_arith demo_env) c_a d_fc with Done (_, Ok _) => true | _ => false end = true) by (vm_compute; reflexivity).
  destruct (add_layer _ _ _) as [(n & [[]|])|]; try discriminate. reflexivity.
Qed.
Lemma c_b_built : @add_layer Debug _ (f32_arith demo_env) (network_new Training) d_fc = Done (c_b, Ok tt).
Proof.
  unfold c_b. assert (Q : match @add_layer Debug _ (f32_arith demo_env) (network_new Training) d_fc with Done (_, Ok _) => true | _ => false end = true) by (vm_compute; reflexivity).
  destruct (add_layer _ _ _) as [(n & [[]|])|]; try discriminate. reflexivity.
Qed.
Lemma c_some : layers c_a <> [].
Proof. intros Q. assert (E : match layers c_a with [] => true | _ => false end = false) by (vm_compute; reflexivity). rewrite Q in E. discriminate. Qed.
