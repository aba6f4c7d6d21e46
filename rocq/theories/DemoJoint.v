(** * Two fully connected layers over the reals for the examples of C88 *)
From Coq Require Import Reals Lra ZifyBool ZifyNat ZifyN.
From Verif Require Import Base Arith Helper Tensor FullyConnected Network Bincode Serial Spec SpecLayer SpecNet SpecReal SpecTrain SpecModes SpecChain SpecBatch SpecGridBack SpecJoint RealArith RealSums Loops.
From Verif Require Import ProofsTensor LayerFacts TensorFacts RealGrad NetBack RealConv ProofsGrad ProofsChain Float32 Demo DemoReal DemoGrad.
Local Open Scope string_scope.
Local Open Scope R_scope.

(** One input, two hidden units, one output; any weights and biases. *)
Definition j_fc1 (w b : list R) : layer R := LFC (mkFC (rt (mkShape 2 1 1) w) zero2 zero2 (rt (mkShape 2 1 1) b) zero2 zero2 "hidden" Training).
Definition j_fc2 (w b : list R) : layer R := LFC (mkFC (rt (mkShape 1 2 1) w) (rt (mkShape 1 2 1) [0; 0]) (rt (mkShape 1 2 1) [0; 0]) (rt (mkShape 1 1 1) b) zero1 zero1 "out" Training).
Definition j_net (w1 b1 w2 b2 : list R) : network R := run_ops (network_new Training) [OAdd (j_fc1 w1 b1); OAdd (j_fc2 w2 b2)].

Lemma j_layers w1 b1 w2 b2 : layers (j_net w1 b1 w2 b2) = [j_fc1 w1 b1; j_fc2 w2 b2]
  /\ net_input_shape (j_net w1 b1 w2 b2) = mkShape 1 1 1 /\ net_output_shape (j_net w1 b1 w2 b2) = mkShape 1 1 1.
Proof. lazy - [IZR]. auto. Qed.

Lemma j_built w1 w1' b1 b1' w2 w2' b2 : training_built Debug (j_net [w1; w1'] [b1; b1'] [w2; w2'] [b2]).
Proof.
  apply run_ops_training; [apply train_new|]. constructor; [|constructor; [|constructor]]; (split; [|discriminate]).
  - exists 2%N, 1%N. do 2 (split; [demo_shaped|]). intros _. do 3 (split; [demo_shaped|]). demo_shaped.
  - exists 1%N, 2%N. do 2 (split; [demo_shaped|]). intros _. do 3 (split; [demo_shaped|]). demo_shaped.
Qed.

Lemma j_zero w1 b1 w2 b2 : no_gradients Debug (j_net w1 b1 w2 b2).
Proof.
  intros [|[|i]] f N; rewrite (proj1 (j_layers w1 b1 w2 b2)) in N; try (destruct i; discriminate N); injection N as <-;
    cbn [fc_weights_gradients fc_weights fc_bias_gradients fc_bias rt zero1 zero2 tshape]; split; apply holds_iff; (split; [repeat split; reflexivity|lazy; reflexivity]).
Qed.

(** relu (relu (x + 1) + 2 relu (5 - x) - 1) at 3 *)
Definition j_start : network R := j_net [1; -1] [1; 5] [1; 2] [-1].
Definition j_x : tensor R := rt (mkShape 1 1 1) [3].
Definition j_g : tensor R := rt (mkShape 1 1 1) [1].

Lemma j_smooth : Forall (sample_ok (-1000) Debug j_start) [(j_x, j_g)].
Proof.
  destruct (j_layers [1; -1] [1; 5] [1; 2] [-1]) as (L & SI & SO). apply Forall_cons; [|apply Forall_nil]. unfold sample_ok, j_start. rewrite SI, SO. cbn [fst snd].
  split; [demo_shaped|]. split; [demo_shaped|]. rewrite L.
  set (W1 := rt (mkShape 2 1 1) [1; -1]). set (B1 := rt (mkShape 2 1 1) [1; 5]). set (W2 := rt (mkShape 1 2 1) [1; 2]). set (B2 := rt (mkShape 1 1 1) [-1]).
  change (map params_of [j_fc1 [1; -1] [1; 5]; j_fc2 [1; 2] [-1]]) with [PFC W1 B1; PFC W2 B2].
  assert (HW1 : holds Debug W1 (mkShape 2 1 1) (at_ W1)) by demo_rhold. assert (HB1 : holds Debug B1 (mkShape 2 1 1) (at_ B1)) by demo_rhold.
  assert (HW2 : holds Debug W2 (mkShape 1 2 1) (at_ W2)) by demo_rhold. assert (HB2 : holds Debug B2 (mkShape 1 1 1) (at_ B2)) by demo_rhold.
  assert (HX : holds Debug j_x (mkShape 1 1 1) (at_ j_x)) by demo_rhold.
  cbn [smooth layer_smooth]. split.
  - intros M n w b x Hw Hb Hx i Hi. pose proof (holds_shape _ _ _ _ _ _ Hw HW1) as S. injection S as -> ->.
    assert (E : fc_pre 1 w b x i = fc_pre 1 (at_ W1) (at_ B1) (at_ j_x) i); [apply fc_pre_ext|rewrite E; clear E].
    + intros p Hp. apply (holds_fun Debug _ _ _ _ Hw HW1). repeat split; cbn; lia.
    + apply (holds_fun Debug _ _ _ _ Hb HB1). repeat split; cbn; lia.
    + intros p Hp. apply (holds_fun Debug _ _ _ _ Hx HX). repeat split; cbn; lia.
    + assert (D : i = 0%N \/ i = 1%N) by lia. destruct D as [-> | ->]; cbv - [Rplus Rmult IZR Ropp not]; lra.
  - intros Z C. apply (computes_map (-1000) Debug (PFC W1 B1) j_x Z (at_ j_x)) in C; [|exact HX]. cbn [pout layer_map] in C.
    split; [|intros; exact I].
    intros M n w b x Hw Hb Hx i Hi. pose proof (holds_shape _ _ _ _ _ _ Hw HW2) as S. injection S as -> ->.
    set (h := fc_map (dj (tshape W1)) (val W1) (val B1) (at_ j_x)) in *.
    assert (E : fc_pre 2 w b x i = fc_pre 2 (at_ W2) (at_ B2) h i); [apply fc_pre_ext|rewrite E; clear E].
    + intros p Hp. apply (holds_fun Debug _ _ _ _ Hw HW2). repeat split; cbn; lia.
    + apply (holds_fun Debug _ _ _ _ Hb HB2). repeat split; cbn; lia.
    + intros p Hp. apply (holds_fun Debug _ _ _ _ Hx C). repeat split; cbn; lia.
    + assert (i = 0%N) by lia. subst i.
      assert (H0 : h 0%N 0%N 0%N = 4) by (unfold h, fc_map, Spec.relu, fc_pre; cbv - [Rplus Rmult IZR Ropp Rmax]; rewrite Rmax_right by lra; lra).
      assert (H1 : h 1%N 0%N 0%N = 2) by (unfold h, fc_map, Spec.relu, fc_pre; cbv - [Rplus Rmult IZR Ropp Rmax]; rewrite Rmax_right by lra; lra).
      unfold fc_pre. change (upto 2) with [0; 1]%N. cbn [map Rsum fold_right]. rewrite H0, H1. cbv - [Rplus Rmult IZR Ropp not]. lra.
Qed.

(** The trained network's gradients. *)
Lemma j_trained : exists n' f1 f2, train Debug j_start [(j_x, j_g)] = Done (n', Ok tt) /\ layers n' = [LFC f1; LFC f2]
  /\ fc_weights f1 = rt (mkShape 2 1 1) [1; -1] /\ fc_bias f1 = rt (mkShape 2 1 1) [1; 5]
  /\ fc_weights f2 = rt (mkShape 1 2 1) [1; 2] /\ fc_bias f2 = rt (mkShape 1 1 1) [-1]
  /\ fc_weights_gradients f1 = rt (mkShape 2 1 1) [3; 6] /\ fc_bias_gradients f1 = rt (mkShape 2 1 1) [1; 2]
  /\ fc_weights_gradients f2 = rt (mkShape 1 2 1) [4; 2] /\ fc_bias_gradients f2 = rt (mkShape 1 1 1) [1].
Proof.
  assert (Relu2 : forall a b m1 m2 : R, 0 < a -> 0 < b -> relu_mask_loop [a; b] [m1; m2] = ([a; b], [1; 1])).
  { intros a b ? ? A B. cbn -[IZR]. destruct (Rlt_dec 0 b) as [_|N]; [|elim (N B)]. destruct (Rlt_dec 0 a) as [_|N]; [reflexivity|elim (N A)]. }
  assert (Relu1 : forall a m1 : R, 0 < a -> relu_mask_loop [a] [m1] = ([a], [1])).
  { intros a ? A. cbn -[IZR]. destruct (Rlt_dec 0 a) as [_|N]; [reflexivity|elim (N A)]. }
  eexists _, _, _. split.
  { let t := eval cbv - [forward backward Rplus Rmult IZR] in (train Debug j_start [(j_x, j_g)]) in change (train Debug j_start [(j_x, j_g)]) with t.
    do 4 (let E := fresh in match goal with
      | |- context [@forward ?bm _ ?A ?l ?x ?y] => eassert (E : @forward bm _ A l x y = _)
      | |- context [@backward ?bm _ ?A ?l ?x ?y ?g ?og] => eassert (E : @backward bm _ A l x y g og = _)
      end;
      [cbv - [relu_mask_loop Rplus Rmult IZR]; try first [rewrite Relu2 by lra|rewrite Relu1 by lra]; cbv - [relu_mask_loop Rplus Rmult IZR]; reflexivity
      |rewrite E; clear E; cbv - [forward backward Rplus Rmult IZR]]).
    reflexivity. }
  split; [reflexivity|].
  cbn [fc_weights fc_bias fc_weights_gradients fc_bias_gradients].
  repeat split; unfold rt; cbn [di dj dk]; f_equal; repeat (apply f_equal2; [lra|]); reflexivity.
Qed.
