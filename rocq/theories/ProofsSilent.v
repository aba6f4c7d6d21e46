(** * Proofs for C98: units that did not fire *)
From Coq Require Import ZifyBool ZifyNat ZifyN.
From Flocq Require Import Core IEEE754.Binary IEEE754.Bits.
From Verif Require Import Base Arith Helper Tensor Convolution Network Bincode Serial Float32 Float32Facts Spec SpecLayer SpecNet SpecTrain SpecSparse SpecOpposed SpecSilent.
From Verif Require Import Loops TensorFacts OpsFacts ProofsTensor ProofsConv ProofsFloat Layout LayerFacts BackFacts NetFacts NetRun NetBack ProofsLayer RealGrad ProofsDense ProofsSparse ProofsOpposed Lockstep.
Local Open Scope N_scope.
Ltac Zify.zify_post_hook ::= Z.div_mod_to_equations.

Section Silent.
Context (e : env).
#[local] Hint Extern 0 (Arith f32) => exact (f32_arith e) : typeclass_instances.
#[local] Hint Extern 0 (Arith binary32) => exact (f32_arith e) : typeclass_instances.
Notation AR := (f32_arith e).
Notation T := (tensor f32).

Lemma shut (z : f32) : @Spec.relu f32 AR z = f32_zero -> @gate f32 AR z = f32_zero.
Proof.
  unfold Spec.relu, gate. cbn [fgtb fzero f32_arith]. destruct (f32_gtb z f32_zero) eqn:G; [|reflexivity]. intros ->. discriminate G.
Qed.

Lemma f32_zero_zero : zero f32_zero.
Proof. exists false. reflexivity. Qed.

(** ** One layer *)
Section Layer.
Context (bm : build) (f l1 : fc_layer f32) (m n : N) (x y0 y g og0 : T).
Context (O : fc_ok m n f) (Rs : fc_run_state f = Training) (Sx : shaped x (mkShape n 1 1)) (Sy0 : shaped y0 (mkShape m 1 1))
  (Sg : shaped g (mkShape m 1 1)) (So : shaped og0 (mkShape n 1 1)) (Ef : @fc_forward bm f32 AR f x y0 = Done (l1, y, Ok tt)).
Let z := @pre_activation f32 AR n (@val f32 AR (fc_weights f)) (@val f32 AR (fc_bias f)) (@val f32 AR x).
Let mask : T := of_fun (mkShape m 1 1) (fun i _ _ => @gate f32 AR (z i)).

Lemma fc_round : l1 = @fc_set_mask f32 f mask /\ y = of_fun (mkShape m 1 1) (fun i _ _ => @Spec.relu f32 AR (z i))
  /\ @fc_backward bm f32 AR l1 x y g og0 = Done (@fc_after f32 AR m n l1 (@val f32 AR x) (@val f32 AR g),
       of_fun (mkShape n 1 1) (@fc_outgoing f32 AR m l1 (@val f32 AR g)), Ok tt).
Proof.
  pose proof Ef as Q. rewrite (@fc_forward_training f32 AR bm f m n x y0 O Rs Sx Sy0) in Q. injection Q as Q1 Q2.
  split; [exact (eq_sym Q1)|]. split; [exact (eq_sym Q2)|]. rewrite <- Q1. apply (@fc_backward_values f32 AR); [|exact Rs|assumption..].
  destruct O as (Hw & Hb & Ht). destruct (Ht Rs) as (H1 & H2 & H3 & H4).
  split; [exact Hw|]. split; [exact Hb|]. intros _. cbn. split; [exact H1|]. split; [exact H2|]. split; [exact H3|].
  apply shaped_of_fun. apply (@shaped_eq f32 AR _ _ H4).
Qed.

Lemma mask_shut u : u < m -> @val f32 AR y u 0 0 = f32_zero -> @val f32 AR (fc_relu_mask l1) u 0 0 = f32_zero.
Proof.
  intros Hu. destruct fc_round as (E1 & E2 & _). rewrite E1, E2. cbn [fc_set_mask fc_relu_mask]. unfold mask.
  rewrite !val_of_fun by (apply in_column; exact Hu). apply shut.
Qed.

Lemma fc_idle u f2 og : u < m -> @val f32 AR y u 0 0 = f32_zero -> finite (@val f32 AR g u 0 0) -> (forall q, q < n -> finite (@val f32 AR x q 0 0)) ->
  @fc_backward bm f32 AR l1 x y g og0 = Done (f2, og, Ok tt) ->
  (forall q, q < n -> @val f32 AR (fc_weights_gradients f) u q 0 <> neg_zero ->
     same (@val f32 AR (fc_weights_gradients f2) u q 0) (@val f32 AR (fc_weights_gradients f) u q 0)
     /\ @val f32 AR (fc_weights_gradients f2) u q 0 <> neg_zero)
  /\ (@val f32 AR (fc_bias_gradients f) u 0 0 <> neg_zero ->
     same (@val f32 AR (fc_bias_gradients f2) u 0 0) (@val f32 AR (fc_bias_gradients f) u 0 0) /\ @val f32 AR (fc_bias_gradients f2) u 0 0 <> neg_zero).
Proof.
  intros Hu Hy Hg Hx E. pose proof (mask_shut u Hu Hy) as Hm. destruct fc_round as (E1 & _ & E3). rewrite E3 in E. injection E as <- _.
  unfold fc_after. cbn [fc_weights_gradients fc_bias_gradients].
  assert (Z : zero (f32_mul e (@val f32 AR (fc_relu_mask l1) u 0 0) (@val f32 AR g u 0 0))) by (rewrite Hm; exact (proj1 (zero_mul e _ _ f32_zero_zero Hg))).
  assert (W1 : fc_weights_gradients l1 = fc_weights_gradients f) by (rewrite E1; reflexivity).
  assert (W2 : fc_bias_gradients l1 = fc_bias_gradients f) by (rewrite E1; reflexivity).
  rewrite W1, W2. split.
  - intros q Hq Nz. rewrite val_of_fun by (repeat split; cbn; lia).
    assert (Zq : zero (@mm_fn f32 AR 1 (fun i j k => f32_mul e (@val f32 AR (fc_relu_mask l1) i j k) (@val f32 AR g i j k)) (fun i j k => @val f32 AR x j i k) u q 0)).
    { change (zero (f32_add e f32_zero (f32_mul e (f32_mul e (@val f32 AR (fc_relu_mask l1) u 0 0) (@val f32 AR g u 0 0)) (@val f32 AR x q 0 0)))).
      destruct (proj1 (zero_mul e _ _ Z (Hx q Hq))) as (s & Es). rewrite Es. destruct s; eexists; reflexivity. }
    split; [apply add_zero_r; assumption|apply add_not_neg_zero; exact Nz].
  - intros Nz. rewrite val_of_fun by (apply in_column; exact Hu).
    split; [apply add_zero_r; assumption|apply add_not_neg_zero; exact Nz].
Qed.
End Layer.

End Silent.
