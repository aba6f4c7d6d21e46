(** * Examples for C109 *)
From Coq Require Import Reals Lra Lia.
From Verif Require Import Base Arith Helper Tensor FullyConnected Network Bincode Serial Spec SpecLayer SpecNet SpecReal SpecTrain SpecModes SpecBatch SpecOpposed SpecRewire SpecRelabel SpecTwins RealArith Loops LayerFacts TensorFacts NetBack Float32 Demo DemoReal DemoGrad DemoJoint DemoRelabel.
Local Open Scope R_scope.

Definition w_start : network R := j_net [1; 1] [1; 1] [2; 2] [-1].
Definition w_end : network R := j_net [-5; -5] [-1; -1] [-2; -2] [-2].

Lemma w_trained : exists n' f1 f2, train Debug w_start [(j_x, j_g)] = Done (n', Ok tt) /\ layers n' = [LFC f1; LFC f2]
  /\ fc_weights f1 = rt (mkShape 2 1 1) [1; 1] /\ fc_bias f1 = rt (mkShape 2 1 1) [1; 1]
  /\ fc_weights f2 = rt (mkShape 1 2 1) [2; 2] /\ fc_bias f2 = rt (mkShape 1 1 1) [-1]
  /\ fc_weights_gradients f1 = rt (mkShape 2 1 1) [6; 6] /\ fc_bias_gradients f1 = rt (mkShape 2 1 1) [2; 2]
  /\ fc_weights_gradients f2 = rt (mkShape 1 2 1) [4; 4] /\ fc_bias_gradients f2 = rt (mkShape 1 1 1) [1].
Proof.
  assert (Relu2 : forall a b m1 m2 : R, 0 < a -> 0 < b -> relu_mask_loop [a; b] [m1; m2] = ([a; b], [1; 1])).
  { intros a b ? ? A B. cbn -[IZR]. destruct (Rlt_dec 0 b) as [_|N]; [|elim (N B)]. destruct (Rlt_dec 0 a) as [_|N]; [reflexivity|elim (N A)]. }
  assert (Relu1 : forall a m1 : R, 0 < a -> relu_mask_loop [a] [m1] = ([a], [1])).
  { intros a ? A. cbn -[IZR]. destruct (Rlt_dec 0 a) as [_|N]; [reflexivity|elim (N A)]. }
  eexists _, _, _. split.
  { let t := eval cbv - [forward backward Rplus Rmult IZR] in (train Debug w_start [(j_x, j_g)]) in change (train Debug w_start [(j_x, j_g)]) with t.
    do 4 (let E := fresh in match goal with
      | |- context [@forward ?bm _ ?A ?l ?x ?y] => eassert (E : @forward bm _ A l x y = _)
      | |- context [@backward ?bm _ ?A ?l ?x ?y ?g ?og] => eassert (E : @backward bm _ A l x y g og = _)
      end;
      [cbv - [relu_mask_loop Rplus Rmult IZR]; try first [rewrite Relu2 by lra|rewrite Relu1 by lra]; cbv - [relu_mask_loop Rplus Rmult IZR]; reflexivity
      |rewrite E; clear E; cbv - [forward backward Rplus Rmult IZR]]).
    reflexivity. }
  split; [reflexivity|].
  cbn [fc_weights fc_bias fc_weights_gradients fc_bias_gradients].
  repeat split; unfold rt; cbn [di dj dk]; f_equal; repeat (apply f_equal2; [lra|]); reflexivity.
Qed.

Lemma w_epoch : epochs (-1000) Debug w_start [(1, [(j_x, j_g)])] w_end.
Proof.
  destruct w_trained as (n' & f1 & f2 & E & L & W1 & B1 & W2 & B2 & GW1 & GB1 & GW2 & GB2).
  apply (epochs_batch (-1000) Debug) with (m := n') (q := w_end).
  - apply train_session. exact E.
  - apply j_built.
  - unfold w_end. rewrite L, (proj1 (j_layers _ _ _ _)). constructor; [|constructor; [|constructor]].
    + apply (stepped_fc (-1000) Debug _ _ _ 2%N 1%N (at_ (rt (mkShape 2 1 1) [1; 1])) (at_ (rt (mkShape 2 1 1) [1; 1])) (at_ (rt (mkShape 2 1 1) [6; 6])) (at_ (rt (mkShape 2 1 1) [2; 2])));
        cbn [fc_weights fc_weights_gradients fc_bias fc_bias_gradients]; rewrite ?W1, ?B1, ?GW1, ?GB1; try demo_rhold; stepped_holds.
    + apply (stepped_fc (-1000) Debug _ _ _ 1%N 2%N (at_ (rt (mkShape 1 2 1) [2; 2])) (at_ (rt (mkShape 1 1 1) [-1])) (at_ (rt (mkShape 1 2 1) [4; 4])) (at_ (rt (mkShape 1 1 1) [1])));
        cbn [fc_weights fc_weights_gradients fc_bias fc_bias_gradients]; rewrite ?W2, ?B2, ?GW2, ?GB2; try demo_rhold; stepped_holds.
  - constructor.
Qed.

Lemma w_session : exists m, session Debug w_start [(j_x, j_g)] m.
Proof. destruct w_trained as (n' & f1 & f2 & E & _). exists n'. apply train_session. exact E. Qed.

Ltac w_zero := eapply holds_ext; [|apply shaped_holds; demo_shaped];
  let i := fresh "i" in let j := fresh "j" in let k := fresh "k" in let Hi := fresh in let Hj := fresh in let Hk := fresh in
  intros i j k (Hi & Hj & Hk); cbn in Hi, Hj, Hk; one k Hk; first [one i Hi|two i Hi]; first [one j Hj|two j Hj]; reflexivity.

Lemma w_holds : training_built Debug w_start /\ trainable w_start /\ Forall (cleared Debug) (layers w_start) /\ sized w_start [(j_x, j_g)]
  /\ exists f g, nth_error (layers w_start) 0 = Some (LFC f) /\ nth_error (layers w_start) 1 = Some (LFC g) /\ twins (-1000) Debug 0 1 f g.
Proof.
  destruct (j_layers [1; 1] [1; 1] [2; 2] [-1]) as (L & SI & SO).
  split; [apply j_built|]. split; [split; [|split]; unfold w_start; rewrite L; [discriminate|repeat constructor|repeat constructor]|].
  split.
  { unfold w_start. rewrite L. constructor; [|constructor; [|constructor]]; cbn [cleared j_fc1 j_fc2 fc_weights fc_bias fc_weights_gradients fc_weights_gradients_intermediate fc_bias_gradients fc_relu_mask]; repeat split; unfold zeros; w_zero. }
  split; [constructor; [|constructor]; cbn [fst snd]; unfold w_start; rewrite SI, SO; split; demo_shaped|].
  unfold w_start. rewrite L. do 2 eexists. split; [reflexivity|]. split; [reflexivity|].
  exists 2%N, 1%N, 1%N, (at_ (rt (mkShape 2 1 1) [1; 1])), (at_ (rt (mkShape 2 1 1) [1; 1])), (at_ (rt (mkShape 1 2 1) [2; 2])). cbn [fc_weights fc_bias].
  do 3 (split; [demo_rhold|]). do 2 (split; [lia|]). split; [|split]; intros; try one q H; reflexivity.
Qed.

Lemma w_layers : match j_fc1 [1; -1] [1; 5], j_fc2 [1; 2] [-1] with LFC f, LFC g => fc_ok 2 1 f /\ fc_ok 1 2 g | _, _ => False end.
Proof. cbn [j_fc1 j_fc2]. split; do 2 (split; [demo_shaped|]); intros _; do 3 (split; [demo_shaped|]); demo_shaped. Qed.
