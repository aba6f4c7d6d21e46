(** * A sample with the squared error for the examples of C103 *)
From Coq Require Import Reals Lra ZifyBool ZifyNat ZifyN.
From Verif Require Import Base Arith Helper Tensor FullyConnected Network Bincode Serial Spec SpecLayer SpecNet SpecReal SpecTrain SpecModes SpecChain SpecBatch SpecGridBack SpecJoint SpecLoss RealArith RealSums Loops.
From Verif Require Import ProofsTensor LayerFacts TensorFacts RealGrad NetFacts NetBack RealConv ProofsLayer NetRun ProofsGrad ProofsChain ProofsJoint ProofsLoss Float32 Demo DemoReal DemoGrad DemoJoint.
Local Open Scope string_scope.
Local Open Scope R_scope.

(** The network of C88 outputs 7 on 3. The target is 6. *)
Definition l_loss : loss_fun := squared_error (mkShape 1 1 1) (fun _ _ _ => 6).
Definition l_sample : sample := (j_x, j_g, l_loss).

Lemma l_output : outputs (-1000) Debug j_start j_x (fun _ _ _ => 7).
Proof.
  destruct (j_layers [1; -1] [1; 5] [1; 2] [-1]) as (L & SI & SO).
  assert (Okn : net_ok (j_start)) by exact (built_ok Debug j_start (relu_agrees_R (-1000)) (training_built_well Debug _ (j_built _ _ _ _ _ _ _))).
  assert (HX : @holds R (R_arith (-1000)) Debug j_x (mkShape 1 1 1) (at_ j_x)) by demo_rhold.
  assert (O : outputs (-1000) Debug j_start j_x (net_map (-1000) (map params_of (layers j_start)) (at_ j_x))).
  { apply outputs_map; [exact Okn|unfold j_start; rewrite L; discriminate|]. unfold j_start. rewrite SI. exact HX. }
  destruct O as (n' & Y & E & EY & HY). exists n', Y. split; [exact E|]. split; [exact EY|].
  unfold j_start in HY |- *. rewrite SO in *. eapply holds_ext; [|exact HY]. intros i j k Hin. destruct Hin as (Hi & Hj & Hk). cbn [di dj dk] in *.
  assert (i = 0%N) by lia. assert (j = 0%N) by lia. assert (k = 0%N) by lia. subst. rewrite L.
  set (W1 := rt (mkShape 2 1 1) [1; -1]). set (B1 := rt (mkShape 2 1 1) [1; 5]). set (W2 := rt (mkShape 1 2 1) [1; 2]). set (B2 := rt (mkShape 1 1 1) [-1]).
  change (map params_of [j_fc1 [1; -1] [1; 5]; j_fc2 [1; 2] [-1]]) with [PFC W1 B1; PFC W2 B2].
  cbn [net_map fold_left layer_map].
  set (h := fc_map (dj (tshape W1)) (val W1) (val B1) (at_ j_x)) in *.
  assert (H0 : h 0%N 0%N 0%N = 4) by (unfold h, fc_map, Spec.relu, fc_pre; cbv - [Rplus Rmult IZR Ropp Rmax]; rewrite Rmax_right by lra; lra).
  assert (H1 : h 1%N 0%N 0%N = 2) by (unfold h, fc_map, Spec.relu, fc_pre; cbv - [Rplus Rmult IZR Ropp Rmax]; rewrite Rmax_right by lra; lra).
  unfold fc_map at 1, fc_pre. change (dj (tshape W2)) with 2%N. change (upto 2) with [0; 1]%N. cbn [map Rsum fold_right]. rewrite H0, H1.
  cbv - [Rplus Rmult IZR Ropp Rmax]. rewrite Rmax_right by lra. lra.
Qed.

Lemma l_aimed : aimed (-1000) Debug j_start l_sample.
Proof.
  destruct (j_layers [1; -1] [1; 5] [1; 2] [-1]) as (L & SI & SO).
  destruct (squared_gradient (mkShape 1 1 1) (fun _ _ _ => 6) (fun _ _ _ => 7)) as (LA & Gr).
  unfold aimed, l_sample. split; [exact (Forall_inv j_smooth)|]. fold j_start in SO. rewrite SO. split; [exact LA|].
  eexists _, _. split; [exact l_output|]. split; [|exact Gr].
  assert (HG : @holds R (R_arith (-1000)) Debug j_g (mkShape 1 1 1) (at_ j_g)) by demo_rhold.
  eapply holds_ext; [|exact HG]. intros i j k (Hi & Hj & Hk). cbn [di dj dk] in *.
  assert (i = 0%N) by lia. assert (j = 0%N) by lia. assert (k = 0%N) by lia. subst. cbv - [Rplus Rminus Rmult IZR Ropp]. lra.
Qed.

Lemma l_total : total_loss (-1000) Debug j_start [l_sample] (1 / 2 + 0).
Proof.
  destruct (j_layers [1; -1] [1; 5] [1; 2] [-1]) as (L & SI & SO).
  eapply total_one; [exact l_output| |constructor]. intros y' O.
  pose proof (outputs_fun (-1000) Debug _ _ _ _ O l_output 0%N 0%N 0%N) as E. unfold j_start in E. rewrite SO in E.
  specialize (E ltac:(repeat split; cbn; lia)). unfold l_loss, squared_error. cbn [cells di dj dk upto]. cbv - [Rplus Rminus Rmult Rdiv IZR Ropp]. rewrite E. lra.
Qed.

(** Softmax of two equal inputs, target the first. *)
Lemma l_half i j k : in_shape (mkShape 2 1 1) i j k -> softmax_map (mkShape 2 1 1) (fun _ _ _ => 0) i j k = 1 / 2.
Proof. intros _. unfold softmax_map. cbv - [Rplus Rmult Rdiv IZR exp]. rewrite exp_0. field. Qed.

Definition l_target (i _ _ : N) : R := if N.eqb i 0 then 1 else 0.
Lemma l_entropy : let AR := R_arith (-1000) in
  holds Debug (rt (mkShape 2 1 1) [0; 0]) (mkShape 2 1 1) (fun _ _ _ => 0)
  /\ Rsum (map (fun i => l_target i 0%N 0%N) (upto 2)) = 1
  /\ holds Debug (rt (mkShape 2 1 1) [-2; 0]) (mkShape 2 1 1) (fun i j k => - (l_target i j k / softmax_map (mkShape 2 1 1) (fun _ _ _ => 0) i j k)).
Proof.
  assert (D : forall i j k, in_shape (mkShape 2 1 1) i j k -> (i = 0%N \/ i = 1%N) /\ j = 0%N /\ k = 0%N) by (intros i j k (Hi & Hj & Hk); cbn [di dj dk] in *; lia).
  split; [|split].
  - assert (H : @holds R (R_arith (-1000)) Debug (rt (mkShape 2 1 1) [0; 0]) (mkShape 2 1 1) (at_ (rt (mkShape 2 1 1) [0; 0]))) by demo_rhold.
    eapply holds_ext; [|exact H]. intros i j k Hin. destruct (D i j k Hin) as ([-> | ->] & -> & ->); reflexivity.
  - change (upto 2) with [0; 1]%N. cbv - [Rplus IZR]. lra.
  - assert (H : @holds R (R_arith (-1000)) Debug (rt (mkShape 2 1 1) [-2; 0]) (mkShape 2 1 1) (at_ (rt (mkShape 2 1 1) [-2; 0]))) by demo_rhold.
    eapply holds_ext; [|exact H]. intros i j k Hin. rewrite (l_half i j k Hin). destruct (D i j k Hin) as ([-> | ->] & -> & ->); cbv - [Rplus Rmult Rdiv IZR Ropp]; lra.
Qed.
