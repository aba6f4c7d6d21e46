(** * The network of C65 with one weight changed *)
From Coq Require Import Reals Lra ZifyBool ZifyNat ZifyN.
From Verif Require Import Base Arith Helper Tensor Network Bincode Serial Spec SpecLayer SpecNet SpecReal Loops TensorFacts ProofsTensor NetFacts RealArith RealSums SpecGain SpecDrift ProofsDrift.
From Verif Require Import Demo DemoNet DemoReal DemoGrad DemoNetError.
Local Open Scope string_scope.
Local Open Scope R_scope.

Definition x_fc_changed : layer R := LFC (mkFC (rt (mkShape 2 2 1) [1; -2; 3; 7 / 2]) zero1 zero1 (rt (mkShape 2 1 1) [1; -1]) zero1 zero1 "dense" Inference).
Definition x_net_changed : network R := DemoGrad.run_ops (network_new Inference) [OAdd x_mp; OAdd x_fc_changed].

Lemma x_net_changed_built : well_built Debug x_net_changed.
Proof.
  apply run_ops_well; [apply built_new| |apply built_new]. constructor; [repeat split; try reflexivity; discriminate|]. constructor; [|constructor].
  exists 2%N, 2%N. split; [demo_shaped|]. split; [demo_shaped|discriminate].
Qed.

Lemma x_net_changed_params : map params_of (layers x_net_changed) =
  [PMaxPool (mkShape 4 2 1) (mkShape 2 2 1) (mkShape 2 1 1) 2; PFC (rt (mkShape 2 2 1) [1; -2; 3; 7 / 2]) (rt (mkShape 2 1 1) [1; -1])].
Proof. run_R. reflexivity. Qed.

Lemma demo_drift : net_drift (-1000) Debug (map params_of (layers x_net)) (map params_of (layers x_net_changed)) 9 0 ((6 + 2 * / 2) * 9 + (1 + / 2)) (6 * 0 + (2 * / 2 * 9 + / 2)).
Proof.
  rewrite x_net_params, x_net_changed_params. econstructor; [apply DMaxPool; try reflexivity; lra|]. econstructor; [|constructor].
  assert (HW : holds Debug (rt (mkShape 2 2 1) [1; -2; 3; 4]) (mkShape 2 2 1) (at_ (rt (mkShape 2 2 1) [1; -2; 3; 4]))) by demo_rhold.
  assert (HW' : holds Debug (rt (mkShape 2 2 1) [1; -2; 3; 7 / 2]) (mkShape 2 2 1) (at_ (rt (mkShape 2 2 1) [1; -2; 3; 7 / 2]))) by demo_rhold.
  assert (HB : holds Debug (rt (mkShape 2 1 1) [1; -1]) (mkShape 2 1 1) (at_ (rt (mkShape 2 1 1) [1; -1]))) by demo_rhold.
  assert (I2 : 2 = INR (N.to_nat 2)) by (change (N.to_nat 2) with 2%nat; cbn; lra). 
  replace ((6 + 2 * / 2) * 9 + (1 + / 2)) with ((6 + INR (N.to_nat 2) * / 2) * 9 + (1 + / 2)) by (rewrite <- I2; reflexivity).
  replace (6 * 0 + (2 * / 2 * 9 + / 2)) with (6 * 0 + (INR (N.to_nat 2) * / 2 * 9 + / 2)) by (rewrite <- I2; reflexivity).
  apply (fc_changed (-1000) Debug _ _ _ _ 2 2 _ _ _ _ 6 1 (/ 2) 9 0 HW HW' HB HB); try lra.
  - intros i p Hi Hp. assert (D : i = 0%N \/ i = 1%N) by lia. assert (D' : p = 0%N \/ p = 1%N) by lia.
    destruct D as [-> | ->], D' as [-> | ->]; cbv - [Rplus Rle IZR Ropp Rabs Rminus Rdiv Rinv]; apply Rabs_le; lra.
  - intros i Hi. rewrite Rminus_diag_eq, Rabs_R0 by reflexivity. lra.
  - intros i Hi. change (upto 2) with [0; 1]%N. cbn [map Rsum fold_right]. assert (D : i = 0%N \/ i = 1%N) by lia.
    destruct D as [-> | ->]; cbv - [Rplus Rle IZR Ropp Rabs]; repeat (first [rewrite Rabs_pos_eq by lra|rewrite Rabs_left by lra]); lra.
  - intros i Hi. assert (D : i = 0%N \/ i = 1%N) by lia.
    destruct D as [-> | ->]; cbv - [Rplus Rle IZR Ropp Rabs]; [rewrite Rabs_pos_eq by lra|rewrite Rabs_left by lra]; lra.
Qed.
