(** * The gain of the network of C65 *)
From Coq Require Import Reals Lra ZifyBool ZifyNat ZifyN.
From Verif Require Import Base Arith Helper Tensor Network Bincode Serial Spec SpecLayer SpecNet SpecReal Loops TensorFacts ProofsTensor RealArith RealSums SpecGain.
From Verif Require Import Demo DemoNet DemoReal DemoGrad DemoNetError.
Local Open Scope R_scope.

Lemma demo_gain : net_gain (-1000) Debug (map params_of (layers x_net)) (1 * (6 * 1)).
Proof.
  rewrite x_net_params. constructor; [constructor|]. constructor; [|constructor].
  assert (HW : holds Debug (rt (mkShape 2 2 1) [1; -2; 3; 4]) (mkShape 2 2 1) (at_ (rt (mkShape 2 2 1) [1; -2; 3; 4]))) by demo_rhold.
  apply (GFC (-1000) Debug _ _ 2 2 _ 6 HW); [|lra].
  intros i Hi. change (upto 2) with [0; 1]%N. cbn [map Rsum fold_right]. assert (D : i = 0%N \/ i = 1%N) by lia.
  destruct D as [-> | ->]; cbv - [Rplus Rle IZR Ropp Rabs]; repeat (first [rewrite Rabs_pos_eq by lra|rewrite Rabs_left by lra]); lra.
Qed.
