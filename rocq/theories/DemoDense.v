(** * A convolution over a whole 2x2 image and the same computation as a fully connected layer, for the example of C70 *)
From Verif Require Import Base Arith Helper Tensor Network Float32 Spec SpecLayer TensorFacts LayerFacts Demo DemoNet.

Definition w_cv : conv_layer f32 :=
  mkConv [tn (mkShape 2 2 1) [1;-2;3;4]%Z; tn (mkShape 2 2 1) [-1;0;5;-7]%Z] [tn (mkShape 1 1 1) [1]%Z; tn (mkShape 1 1 1) [-3]%Z] [] []
    3 dot (mkShape 2 2 1) (mkShape 1 1 2) "whole" Inference.

(** Column-major: one column per input, one row per output. *)
Definition w_fc : fc_layer f32 :=
  mkFC (tn (mkShape 2 4 1) [1;-1; -2;0; 3;5; 4;-7]%Z) dot dot (tn (mkShape 2 1 1) [1;-3]%Z) dot dot "dense" Inference.

Lemma w_cv_ok : conv_layer_ok (mkShape 2 2 1) w_cv.
Proof.
  split. { repeat constructor; try reflexivity; apply wfb_wf; vm_compute; reflexivity. }
  split; [reflexivity|]. split; [vm_compute; discriminate|]. split.
  { repeat constructor; try reflexivity; try (vm_compute; discriminate); apply wfb_wf; vm_compute; reflexivity. }
  split; [repeat split; reflexivity|]. split; [repeat split; reflexivity|].
  split; [|discriminate]. intros ch H. cbn in H. repeat split; try reflexivity; try discriminate. exact H.
Qed.

Lemma w_fc_ok : fc_ok 2 4 w_fc.
Proof. split; [split; [demo_wf|reflexivity]|]. split; [split; [demo_wf|reflexivity]|discriminate]. Qed.

(** Row k of the weights is kernel k, read in storage order. *)
Lemma w_rows k i j c : k < 2 -> in_shape (mkShape 2 2 1) i j c ->
  val (fc_weights w_fc) k (flat (mkShape 2 2 1) i j c) 0 = kernel_at (cv_kernels w_cv) k i j c.
Proof.
  intros Hk (Hi & Hj & Hc). cbn [di dj dk] in *. assert (c = 0) by lia. subst c.
  assert (K : k = 0 \/ k = 1) by lia. assert (I : i = 0 \/ i = 1) by lia. assert (J : j = 0 \/ j = 1) by lia.
  destruct K as [-> | ->], I as [-> | ->], J as [-> | ->]; reflexivity.
Qed.
