(** * A convolution and the same computation as a fully connected layer, for the example of C85 *)
From Verif Require Import Base Arith Helper Tensor Network Float32 Spec SpecLayer SpecSparse TensorFacts LayerFacts Demo DemoNet.

Definition t_cv : conv_layer f32 :=
  mkConv [tn (mkShape 2 1 1) [1;2]%Z] [tn (mkShape 1 1 1) [1]%Z] [] [] 1 dot (mkShape 3 2 1) (mkShape 2 2 1) "conv" Inference.

(** Column-major: one column per image position. *)
Definition t_fc : fc_layer f32 :=
  mkFC (tn (mkShape 4 6 1) [1;0;0;0; 2;1;0;0; 0;2;0;0; 0;0;1;0; 0;0;2;1; 0;0;0;2]%Z) dot dot (tn (mkShape 4 1 1) [1;1;1;1]%Z) dot dot "dense" Inference.

Lemma t_cv_ok : conv_layer_ok (mkShape 2 1 1) t_cv.
Proof.
  split. { repeat constructor; try reflexivity; apply wfb_wf; vm_compute; reflexivity. }
  split; [reflexivity|]. split; [vm_compute; discriminate|]. split.
  { repeat constructor; try reflexivity; try (vm_compute; discriminate); apply wfb_wf; vm_compute; reflexivity. }
  split; [repeat split; reflexivity|]. split; [repeat split; reflexivity|].
  split; [|discriminate]. intros ch H. cbn in H. repeat split; try reflexivity; try discriminate. exact H.
Qed.

Lemma t_fc_ok : fc_ok 4 6 t_fc.
Proof. split; [split; [demo_wf|reflexivity]|]. split; [split; [demo_wf|reflexivity]|discriminate]. Qed.

Ltac two i := let D := fresh in assert (D : i = 0 \/ i = 1) by lia; destruct D as [-> | ->].

Lemma t_window i j k a c d : in_shape (mkShape 2 2 1) i j k -> in_shape (mkShape 2 1 1) a c d ->
  val (fc_weights t_fc) (flat (mkShape 2 2 1) i j k) (flat (mkShape 3 2 1) (i * 1 + a) (j * 1 + c) d) 0 = kernel_at (cv_kernels t_cv) k a c d.
Proof.
  intros (Hi & Hj & Hk) (Ha & Hc & Hd). cbn [di dj dk] in *. assert (k = 0) by lia. assert (c = 0) by lia. assert (d = 0) by lia. subst.
  two i; two j; two a; reflexivity.
Qed.

Lemma t_outside i j k a c d : in_shape (mkShape 2 2 1) i j k -> in_shape (mkShape 3 2 1) a c d -> ~ under (mkShape 2 1 1) 1 i j a c ->
  zero (val (fc_weights t_fc) (flat (mkShape 2 2 1) i j k) (flat (mkShape 3 2 1) a c d) 0).
Proof.
  intros (Hi & Hj & Hk) (Ha & Hc & Hd) U. unfold under in U. cbn [di dj dk] in *. assert (k = 0) by lia. assert (d = 0) by lia. subst.
  assert (A : a = 0 \/ a = 1 \/ a = 2) by lia. two i; two j; two c; destruct A as [-> |[-> | ->]];
    first [exfalso; apply U; lia | exists false; reflexivity].
Qed.
