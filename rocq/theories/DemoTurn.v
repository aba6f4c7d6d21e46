(** * Examples: turned networks *)
From Coq Require Import Reals Lra ZifyBool ZifyNat ZifyN.
From Verif Require Import Base Arith Helper Tensor Convolution Network Bincode Serial Spec SpecLayer SpecNet SpecReal SpecTrain SpecChain SpecTurn RealArith ProofsChain ProofsTurn.
From Verif Require Import Loops TensorFacts OpsFacts ProofsTensor LayerFacts NetFacts NetRun NetBack ProofsLayer RealGrad RealConv Demo DemoReal DemoTrain DemoGrad.
Local Open Scope R_scope.

(** A 2x2 convolution of a 3x3 image and a pooling layer of two rows behind it; the same transposed *)
Definition u_s : shape := mkShape 2 2 1.
Definition u_i : shape := mkShape 3 3 1.
Definition u_k : tensor R := rt u_s [1; 2; 3; 4].
Definition u_k' : tensor R := rt u_s [1; 3; 2; 4].
Definition u_x : tensor R := rt u_i [1; 2; 3; 4; 5; 6; 7; 8; 9].
Definition u_x' : tensor R := rt u_i [1; 4; 7; 2; 5; 8; 3; 6; 9].
Definition u_zero : tensor R := rt u_s [0; 0; 0; 0].
Definition u_b : tensor R := rt (mkShape 1 1 1) [1].
Definition u_cv (k : tensor R) : conv_layer R := mkConv [k] [u_b] [u_zero] [zero1] 1 u_zero u_i u_s "conv" Training.
Definition u_mp (mask outs : shape) : mp_layer := mkMP u_s mask outs 1 "pool" Training [0; 0]%N.
Definition u_net (k : tensor R) : network R := run_ops (network_new Training) [OAdd (LConv (u_cv k))].
Definition u_net2 (k : tensor R) (mask outs : shape) : network R := run_ops (network_new Training) [OAdd (LConv (u_cv k)); OAdd (LMaxPool (u_mp mask outs))].

Lemma u_cv_ok k : shaped k u_s -> conv_layer_ok u_s (u_cv k).
Proof.
  intros Hk. split; [constructor; [exact Hk|constructor]|]. split; [reflexivity|]. split; [vm_compute; discriminate|].
  split; [constructor; [split; [demo_wf|repeat split; discriminate]|constructor]|].
  split; [repeat split; reflexivity|]. split; [repeat split; reflexivity|].
  split; [intros ch H; repeat split; try reflexivity; try discriminate; exact H|].
  intros _. split; [demo_shaped|]. split; [constructor; [demo_shaped|constructor]|reflexivity].
Qed.

Lemma u_net_built k : shaped k u_s -> training_built Debug (u_net k).
Proof.
  intros Hk. apply run_ops_training; [apply train_new|]. constructor; [split; [exists u_s; split; [repeat split; reflexivity|exact (u_cv_ok k Hk)]|discriminate]|constructor].
Qed.

Lemma u_net2_built k mask outs : shaped k u_s -> mp_ok (u_mp mask outs) -> well_built Debug (u_net2 k mask outs).
Proof.
  intros Hk Hm. apply training_built_well. apply run_ops_training; [apply train_new|].
  constructor; [split; [exists u_s; split; [repeat split; reflexivity|exact (u_cv_ok k Hk)]|discriminate]|].
  constructor; [split; [exact Hm|discriminate]|constructor].
Qed.

Ltac nine i j := let D := fresh in let D' := fresh in assert (D : (i = 0 \/ i = 1 \/ i = 2)%N) by lia; assert (D' : (j = 0 \/ j = 1 \/ j = 2)%N) by lia;
  destruct D as [->|[->| ->]], D' as [->|[->| ->]].

Lemma u_get (t : tensor R) s f i j k : holds Debug t s f -> (forall p, In p (data t) -> 0 <= p) -> in_shape s i j k -> 0 <= f i j k.
Proof.
  intros (_ & Es & H) P Hin. rewrite <- Es in Hin. apply H in Hin. unfold get_item in Hin. destruct (fits_index _ _); [|injection Hin as <-; cbn; lra].
  apply bind_done in Hin. destruct Hin as (q & _ & Q). unfold data_get in Q. apply vget_done in Q. apply P. eapply nth_error_In. apply Q.
Qed.

Lemma u_smooth k x : shaped k u_s -> shaped x u_i -> (forall p, In p (data k) -> 0 <= p) -> (forall p, In p (data x) -> 0 <= p) ->
  smooth (-1000) Debug [PConv [k] [u_b] 1 u_i u_s] x.
Proof.
  intros Hk Hx Pk Px. cbn [smooth layer_smooth]. split; [|intros; exact I].
  intros ks h b f Hh Hb Hf i j c (Hi & Hj & Hc). assert (c = 0%N) by (cbn in Hc; lia). subst c.
  assert (Hk' := Hh 0%N k eq_refl). assert (B : b 0%N = 1). { pose proof (Hb 0%N _ eq_refl) as B. cbv - [IZR] in B. congruence. }
  pose proof (proj2 (holds_shaped _ _ _ _ Hk')) as S. rewrite (proj2 Hk) in S. subst ks.
  unfold conv_pre, conv_linear. rewrite B.
  assert (0 <= Rsum (map (fun '(a, e, c) => f (i * 1 + a)%N (j * 1 + e)%N c * h 0%N a e c) (cells u_s))); [|lra].
  apply RealSums.Rsum_nonneg. intros ((a & e) & c) Hin. apply in_cells in Hin. pose proof Hin as (Ha & He & Hc'). cbn [u_s di dj dk] in *.
  apply Rmult_le_pos.
  - apply (u_get x u_i f); [exact Hf|exact Px|]. repeat split; cbn; lia.
  - apply (u_get k u_s (h 0%N)); assumption.
Qed.

Lemma u_turned (k k' : tensor R) s : tshape k = s -> holds Debug k s (at_ k) -> holds Debug k' (turn Transpose s) (at_ k') -> turned Transpose s (at_ k) (at_ k') -> turned_tensor Debug Transpose k k'.
Proof. intros <- H H' T. exists (at_ k), (at_ k'). auto. Qed.

Lemma u_k_turned : turned_tensor Debug Transpose u_k u_k'.
Proof.
  apply (u_turned _ _ u_s); [reflexivity|demo_rhold|demo_rhold|]. intros i j k (Hi & Hj & Hk). cbn [u_s di dj dk goes] in *. assert (k = 0%N) by lia. subst.
  nine i j; try lia; reflexivity.
Qed.

Lemma u_x_turned : turned Transpose u_i (at_ u_x) (at_ u_x').
Proof. intros i j k (Hi & Hj & Hk). cbn [u_i di dj dk goes] in *. assert (k = 0%N) by lia. subst. nine i j; try lia; reflexivity. Qed.
