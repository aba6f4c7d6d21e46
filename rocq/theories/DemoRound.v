(** * Concrete gradients that are rounded *)
From Verif Require Import Base Arith Helper Tensor Network Float32 Spec SpecLayer SpecTrain SpecRound Loops TensorFacts LayerFacts Demo DemoNet DemoTrain.
Local Open Scope string_scope.
Local Open Scope N_scope.

(** Three pairs for 2x + 3y - 1; the last is gated off. *)
Definition g_batch : list (train_op f32) := [t_pair 16777216 1 1; t_pair 1 2 1; t_pair (-5) 0 7].

(** Inputs a, b, c to outputs 2a - b + 1, 2b - c + 1. *)
Definition g_cv : conv_layer f32 :=
  mkConv [tn (mkShape 2 1 1) [2;-1]%Z] [tn (mkShape 1 1 1) [1]%Z] [tn (mkShape 2 1 1) [0;0]%Z] [tn (mkShape 1 1 1) [0]%Z] 1
    (tn (mkShape 2 1 1) [0;0]%Z) (mkShape 3 1 1) (mkShape 2 1 1) "conv" Training.
Lemma g_cv_ok : conv_layer_ok (mkShape 2 1 1) g_cv.
Proof.
  split; [apply one_forall; split; [demo_wf|reflexivity]|]. split; [reflexivity|]. split; [vm_compute; discriminate|].
  split; [apply one_forall; split; [demo_wf|repeat split; discriminate]|].
  split; [repeat split; reflexivity|]. split; [repeat split; reflexivity|].
  split; [intros ch H; repeat split; try reflexivity; try discriminate; exact H|].
  intros _. split; [split; [demo_wf|reflexivity]|]. split; [apply one_forall; split; [demo_wf|reflexivity]|reflexivity].
Qed.
