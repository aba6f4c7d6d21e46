(** * Concrete cases for C76 *)
From Verif Require Import Base Arith Helper Tensor Network Bincode Serial Float32 Spec SpecLayer SpecNet.
From Verif Require Import Float32Facts Demo DemoReal DemoNet.

(** Two units that pass on their inputs (if not negative). *)
Definition k_fc : layer f32 := LFC (mkFC (tn (mkShape 2 2 1) [1;0;0;1]%Z) dot dot (tn (mkShape 2 1 1) [0;0]%Z) dot dot "same" Inference).

Lemma k_built : forall n, run_all Debug (network_new Inference) [OAdd k_fc; OAdd d_sm] = Some n -> well_built Debug n.
Proof.
  intros n E. eapply run_all_built; [apply built_new| |exact E]. constructor; [|constructor; [exact d_sm_ok|constructor]].
  exists 2%N, 2%N. split; [split; [demo_wf|reflexivity]|]. split; [split; [demo_wf|reflexivity]|discriminate].
Qed.
