(** * C59: training on a batch accumulates the gradient of the batch's loss *)
From Coq Require Import Reals Lra ZifyBool ZifyNat ZifyN.
From Verif Require Import Base Arith Helper Tensor Convolution Network Bincode Serial Spec SpecLayer SpecNet SpecReal SpecTrain SpecChain SpecBatch Loops TensorFacts OpsFacts.
From Verif Require Import Layout LayerFacts NetFacts NetRun NetBack RealArith RealSums RealGrad ProofsReal ProofsGrad ProofsChain.

Lemma backs_exactly_params {F} {AR : Arith F} (l l' : layer F) : params_of l' = params_of l -> backs_exactly l -> backs_exactly l'.
Proof. destruct l, l'; cbn [params_of backs_exactly backs]; intros E H; try discriminate E; injection E; intros;
  repeat match goal with E : _ = _ |- _ => rewrite E; clear E end; exact H || exact I. Qed.

Local Open Scope R_scope.

Lemma pairing_plus s f f' g : pairing s (fun i j k => f i j k + f' i j k) g = pairing s f g + pairing s f' g.
Proof.
  unfold pairing. rewrite <- Rsum_plus. apply Rsum_ext. intros ((i & j) & k) _. ring.
Qed.

Lemma gradient_plus s phi psi x d e : gradient s phi x d -> gradient s psi x e ->
  gradient s (fun y => phi y + psi y) x (fun i j k => d i j k + e i j k).
Proof. intros H1 H2 X v C. rewrite pairing_plus. apply deriv_plus; [apply H1|apply H2]; exact C. Qed.

Lemma gradient_zero s x : gradient s (fun _ => 0) x (fun _ _ _ => 0).
Proof.
  intros X v C. replace (pairing s (fun _ _ _ => 0) v) with 0; [apply deriv_const|].
  unfold pairing. symmetry. apply Rsum_zero. intros ((i & j) & k) _. ring.
Qed.

Section Real.
Context (m : R).
#[local] Hint Extern 0 (Arith R) => exact (R_arith m) : typeclass_instances.
Notation T := (tensor R).

Lemma train_batch {BT : Bits R} bm batch : forall n i f M k w b wg bg,
  training_built bm n -> Forall backs_exactly (layers n) -> Forall (sample_ok m bm n) batch ->
  nth_error (layers n) i = Some (LFC f) ->
  holds bm (fc_weights f) (mkShape M k 1) w -> holds bm (fc_bias f) (mkShape M 1 1) b ->
  holds bm (fc_weights_gradients f) (mkShape M k 1) wg -> holds bm (fc_bias_gradients f) (mkShape M 1 1) bg ->
  exists n' f' dw db loss, train bm n batch = Done (n', Ok tt) /\ nth_error (layers n') i = Some (LFC f')
    /\ holds bm (fc_weights_gradients f') (mkShape M k 1) (fun a b c => wg a b c + dw a b c)
    /\ holds bm (fc_bias_gradients f') (mkShape M 1 1) (fun a b c => bg a b c + db a b c)
    /\ (forall nt W B w' b', well_built bm nt -> map params_of (layers nt) = list_set (map params_of (layers n)) i (PFC W B) ->
          holds bm W (mkShape M k 1) w' -> holds bm B (mkShape M 1 1) b' -> batch_loss m bm nt batch (loss w' b'))
    /\ gradient (mkShape M k 1) (fun w' => loss w' b) w dw
    /\ gradient (mkShape M 1 1) (fun b' => loss w b') b db.
Proof.
  induction batch as [|(X & G) batch IH]; intros n i f M k w b wg bg TB Bk Sa Nf Hw Hb Hwg Hbg.
  - exists n, f, (fun _ _ _ => 0), (fun _ _ _ => 0), (fun _ _ => 0). split; [reflexivity|]. split; [exact Nf|].
    split; [eapply holds_ext; [|exact Hwg]; intros; cbn; ring|]. split; [eapply holds_ext; [|exact Hbg]; intros; cbn; ring|].
    split; [intros; constructor|]. split; apply gradient_zero.
  - inversion Sa as [|? ? (SX & SG & Sm) Sa']; subst. cbn [fst snd] in SX, SG, Sm.
    destruct (chain_params m bm n X _ G _ i f M k w b wg bg TB Bk (shaped_holds bm _ _ SX) (shaped_holds bm _ _ SG) Sm Nf Hw Hb Hwg Hbg)
      as (n1 & n2 & f2 & dw1 & db1 & net & E1 & E2 & Nf2 & Hwg2 & Hbg2 & Net & Gw & Gb).
    pose proof (infer_kept _ _ _ _ _ E1) as (Id1 & _ & KI1 & KO1 & _). pose proof (net_backward_kept _ _ _ _ _ E2) as (Id2 & _ & KI2 & KO2 & _).
    assert (P2 : map params_of (layers n2) = map params_of (layers n)).
    { rewrite (proj1 (run_op_params bm n1 (OBackward G) n2 (Ok tt) E2 I)). exact (proj1 (run_op_params bm n (OInfer X) n1 (Ok tt) E1 I)). }
    assert (TB2 : training_built bm n2).
    { apply (SpecNet.train_step bm n1 (OBackward G) n2 (Ok tt)); [|exact (proj1 SG)|discriminate|exact E2].
      apply (SpecNet.train_step bm n (OInfer X) n1 (Ok tt)); [exact TB|exact (proj1 SX)|discriminate|exact E1]. }
    assert (Ef : fc_weights f2 = fc_weights f /\ fc_bias f2 = fc_bias f).
    { assert (Q : nth_error (map params_of (layers n2)) i = nth_error (map params_of (layers n)) i) by (rewrite P2; reflexivity).
      rewrite !nth_error_map, Nf, Nf2 in Q. cbn in Q. injection Q as -> ->. auto. }
    assert (SI : net_input_shape n2 = net_input_shape n) by congruence.
    assert (SO : net_output_shape n2 = net_output_shape n) by congruence.
    assert (Bk2 : Forall backs_exactly (layers n2)).
    { eapply Forall_params; [|exact P2|exact Bk]. intros l l'. apply backs_exactly_params. }
    assert (Sa2 : Forall (sample_ok m bm n2) batch).
    { eapply Forall_impl; [|exact Sa']. intros (X' & G'). unfold sample_ok. rewrite SI, SO, P2. auto. }
    assert (Hw2 : holds bm (fc_weights f2) (mkShape M k 1) w) by (rewrite (proj1 Ef); exact Hw).
    assert (Hb2 : holds bm (fc_bias f2) (mkShape M 1 1) b) by (rewrite (proj2 Ef); exact Hb).
    destruct (IH n2 i f2 M k w b _ _ TB2 Bk2 Sa2 Nf2 Hw2 Hb2 Hwg2 Hbg2) as (n' & f' & dw2 & db2 & loss & E3 & Nf' & Hwg' & Hbg' & Loss & Gw2 & Gb2).
    exists n', f', (fun a b c => dw1 a b c + dw2 a b c), (fun a b c => db1 a b c + db2 a b c),
        (fun w' b' => pairing (net_output_shape n) (val G) (net w' b') + loss w' b').
      split. { cbn [train]. rewrite E1. cbn [bind]. rewrite E2. exact E3. }
      split; [exact Nf'|]. split; [eapply holds_ext; [|exact Hwg']; intros; cbn; ring|]. split; [eapply holds_ext; [|exact Hbg']; intros; cbn; ring|].
      split; [|split; apply gradient_plus; assumption].
      intros nt W B w' b' Bt Pt HW HB. destruct (Net nt W B w' b' Bt Pt HW HB) as (nt' & Y & Et & EY & HY).
      assert (SOt : net_output_shape nt = net_output_shape n).
      { pose proof (built_ok bm nt (relu_agrees_R m) Bt) as ((_ & _ & T3 & _) & _).
        pose proof (built_ok bm n (relu_agrees_R m) (training_built_well bm n TB)) as ((_ & _ & H3 & _) & _). rewrite T3, H3. f_equal.
        assert (Np : nth_error (map params_of (layers n)) i = Some (params_of (LFC f))) by (rewrite nth_error_map, Nf; reflexivity).
        pose proof (proj2 (holds_shaped _ _ _ _ Hw)) as Ew. pose proof (proj2 (holds_shaped _ _ _ _ Hb)) as Eb.
        pose proof (proj2 (holds_shaped _ _ _ _ HW)) as EW. pose proof (proj2 (holds_shaped _ _ _ _ HB)) as EB.
        apply boundaries_pins; rewrite Pt; eapply map_list_set; try exact Np; cbn [pin pout params_of]; congruence. }
      rewrite <- SOt. eapply loss_one; [exact Et|exact EY|rewrite SOt; exact HY|rewrite SOt; apply shaped_holds; exact SG|].
      apply (Loss nt W B w' b' Bt); [|exact HW|exact HB]. rewrite P2. exact Pt.
Qed.

End Real.
