(** * C84: the accumulated gradients are a descent direction *)
From Coq Require Import Reals Lra ZifyBool ZifyNat ZifyN.
From Verif Require Import Base Arith Helper Tensor Convolution Network Bincode Serial Spec SpecLayer SpecNet SpecReal SpecTrain SpecChain SpecBatch Loops TensorFacts OpsFacts.
From Verif Require Import Layout LayerFacts NetFacts NetRun NetBack RealArith RealSums RealGrad ProofsReal ProofsGrad ProofsChain ProofsBatch.
Local Open Scope R_scope.

Lemma list_set_self {A} (l : list A) i x : nth_error l i = Some x -> list_set l i x = l.
Proof. revert i. induction l as [|y l IH]; intros [|i] H; cbn in *; try discriminate; [congruence|]. f_equal. apply IH, H. Qed.

(** A step against a gradient that is not zero, if small enough, lowers the function. *)
Lemma descent s phi x d : gradient s phi x d -> (exists i j k, in_shape s i j k /\ d i j k <> 0) ->
  exists eta0, 0 < eta0 /\ forall eta, 0 < eta < eta0 -> phi (fun i j k => x i j k - eta * d i j k) < phi (fun i j k => x i j k - 0 * d i j k).
Proof.
  intros G (i & j & k & Hin & Nz).
  assert (Neg : 0 < pairing s d d).
  { assert (Q : forall c, In c (cells s) -> 0 <= (fun '(i, j, k) => d i j k * d i j k) c) by (intros ((a & b) & c) _; nra).
    destruct (Rle_lt_or_eq_dec _ _ (Rsum_nonneg _ (cells s) Q)) as [H|H]; [exact H|exfalso].
    apply in_cells in Hin. pose proof (Rsum_zero_inv _ _ Q (eq_sym H) _ Hin) as Z. cbn in Z. apply Nz. nra. }
  assert (C : curve s (fun t i j k => x i j k - t * d i j k) x (fun i j k => - d i j k)).
  { intros a b c _. split; [ring|]. apply deriv_eq with (0 + (- d a b c) * 1); [ring|].
    apply deriv_ext with (fun t => x a b c + (- d a b c) * t); [intros t; ring|].
    apply deriv_plus; [apply deriv_const|]. apply deriv_scale, derivable_pt_lim_id. }
  pose proof (G _ _ C) as D. cbv beta in D.
  assert (Dl : pairing s d (fun i j k => - d i j k) = - pairing s d d).
  { replace (- pairing s d d) with ((-1) * pairing s d d) by ring. unfold pairing. rewrite <- Rsum_scale. apply Rsum_ext. intros ((a & b) & c) _. ring. }
  rewrite Dl in D. destruct (D (pairing s d d / 2)) as (del & Hd); [lra|].
  exists (pos del). split; [apply cond_pos|]. intros eta (E1 & E2).
  specialize (Hd eta ltac:(lra)). rewrite (Rabs_right eta) in Hd by lra. specialize (Hd E2). rewrite Rplus_0_l in Hd.
  match type of Hd with Rabs ((?a - ?b) / _ - _) < _ => set (A := a) in *; set (B := b) in * end.
  assert (Q : A - B = eta * ((A - B) / eta)) by (field; lra).
  apply Rabs_def2 in Hd. assert ((A - B) / eta < 0) by lra. nra.
Qed.

Section Real.
Context (m : R).
#[local] Hint Extern 0 (Arith R) => exact (R_arith m) : typeclass_instances.
Notation T := (tensor R).

Lemma batch_loss_unique bm n batch l : batch_loss m bm n batch l -> forall l', batch_loss m bm n batch l' -> l = l'.
Proof.
  induction 1 as [|x g rest n' y yv gv l AR E1 E2 Hy Hg _ IH]; intros l' H'; inversion H' as [|? ? ? n2 y2 yv2 gv2 l2 AR2 E3 E4 Hy2 Hg2 R2]; subst; [reflexivity|].
  subst AR AR2. rewrite E1 in E3. injection E3 as <-. rewrite E2 in E4. injection E4 as <-. rewrite (IH _ R2). f_equal.
  apply pairing_ext; eapply holds_fun; eassumption.
Qed.

Lemma train_descends {BT : Bits R} bm batch n i f M k w b :
  training_built bm n -> Forall backs_exactly (layers n) -> Forall (sample_ok m bm n) batch ->
  nth_error (layers n) i = Some (LFC f) ->
  holds bm (fc_weights f) (mkShape M k 1) w -> holds bm (fc_bias f) (mkShape M 1 1) b ->
  holds bm (fc_weights_gradients f) (mkShape M k 1) (fun _ _ _ => 0) -> holds bm (fc_bias_gradients f) (mkShape M 1 1) (fun _ _ _ => 0) ->
  exists n' f' dw db loss, train bm n batch = Done (n', Ok tt) /\ nth_error (layers n') i = Some (LFC f')
    /\ holds bm (fc_weights_gradients f') (mkShape M k 1) dw /\ holds bm (fc_bias_gradients f') (mkShape M 1 1) db
    /\ (forall l, batch_loss m bm n batch l <-> l = loss)
    /\ ((exists a c e, in_shape (mkShape M k 1) a c e /\ dw a c e <> 0) ->
        exists eta0, 0 < eta0 /\ forall eta nt W, 0 < eta < eta0 ->
          well_built bm nt -> map params_of (layers nt) = list_set (map params_of (layers n)) i (PFC W (fc_bias f)) ->
          holds bm W (mkShape M k 1) (fun a c e => w a c e - eta * dw a c e) ->
          exists l, batch_loss m bm nt batch l /\ l < loss)
    /\ ((exists a c e, in_shape (mkShape M 1 1) a c e /\ db a c e <> 0) ->
        exists eta0, 0 < eta0 /\ forall eta nt B, 0 < eta < eta0 ->
          well_built bm nt -> map params_of (layers nt) = list_set (map params_of (layers n)) i (PFC (fc_weights f) B) ->
          holds bm B (mkShape M 1 1) (fun a c e => b a c e - eta * db a c e) ->
          exists l, batch_loss m bm nt batch l /\ l < loss).
Proof.
  intros TB Bk Sa Nf Hw Hb Hwg Hbg.
  destruct (train_batch m bm batch n i f M k w b _ _ TB Bk Sa Nf Hw Hb Hwg Hbg) as (n' & f' & dw & db & loss & E & Nf' & Hwg' & Hbg' & L & Gw & Gb).
  assert (Self : map params_of (layers n) = list_set (map params_of (layers n)) i (PFC (fc_weights f) (fc_bias f))).
  { symmetry. apply list_set_self. rewrite nth_error_map, Nf. reflexivity. }
  assert (Lw : forall w', (forall a c e, in_shape (mkShape M k 1) a c e -> w' a c e = w a c e) -> batch_loss m bm n batch (loss w' b)).
  { intros w' Hw'. eapply L; [exact (training_built_well bm n TB)|exact Self| |exact Hb]. eapply holds_ext; [|exact Hw]. intros; symmetry; auto. }
  assert (Lb : forall b', (forall a c e, in_shape (mkShape M 1 1) a c e -> b' a c e = b a c e) -> batch_loss m bm n batch (loss w b')).
  { intros b' Hb'. eapply L; [exact (training_built_well bm n TB)|exact Self|exact Hw|]. eapply holds_ext; [|exact Hb]. intros; symmetry; auto. }
  pose proof (Lw w ltac:(intros; reflexivity)) as L0.
  exists n', f', dw, db, (loss w b). split; [exact E|]. split; [exact Nf'|].
  split; [eapply holds_ext; [|exact Hwg']; intros; cbn; ring|]. split; [eapply holds_ext; [|exact Hbg']; intros; cbn; ring|].
  split; [intros l; split; [intros Hl; exact (batch_loss_unique _ _ _ _ Hl _ L0)|intros ->; exact L0]|]. split.
  - intros Nz. destruct (descent _ _ _ _ Gw Nz) as (eta0 & P & D). exists eta0. split; [exact P|]. intros eta nt W He Bt Pt HW.
    exists (loss (fun a c e => w a c e - eta * dw a c e) b). split; [eapply L; eassumption|].
    rewrite (batch_loss_unique _ _ _ _ L0 _ (Lw (fun a c e => w a c e - 0 * dw a c e) ltac:(intros; cbv beta; ring))). exact (D eta He).
  - intros Nz. destruct (descent _ _ _ _ Gb Nz) as (eta0 & P & D). exists eta0. split; [exact P|]. intros eta nt B He Bt Pt HB.
    exists (loss w (fun a c e => b a c e - eta * db a c e)). split; [eapply L; eassumption|].
    rewrite (batch_loss_unique _ _ _ _ L0 _ (Lb (fun a c e => b a c e - 0 * db a c e) ltac:(intros; cbv beta; ring))). exact (D eta He).
Qed.
End Real.
