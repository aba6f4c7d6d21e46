(** * Fixed-point networks are trained without rounding *)
From Coq Require Import Reals Lra ZifyBool ZifyNat ZifyN.
From Flocq Require Import Core IEEE754.Binary.
From Verif Require Import Base Arith Helper Tensor Network Bincode Serial Spec SpecLayer SpecNet SpecReal SpecTrain Loops TensorFacts OpsFacts ProofsTensor Layout LayerFacts BackFacts NetFacts NetRun NetBack RealArith RealSums Float32 Float32Facts.
From Verif Require Import SpecError FloatError SpecNetError SpecModes SpecBatch SpecGrid SpecGridBack ProofsFloat ProofsLayer ProofsPool ProofsGrad ProofsNetError RealGrad ProofsReal ProofsGrid Lockstep.
Local Open Scope R_scope.

Lemma fits_less g a a' : fits_grid g a -> a' <= a -> fits_grid g a'.
Proof. intros (H1 & H2) L. split; [exact H1|lra]. Qed.

Lemma gtb_real (x y : f32) : fin x = true -> fin y = true -> (f32_gtb x y = true <-> real y < real x).
Proof.
  intros Fx Fy. rewrite gtb_true, !rank_finite by assumption. split; [tauto|]. intros H. split; [|split; [|exact H]]; [destruct x|destruct y]; try discriminate; reflexivity.
Qed.

Section Two.
Context (e : env) (low : R) (bm : build).
Notation AF := (f32_arith e).
Notation AR := (R_arith low).

(** Two tensors of the same shape with the same numbers, on a grid. *)
Definition twins (g : Z) (a : R) (s : shape) (X : tensor f32) (X' : tensor R) : Prop :=
  shaped X s /\ shaped X' s /\ exact_on g a s (@val f32 AF X) (@val R AR X').

Lemma twins_holds g a s X X' x x' : @holds f32 AF bm X s x -> @holds R AR bm X' s x' -> exact_on g a s x x' -> twins g a s X X'.
Proof.
  intros H H' E. split; [apply (holds_shaped _ _ _ _ H)|]. split; [apply (holds_shaped _ _ _ _ H')|]. intros i j k Hin.
  pose proof (holds_fun bm _ _ _ _ (shaped_holds bm _ _ (holds_shaped _ _ _ _ H)) H i j k Hin) as Q.
  pose proof (holds_fun bm _ _ _ _ (shaped_holds bm _ _ (holds_shaped _ _ _ _ H')) H' i j k Hin) as Q'.
  specialize (E i j k Hin). rewrite <- Q, <- Q' in E. exact E.
Qed.

Lemma twins_of_fun g a s x x' : allocatable s -> exact_on g a s x x' -> twins g a s (of_fun s x) (of_fun s x').
Proof. intros A. apply twins_holds; apply holds_of_fun; exact A. Qed.

(** ** The mask of a fully connected layer *)
Lemma gate_relu {F} {A : Arith F} (z : F) : fgtb fzero fzero = false -> gate (Spec.relu z) = gate z.
Proof. intros H. unfold gate, Spec.relu. destruct (fgtb z fzero) eqn:G; rewrite ?G, ?H; reflexivity. Qed.

Lemma gates_agree (z : f32) (z' : R) : fin (@Spec.relu f32 AF z) = true -> real (@Spec.relu f32 AF z) = @Spec.relu R AR z' ->
  fin (@gate f32 AF z) = true /\ real (@gate f32 AF z) = @gate R AR z' /\ on_grid 0 (@gate R AR z') /\ 0 <= @gate R AR z' <= 1.
Proof.
  intros Fz E. rewrite <- (@gate_relu f32 AF z) by reflexivity. rewrite <- (@gate_relu R AR z') by (cbn; destruct (Rlt_dec 0 0); [lra|reflexivity]).
  rewrite <- E. set (y := @Spec.relu f32 AF z) in *. clearbody y. unfold gate. cbn [fgtb fzero fone f32_arith R_arith].
  pose proof (gtb_real y f32_zero Fz eq_refl) as G. change (real f32_zero) with 0 in G.
  destruct (f32_gtb y f32_zero), (Rlt_dec 0 (real y)) as [H|H]; try (exfalso; intuition congruence).
  - split; [reflexivity|]. split; [apply real_one|]. split; [exists 1%Z; cbn; lra|lra].
  - split; [reflexivity|]. split; [reflexivity|]. split; [apply grid_zero|lra].
Qed.

Lemma exact_twins (t : tensor f32) (t' : tensor R) s : exact_tensor t t' -> shaped t s ->
  shaped t' s /\ forall i j k, in_shape s i j k -> fin (@val f32 AF t i j k) = true /\ real (@val f32 AF t i j k) = @val R AR t' i j k.
Proof.
  intros E S. destruct (exact_holds e low bm t t' s _ E (shaped_holds bm _ _ S)) as (H' & Fn). pose proof (holds_shaped _ _ _ _ H') as S'.
  split; [exact S'|]. intros i j k Hin. split; [apply Fn; exact Hin|]. symmetry. exact (holds_fun bm _ _ _ _ (shaped_holds bm _ _ S') H' i j k Hin).
Qed.

(** Products and sums of twins. *)
Lemma mul_twins g h a b c x y x' y' : fin x = true -> real x = x' -> on_grid g x' -> Rabs x' <= a ->
  fin y = true -> real y = y' -> on_grid h y' -> Rabs y' <= b -> a * b <= c -> fits_grid (g + h) c ->
  fin (f32_mul e x y) = true /\ real (f32_mul e x y) = x' * y' /\ on_grid (g + h) (x' * y') /\ Rabs (x' * y') <= a * b.
Proof.
  intros Fx Ex Gx Lx Fy Ey Gy Ly Hc Ft. assert (G : on_grid (g + h) (x' * y')) by (apply grid_mul; assumption).
  assert (L : Rabs (x' * y') <= a * b) by (rewrite Rabs_mult; apply Rmult_le_compat; try apply Rabs_pos; assumption).
  destruct (mul_exact e (g + h) c x y Ft Fx Fy) as (F1 & E1); rewrite ?Ex, ?Ey; [exact G|lra|]. rewrite E1, Ex, Ey. auto.
Qed.

Lemma add_twins g a b c x y x' y' : fin x = true -> real x = x' -> on_grid g x' -> Rabs x' <= a ->
  fin y = true -> real y = y' -> on_grid g y' -> Rabs y' <= b -> a + b <= c -> fits_grid g c ->
  fin (f32_add e x y) = true /\ real (f32_add e x y) = x' + y' /\ on_grid g (x' + y') /\ Rabs (x' + y') <= a + b.
Proof.
  intros Fx Ex Gx Lx Fy Ey Gy Ly Hc Ft. assert (G : on_grid g (x' + y')) by (apply grid_add; assumption).
  assert (L : Rabs (x' + y') <= a + b) by (eapply Rle_trans; [apply Rabs_triang|lra]).
  destruct (add_exact e g c x y Ft Fx Fy) as (F1 & E1); rewrite ?Ex, ?Ey; [exact G|lra|]. rewrite E1, Ex, Ey. auto.
Qed.

(** ** Fully connected layers *)
Definition fc_twins (k : R) (u v : level) (m n : N) (l : fc_layer f32) (l' : fc_layer R) : Prop :=
  twins (bg v + fg u) (k * (ba v * fa u)) (mkShape m n 1) (fc_weights_gradients l) (fc_weights_gradients l')
  /\ twins (bg v) (k * ba v) (mkShape m 1 1) (fc_bias_gradients l) (fc_bias_gradients l').

Lemma fc_mask_ok {F} m n (l : fc_layer F) mask : fc_ok m n l -> fc_run_state l = Training -> shaped mask (mkShape m 1 1) -> fc_ok m n (fc_set_mask l mask).
Proof.
  intros (Ow & Ob & Ot) Tr S. split; [exact Ow|]. split; [exact Ob|]. intros _. destruct (Ot Tr) as (H5 & H2 & H3 & H4).
  cbn. split; [exact H5|]. split; [exact H2|]. split; [exact H3|]. exact S.
Qed.

Lemma fc_round K k u v m n (l : fc_layer f32) (l' : fc_layer R) X X' Y0 Y0' G G' o0 o0' l1 l1' Y Y' l2 l2' og og' :
  fc_ok m n l -> fc_ok m n l' -> fc_run_state l = Training -> fc_run_state l' = Training ->
  exact_tensor (fc_weights l) (fc_weights l') -> exact_tensor (fc_bias l) (fc_bias l') ->
  layer_training low bm K (PFC (fc_weights l') (fc_bias l')) u v -> 0 <= fa u -> 0 <= ba v -> 0 <= k -> k + 1 <= K ->
  twins (fg u) (fa u) (mkShape n 1 1) X X' -> twins (bg v) (ba v) (mkShape m 1 1) G G' -> fc_twins k u v m n l l' ->
  shaped Y0 (mkShape m 1 1) -> shaped Y0' (mkShape m 1 1) -> shaped o0 (mkShape n 1 1) -> shaped o0' (mkShape n 1 1) ->
  @fc_forward bm f32 AF l X Y0 = Done (l1, Y, Ok tt) -> @fc_forward bm R AR l' X' Y0' = Done (l1', Y', Ok tt) ->
  @fc_backward bm f32 AF l1 X Y G o0 = Done (l2, og, Ok tt) -> @fc_backward bm R AR l1' X' Y' G' o0' = Done (l2', og', Ok tt) ->
  twins (fg v) (fa v) (mkShape m 1 1) Y Y' /\ twins (bg u) (ba u) (mkShape n 1 1) og og' /\ fc_twins (k + 1) u v m n l2 l2'.
Proof.
  intros O O' Tr Tr' Ew Eb LT Pa Pc Pk Hk TX TG (TW & TB) SY0 SY0' So So' E E' EB EB'.
  pose proof TX as (SX & SX' & XX). pose proof TG as (SG & SG' & GG). pose proof O as (Ow & Ob & Ot). pose proof O' as (Ow' & Ob' & Ot').
  inversion LT as [? ? m' n' wv h s u' v' AR' LG Hw GW HS Ps EU EA Fu Fb Fw|]; subst u' v'. subst AR'.
  pose proof (holds_shape _ _ _ _ _ _ Hw (shaped_holds bm _ _ Ow')) as Q. injection Q as -> ->.
  (* outputs *)
  assert (TY : twins (fg v) (fa v) (mkShape m 1 1) Y Y').
  { destruct (@fc_forward_ok f32 AF bm l m n X Y0 (f32_relu_agrees e) O SX SY0) as (a & b & Q & C & _ & SY & _). rewrite E in Q. injection Q as <- <-.
    destruct (@fc_forward_ok R AR bm l' m n X' Y0' (relu_agrees_R low) O' SX' SY0') as (a & b & Q & C' & _ & SY' & _). rewrite E' in Q. injection Q as <- <-.
    destruct (layer_exact e low bm (PFC (fc_weights l) (fc_bias l)) (PFC (fc_weights l') (fc_bias l')) X X' Y Y' _ _ _ (fg u) (fa u) (fg v) (fa v)
      (conj Ew Eb) C C' (shaped_holds bm _ _ SX) (shaped_holds bm _ _ SX') Pa XX LG) as (s1 & y & y' & Hy & Hy' & EY).
    pose proof (holds_shape _ _ _ _ _ _ Hy (shaped_holds bm _ _ SY)) as ->. eapply twins_holds; eassumption. }
  split; [exact TY|].
  (* masks *)
  pose proof (@fc_forward_training f32 AF bm l m n X Y0 O Tr SX SY0) as Q. rewrite E in Q. injection Q as -> EYf.
  pose proof (@fc_forward_training R AR bm l' m n X' Y0' O' Tr' SX' SY0') as Q. rewrite E' in Q. injection Q as -> EYr.
  set (mask := of_fun _ _) in EB. set (mask' := of_fun _ _) in EB'.
  assert (Am : allocatable (mkShape m 1 1)) by exact (proj1 (@shaped_eq f32 AF _ _ SG)).
  assert (Aw : allocatable (mkShape m n 1)) by exact (proj1 (@shaped_eq f32 AF _ _ Ow)).
  assert (An : allocatable (mkShape n 1 1)) by exact (proj1 (@shaped_eq f32 AF _ _ SX)).
  assert (TM : exact_on 0 1 (mkShape m 1 1) (@val f32 AF mask) (@val R AR mask')).
  { destruct TY as (_ & _ & TY). intros i j q Hin. unfold mask, mask'. rewrite !val_of_fun by exact Hin. specialize (TY i j q Hin). rewrite EYf, EYr in TY.
    rewrite !val_of_fun in TY by exact Hin. destruct TY as (Fy & Ey & _). destruct (gates_agree _ _ Fy Ey) as (F1 & E1 & G1 & L1).
    split; [exact F1|]. split; [exact E1|]. split; [exact G1|]. apply Rabs_le. lra. }
  assert (O1 : fc_ok m n (fc_set_mask l mask)) by (apply fc_mask_ok; [exact O|exact Tr|apply shaped_of_fun; exact Am]).
  assert (O1' : fc_ok m n (fc_set_mask l' mask')) by (apply fc_mask_ok; [exact O'|exact Tr'|apply shaped_of_fun; exact Am]).
  rewrite (@fc_backward_values f32 AF bm (fc_set_mask l mask) m n X Y G o0 O1 Tr SX SG So) in EB. injection EB as <- <-.
  rewrite (@fc_backward_values R AR bm (fc_set_mask l' mask') m n X' Y' G' o0' O1' Tr' SX' SG' So') in EB'. injection EB' as <- <-.
  (* masked gradients *)
  assert (K1 : 1 <= K) by lra. assert (Fb1 : fits_grid (bg v) (ba v)).
  { apply (fits_less _ _ _ Fb). pose proof (Rmult_le_compat_r (ba v) 1 K Pc K1). lra. }
  assert (TMG : exact_on (bg v) (ba v) (mkShape m 1 1) (fun i j q => f32_mul e (@val f32 AF mask i j q) (@val f32 AF G i j q))
                  (fun i j q => @val R AR mask' i j q * @val R AR G' i j q)).
  { intros i j q Hin. destruct (TM i j q Hin) as (F1 & E1 & G1 & L1), (GG i j q Hin) as (F2 & E2 & G2 & L2).
    destruct (mul_twins 0 (bg v) 1 (ba v) (ba v) _ _ _ _ F1 E1 G1 L1 F2 E2 G2 L2 ltac:(lra) Fb1) as (F3 & E3 & G3 & L3). rewrite Rmult_1_l in L3. auto. }
  destruct (exact_twins _ _ _ Ew Ow) as (_ & WW).
  assert (WV : forall i p, (i < m)%N -> (p < n)%N -> @val R AR (fc_weights l') i p 0%N = wv i p 0%N).
  { intros i p Hi Hp. apply (holds_fun bm _ _ _ _ (shaped_holds bm _ _ Ow') Hw). repeat split; cbn; lia. }
  split; [|split].
  - (* outgoing *)
    apply twins_of_fun; [exact An|]. intros p j q Hin. apply column_in in Hin. destruct Hin as (Hp & -> & ->).
    unfold fc_outgoing, mm_fn. rewrite sum_Rsum. cbn [fmul R_arith f32_arith fc_set_mask fc_weights fc_relu_mask].
    set (t := fun i => f32_mul e (@val f32 AF (fc_weights l) i p 0%N) (f32_mul e (@val f32 AF mask i 0%N 0%N) (@val f32 AF G i 0%N 0%N))).
    set (t' := fun i => @val R AR (fc_weights l') i p 0%N * (@val R AR mask' i 0%N 0%N * @val R AR G' i 0%N 0%N)).
    assert (Tt : forall i, In i (upto m) -> fin (t i) = true /\ real (t i) = t' i /\ on_grid (bg u) (t' i) /\ Rabs (t' i) <= Rabs (wv i p 0%N) * ba v).
    { intros i Hi. pose proof Hi as Hi0. apply in_upto in Hi. destruct (WW i p 0%N) as (F1 & E1); [repeat split; cbn; lia|].
      destruct (TMG i 0%N 0%N) as (F2 & E2 & G2 & L2); [repeat split; cbn; lia|].
      assert (Sm : Rabs (wv i p 0%N) <= s).
      { eapply Rle_trans; [|exact (HS p Hp)]. apply (Rsum_term (fun i => Rabs (wv i p 0%N))); [intros; apply Rabs_pos|exact Hi0]. }
      rewrite EU. unfold t, t'. rewrite WV in E1 |- * by assumption.
      apply (mul_twins h (bg v) (Rabs (wv i p 0%N)) (ba v) (ba u)); try assumption; [apply GW; assumption|lra| |rewrite <- EU; exact Fu].
      rewrite EA. apply Rmult_le_compat_r; assumption. }
    assert (Bd : Rsum (map (fun i => Rabs (t' i)) (upto m)) <= ba u).
    { rewrite EA. apply Rle_trans with (Rsum (map (fun i => Rabs (wv i p 0%N) * ba v) (upto m))).
      - apply Rsum_le. intros i Hi. apply Tt. exact Hi.
      - rewrite Rsum_scale_r. apply Rmult_le_compat_r; [exact Pc|]. apply HS. exact Hp. }
    destruct (sum_exact e (bg u) (ba u) t (upto m) Fu) with (acc := f32_zero) as (F1 & G1 & E1).
    + intros i Hi. destruct (Tt i Hi) as (F1 & E1 & G1 & _). rewrite E1. auto.
    + reflexivity.
    + apply grid_zero.
    + change (real f32_zero) with 0. rewrite Rabs_R0, Rplus_0_l. rewrite (Rsum_ext _ (fun i => Rabs (t' i))); [exact Bd|]. intros i Hi. f_equal. apply Tt. exact Hi.
    + change (real f32_zero) with 0 in E1. rewrite Rplus_0_l in E1.
      assert (E2 : Rsum (map (fun p0 => real (t p0)) (upto m)) = Rsum (map t' (upto m))) by (apply Rsum_ext; intros i Hi; apply Tt; exact Hi).
      split; [exact F1|]. split; [etransitivity; [exact E1|exact E2]|].
      change (on_grid (bg u) (Rsum (map t' (upto m))) /\ Rabs (Rsum (map t' (upto m))) <= ba u).
      split; [rewrite <- E2, <- E1; exact G1|]. eapply Rle_trans; [apply Rsum_abs|exact Bd].
  - (* weights *)
    cbn [fc_after fc_weights_gradients fc_set_mask fc_relu_mask]. apply twins_of_fun; [exact Aw|]. intros i p q (Hi & Hp & Hq). cbn [di dj dk] in Hi, Hp, Hq.
    assert (q = 0%N) as -> by lia. unfold mm_fn. rewrite upto_1, sum_Rsum. cbn [map Rsum fold_right]. unfold sum. cbn [fold_left].
    cbn [fmul fadd fzero R_arith f32_arith].
    destruct (TMG i 0%N 0%N) as (F1 & E1 & G1 & L1); [repeat split; cbn; lia|]. destruct (XX p 0%N 0%N) as (F2 & E2 & G2 & L2); [repeat split; cbn; lia|].
    assert (Pca : 0 <= ba v * fa u) by (apply Rmult_le_pos; assumption).
    assert (Fw1 : fits_grid (bg v + fg u) (ba v * fa u)).
    { apply (fits_less _ _ _ Fw). pose proof (Rmult_le_compat_r (ba v * fa u) 1 K Pca K1). lra. }
    destruct (mul_twins (bg v) (fg u) (ba v) (fa u) (ba v * fa u) _ _ _ _ F1 E1 G1 L1 F2 E2 G2 L2 (Rle_refl _) Fw1) as (F3 & E3 & G3 & L3).
    destruct (add_twins (bg v + fg u) 0 (ba v * fa u) (ba v * fa u) f32_zero _ 0 _ eq_refl eq_refl (grid_zero _) ltac:(rewrite Rabs_R0; lra) F3 E3 G3 L3 ltac:(lra) Fw1) as (F4 & E4 & G4 & L4).
    destruct TW as (_ & _ & TW). destruct (TW i p 0%N) as (F5 & E5 & G5 & L5); [repeat split; cbn; lia|].
    destruct (add_twins (bg v + fg u) _ _ (K * (ba v * fa u)) _ _ _ _ F5 E5 G5 L5 F4 E4 G4 L4) as (F6 & E6 & G6 & L6); [|exact Fw|].
    + pose proof (Rmult_le_compat_r (ba v * fa u) (k + 1) K Pca Hk). lra.
    + rewrite Rplus_0_r. rewrite Rplus_0_l in E6, G6, L6. split; [exact F6|]. split; [exact E6|]. split; [exact G6|]. lra.
  - (* biases *)
    cbn [fc_after fc_bias_gradients fc_set_mask fc_relu_mask]. apply twins_of_fun; [exact Am|]. intros i j q Hin.
    destruct (TMG i j q Hin) as (F1 & E1 & G1 & L1). destruct TB as (_ & _ & TB). destruct (TB i j q Hin) as (F5 & E5 & G5 & L5).
    destruct (add_twins (bg v) _ _ (K * ba v) _ _ _ _ F5 E5 G5 L5 F1 E1 G1 L1) as (F6 & E6 & G6 & L6); [|exact Fb|].
    + pose proof (Rmult_le_compat_r (ba v) (k + 1) K Pc Hk). lra.
    + split; [exact F6|]. split; [exact E6|]. split; [exact G6|]. eapply Rle_trans; [exact L6|]. lra.
Qed.

(** ** Max pooling *)
Lemma tracks_agree (l : list (f32 * N)) (l' : list (R * N)) :
  Forall2 (fun x x' => snd x = snd x' /\ fin (fst x) = true /\ real (fst x) = fst x') l l' ->
  forall m m' p, fin m = true -> real m = m' ->
  snd (fold_left (@pick_track f32 AF) l (m, p)) = snd (fold_left (@pick_track R AR) l' (m', p))
  /\ (snd (fold_left (@pick_track R AR) l' (m', p)) = p \/ In (snd (fold_left (@pick_track R AR) l' (m', p))) (map snd l')).
Proof.
  induction 1 as [|(x & p1) (x' & p1') l l' (Ep & Fx & Ex) H IH]; intros m m' p Fm Em; cbn [fold_left]; [auto|].
  cbn [fst snd] in *. subst p1'. unfold pick_track at 2 4 6 8. cbn [fst fgtb f32_arith R_arith].
  pose proof (gtb_real x m Fx Fm) as G. rewrite Ex, Em in G.
  destruct (f32_gtb x m), (Rlt_dec m' x') as [L|L]; try (exfalso; intuition congruence).
  - destruct (IH x x' p1 Fx Ex) as (I1 & I2). split; [exact I1|]. right. cbn [map In snd]. destruct I2 as [->|I2]; auto.
  - destruct (IH m m' p Fm Em) as (I1 & I2). split; [exact I1|]. cbn [map In snd]. tauto.
Qed.

Lemma ninf_gtb (x : f32) : fin x = true -> f32_gtb x f32_ninf = true.
Proof.
  intros Fx. apply gtb_true. split; [destruct x; try discriminate; reflexivity|]. split; [reflexivity|]. rewrite (rank_finite x Fx).
  pose proof (B2R_bound x). pose proof inf_pos. change (rank f32_ninf) with (- bpow radix2 128). unfold fin, real in *. lra.
Qed.

Lemma tracks_start (l : list (f32 * N)) (l' : list (R * N)) : l' <> [] ->
  Forall2 (fun x x' => snd x = snd x' /\ fin (fst x) = true /\ real (fst x) = fst x') l l' -> (forall x, In x l' -> low < fst x) ->
  snd (fold_left (@pick_track f32 AF) l (f32_ninf, 0%N)) = snd (fold_left (@pick_track R AR) l' (low, 0%N))
  /\ In (snd (fold_left (@pick_track R AR) l' (low, 0%N))) (map snd l').
Proof.
  intros NE H Hl. destruct H as [|(x & p1) (x' & p1') l l' (Ep & Fx & Ex) H]; [congruence|]. cbn [fold_left fst snd] in *. subst p1'.
  unfold pick_track at 2 4 6. cbn [fst fgtb f32_arith R_arith]. rewrite (ninf_gtb x Fx). destruct (Rlt_dec low x') as [L|L]; [|exfalso; apply L, (Hl _ (or_introl eq_refl))].
  destruct (tracks_agree l l' H x x' p1 Fx Ex) as (I1 & I2). split; [exact I1|]. cbn [map In snd]. destruct I2 as [->|I2]; auto.
Qed.

Lemma Forall2_same {A B C} (P : B -> C -> Prop) (f : A -> B) (g : A -> C) l : (forall x, In x l -> P (f x) (g x)) -> Forall2 P (map f l) (map g l).
Proof. induction l as [|x l IH]; intros H; constructor; [apply H; left; reflexivity|]. apply IH. intros; apply H; right; assumption. Qed.

Lemma Forall2_windows {A B C D} (P : C -> D -> Prop) (f : A -> B -> C) (g : A -> B -> D) la lb :
  (forall x y, In x la -> In y lb -> P (f x y) (g x y)) -> Forall2 P (flat_map (fun x => map (f x) lb) la) (flat_map (fun x => map (g x) lb) la).
Proof.
  induction la as [|x la IH]; intros H; cbn; [constructor|]. apply Forall2_app; [apply Forall2_same; intros; apply H; [left; reflexivity|assumption]|].
  apply IH. intros; apply H; [right|]; assumption.
Qed.

Lemma wons_agree (l l' : mp_layer) g a x x' : mp_ok l ->
  mp_input_shape l' = mp_input_shape l -> mp_mask_shape l' = mp_mask_shape l -> mp_stride l' = mp_stride l ->
  exact_on g a (mp_input_shape l) x x' -> low < - a -> (0 < di (mp_mask_shape l))%N -> (0 < dj (mp_mask_shape l))%N ->
  forall i j k, in_shape (mp_output_shape l) i j k ->
    @won f32 AF l x i j k = @won R AR l' x' i j k
    /\ exists ii jj, (ii < di (mp_mask_shape l))%N /\ (jj < dj (mp_mask_shape l))%N
       /\ in_shape (mp_input_shape l) (i * mp_stride l + ii) (j * mp_stride l + jj) k
       /\ @won R AR l' x' i j k = flat (mp_input_shape l) (i * mp_stride l + ii) (j * mp_stride l + jj) k.
Proof.
  intros (_ & _ & (Hk & Ti & Tj) & _) E1 E2 E3 EX Hl Mi Mj i j k (Hi & Hj & Hkk). unfold won, track_fn. rewrite E1, E2, E3.
  set (s := mp_input_shape l) in *. set (mk := mp_mask_shape l) in *. set (st := mp_stride l) in *.
  assert (In : forall ii jj, (ii < di mk)%N -> (jj < dj mk)%N -> in_shape s (i * st + ii) (j * st + jj) k).
  { intros ii jj Hii Hjj. pose proof (tiles_bound _ _ _ _ _ _ Ti Hi Hii). pose proof (tiles_bound _ _ _ _ _ _ Tj Hj Hjj). repeat split; [assumption|assumption|lia]. }
  destruct (tracks_start (@window_pos f32 s (di mk) (dj mk) st x i j k) (@window_pos R s (di mk) (dj mk) st x' i j k)) as (I1 & I2).
  - intros Q. assert (H0 : List.In (x' (i * st + 0)%N (j * st + 0)%N k, flat s (i * st + 0) (j * st + 0) k) (@window_pos R s (di mk) (dj mk) st x' i j k)).
    { unfold window_pos. apply in_flat_map. exists 0%N. split; [apply in_upto; exact Mj|]. apply in_map_iff. exists 0%N. split; [reflexivity|apply in_upto; exact Mi]. }
    rewrite Q in H0. destruct H0.
  - apply Forall2_windows. intros jj ii Hjj Hii. apply in_upto in Hii, Hjj. cbn [fst snd]. split; [reflexivity|].
    destruct (EX _ _ _ (In ii jj Hii Hjj)) as (F1 & R1 & _). auto.
  - intros (y & p) Hy. unfold window_pos in Hy. apply in_flat_map in Hy. destruct Hy as (jj & Hjj & Hy). apply in_map_iff in Hy. destruct Hy as (ii & Q & Hii).
    injection Q as <- _. apply in_upto in Hii, Hjj. cbn [fst]. destruct (EX _ _ _ (In ii jj Hii Hjj)) as (_ & _ & _ & A). apply Rabs_le_inv in A. lra.
  - split; [exact I1|]. apply in_map_iff in I2. destruct I2 as ((y & p) & Ep & Hy). cbn [snd] in Ep.
    unfold window_pos in Hy. apply in_flat_map in Hy. destruct Hy as (jj & Hjj & Hy). apply in_map_iff in Hy. destruct Hy as (ii & Q & Hii).
    injection Q as _ Q. apply in_upto in Hii, Hjj. exists ii, jj. split; [exact Hii|]. split; [exact Hjj|]. split; [apply In; assumption|].
    etransitivity; [symmetry; exact Ep|]. symmetry. exact Q.
Qed.

Lemma filter_shorter {A} (P Q : A -> bool) l : (forall x, In x l -> P x = true -> Q x = true) -> (length (filter P l) <= length (filter Q l))%nat.
Proof.
  induction l as [|x l IH]; intros H; cbn; [lia|]. specialize (IH (fun y Hy => H y (or_intror Hy))). pose proof (H x (or_introl eq_refl)) as Hx.
  destruct (P x); [rewrite Hx by reflexivity; cbn; lia|]. destruct (Q x); cbn; lia.
Qed.

Lemma mp_round K u v (l l' : mp_layer) X X' Y0 Y0' G G' o0 o0' l1 l1' Y Y' l2 l2' og og' :
  mp_ok l -> mp_ok l' -> mp_run_state l = Training -> mp_run_state l' = Training ->
  exact_params (@params_of f32 (LMaxPool l)) (@params_of R (LMaxPool l')) ->
  layer_training low bm K (@params_of R (LMaxPool l')) u v -> 0 <= ba v ->
  twins (fg u) (fa u) (mp_input_shape l) X X' -> twins (bg v) (ba v) (mp_output_shape l) G G' ->
  shaped Y0 (mp_output_shape l) -> shaped Y0' (mp_output_shape l) -> shaped o0 (mp_input_shape l) -> shaped o0' (mp_input_shape l) ->
  @mp_forward bm f32 AF l X Y0 = Done (l1, Y, Ok tt) -> @mp_forward bm R AR l' X' Y0' = Done (l1', Y', Ok tt) ->
  @mp_backward bm f32 AF l1 X Y G o0 = Done (l2, og, Ok tt) -> @mp_backward bm R AR l1' X' Y' G' o0' = Done (l2', og', Ok tt) ->
  twins (bg u) (ba u) (mp_input_shape l) og og'.
Proof.
  intros O O' Tr Tr' (E1 & E2 & E3 & E4) LT Pc (SX & SX' & XX) (SG & SG' & GG) SY SY' So So' EF EF' EB EB'.
  inversion LT as [|? ? ? ? q u' v' LG Hlow HO Hpos EU EA Fu]; subst u' v' ins mask outs stride. rewrite E1, E2, E3, E4 in HO. rewrite E1 in Hpos.
  assert (Mi : (0 < di (mp_mask_shape l))%N /\ (0 < dj (mp_mask_shape l))%N) by (rewrite <- E2; inversion LG; auto). destruct Mi as (Mi & Mj).
  destruct (@mp_train_values f32 AF bm l _ _ X Y0 G o0 O Tr Hpos (shaped_holds bm _ _ SX) SY (shaped_holds bm _ _ SG) So) as (ogf & F1 & F2 & F3).
  rewrite EF in F1. injection F1 as -> ->. rewrite F2 in EB. injection EB as <- <-.
  destruct (@mp_train_values R AR bm l' (@val R AR X') (@val R AR G') X' Y0' G' o0' O' Tr') as (ogr & R1 & R2 & R3); rewrite ?E1, ?E3; try assumption; try (apply shaped_holds; assumption).
  rewrite EF' in R1. injection R1 as -> ->. rewrite R2 in EB'. injection EB' as <- <-. rewrite E1, E3 in R3.
  eapply twins_holds; [exact F3|exact R3|]. intros a b c Hin. cbv beta.
  pose proof (wons_agree l l' _ _ _ _ O E1 E2 E4 XX Hlow Mi Mj) as W.
  set (ps := filter (fun '(i, j, k) => (@won R AR l' (@val R AR X') i j k =? flat (mp_input_shape l) a b c)%N) (cells (mp_output_shape l))).
  assert (Eps : filter (fun '(i, j, k) => (@won f32 AF l (@val f32 AF X) i j k =? flat (mp_input_shape l) a b c)%N) (cells (mp_output_shape l)) = ps).
  { apply filter_ext_in. intros ((i & j) & k) Hc. apply in_cells in Hc. rewrite (proj1 (W i j k Hc)). reflexivity. }
  rewrite Eps. clear Eps.
  assert (Lq : (length ps <= q)%nat).
  { eapply Nat.le_trans; [|exact (HO a b c Hin)]. apply filter_shorter. intros ((i & j) & k) Hc Q. apply in_cells in Hc. apply N.eqb_eq in Q.
    destruct (W i j k Hc) as (_ & ii & jj & Hii & Hjj & Hs & Ew). rewrite Ew in Q. apply flat_inj in Q; [|exact Hs|exact Hin]. destruct Q as (<- & <- & <-).
    rewrite !andb_true_iff, !N.leb_le, !N.ltb_lt, N.eqb_eq. lia. }
  set (t := fun c : N * N * N => let '(i, j, k) := c in @val f32 AF G i j k). set (t' := fun c : N * N * N => let '(i, j, k) := c in @val R AR G' i j k).
  assert (Tt : forall c, In c ps -> fin (t c) = true /\ real (t c) = t' c /\ on_grid (bg v) (t' c) /\ Rabs (t' c) <= ba v).
  { intros ((i & j) & k) Hc. apply filter_In in Hc. destruct Hc as (Hc & _). apply in_cells in Hc. exact (GG i j k Hc). }
  assert (Bd : Rsum (map (fun c => Rabs (t' c)) ps) <= ba u).
  { rewrite EA. apply Rle_trans with (Rsum (map (fun _ => ba v) ps)); [apply Rsum_le; intros i Hi; apply Tt; exact Hi|].
    rewrite Rsum_const. apply Rmult_le_compat_r; [exact Pc|]. apply le_INR. exact Lq. }
  rewrite sum_Rsum. rewrite <- EU in Tt.
  destruct (sum_exact e (bg u) (ba u) t ps Fu) with (acc := f32_zero) as (S1 & S2 & S3).
  + intros i Hi. destruct (Tt i Hi) as (Q1 & Q2 & Q3 & _). rewrite Q2. auto.
  + reflexivity.
  + apply grid_zero.
  + change (real f32_zero) with 0. rewrite Rabs_R0, Rplus_0_l. rewrite (Rsum_ext _ (fun i => Rabs (t' i))); [exact Bd|]. intros i Hi. f_equal. apply Tt. exact Hi.
  + change (real f32_zero) with 0 in S3. rewrite Rplus_0_l in S3.
    assert (S4 : Rsum (map (fun p0 => real (t p0)) ps) = Rsum (map t' ps)) by (apply Rsum_ext; intros i Hi; apply Tt; exact Hi).
    split; [exact S1|]. split; [etransitivity; [exact S3|exact S4]|].
    change (on_grid (bg u) (Rsum (map t' ps)) /\ Rabs (Rsum (map t' ps)) <= ba u).
    split; [rewrite <- S4, <- S3; exact S2|]. eapply Rle_trans; [apply Rsum_abs|exact Bd].
Qed.
End Two.
