(** * The gradients of a layer in f32 against exact ones *)
From Coq Require Import Reals Lra ZifyBool ZifyNat ZifyN.
From Flocq Require Import Core IEEE754.Binary.
From Verif Require Import Base Arith Helper Tensor Network Bincode Serial Spec SpecLayer SpecNet SpecReal SpecTrain Loops TensorFacts OpsFacts ProofsTensor Layout LayerFacts BackFacts NetFacts NetRun NetBack RealArith RealSums Float32 Float32Facts.
From Verif Require Import SpecError FloatError SpecNetError SpecModes SpecGrid SpecGridBack ProofsFloat ProofsLayer ProofsPool ProofsGrad ProofsNetError RealGrad ProofsReal ProofsGrid ProofsGridBack SpecGradError ProofsAccum.
Local Open Scope R_scope.

Section Two.
Context (e : env) (low : R) (bm : build).
Notation AF := (f32_arith e).
Notation AR := (R_arith low).

Definition paired (a d : R) (s : shape) (X : tensor f32) (X' : tensor R) : Prop :=
  shaped X s /\ shaped X' s /\ near a d s (@val f32 AF X) (@val R AR X').

Lemma paired_holds a d s X X' x x' : @holds f32 AF bm X s x -> @holds R AR bm X' s x' -> near a d s x x' -> paired a d s X X'.
Proof.
  intros H H' E. split; [apply (holds_shaped _ _ _ _ H)|]. split; [apply (holds_shaped _ _ _ _ H')|]. intros i j k Hin.
  pose proof (holds_fun bm _ _ _ _ (shaped_holds bm _ _ (holds_shaped _ _ _ _ H)) H i j k Hin) as Q.
  pose proof (holds_fun bm _ _ _ _ (shaped_holds bm _ _ (holds_shaped _ _ _ _ H')) H' i j k Hin) as Q'.
  specialize (E i j k Hin). rewrite <- Q, <- Q' in E. exact E.
Qed.

Lemma paired_of_fun a d s x x' : allocatable s -> near a d s x x' -> paired a d s (of_fun s x) (of_fun s x').
Proof. intros A. apply paired_holds; apply holds_of_fun; exact A. Qed.

(** ** Nonnegative bounds *)
Lemma factor_ge n d eps : 0 <= d -> 0 <= eps < 1 -> 1 <= softmax_factor n d eps.
Proof.
  intros Hd He. unfold softmax_factor. pose proof u_pos. assert (U1 : u < 1) by (unfold u; lra). assert (P2 : 0 < (1 - u) ^ n) by (apply pow_lt; lra).
  assert (P3 : (1 - u) ^ n <= 1). { apply Rle_trans with (1 ^ n); [apply pow_incr; lra|rewrite pow1; lra]. }
  assert (1 <= exp (2 * d)). { rewrite <- exp_0. apply exp_mono. lra. }
  apply Rmult_le_reg_r with ((1 - eps) * (1 - u) ^ n); [apply Rmult_lt_0_compat; lra|]. unfold Rdiv. rewrite Rmult_assoc, Rinv_l, Rmult_1_l, Rmult_1_r.
  - apply Rle_trans with (1 * 1); [apply Rmult_le_compat; lra|]. apply Rmult_le_compat; try lra. apply Rle_trans with (1 * 1); [lra|]. apply Rmult_le_compat; lra.
  - apply Rgt_not_eq. apply Rmult_lt_0_compat; lra.
Qed.

Lemma biased_pos n a b : 0 <= a -> 0 <= b -> 0 <= bound_biased n a b.
Proof.
  intros Ha Hb. unfold bound_biased. pose proof (pow_1u_ge (n + 1)). pose proof eta_pos. pose proof (pos_INR n).
  apply Rplus_le_le_0_compat; repeat apply Rmult_le_pos; lra.
Qed.

Lemma layer_bounds_pos p a d a1 d1 : layer_bounds e low bm p a d a1 d1 -> 0 <= a -> 0 <= d -> 0 <= a1 /\ 0 <= d1.
Proof.
  intros H Ha Hd. destruct H as [? ? ? ? ? ? w b a d A _ _ _ _ Hw Hb _|? ? ? ? ? ? ? ? w b a d A _ _ _ _ Hw Hb _|? ? ? ? a d _ _ _|s a d eps n He _ _].
  - assert (0 <= w * (a + d)) by (apply Rmult_le_pos; lra). pose proof (biased_pos (N.to_nat n) _ _ H Hb).
    assert (0 <= w * a) by (apply Rmult_le_pos; lra). assert (0 <= w * d) by (apply Rmult_le_pos; lra). lra.
  - assert (0 <= w * (a + d)) by (apply Rmult_le_pos; lra). pose proof (biased_pos (N.to_nat (di ks * dj ks * dk ks)) _ _ H Hb).
    assert (0 <= w * a) by (apply Rmult_le_pos; lra). assert (0 <= w * d) by (apply Rmult_le_pos; lra). lra.
  - auto.
  - pose proof (factor_ge n d eps Hd He). pose proof eta_pos. lra.
Qed.

Lemma slopes_bounds K p a b : layer_slopes e low bm K p a b -> layer_bounds e low bm p (xa a) (xd a) (xa b) (xd b).
Proof. destruct 1; assumption. Qed.

Lemma product_error_pos n d g h : 0 <= d -> 0 <= g -> 0 <= h -> 0 <= product_error n d g h.
Proof.
  intros Hd Hg Hh. unfold product_error. pose proof (pos_INR n).
  apply Rplus_le_le_0_compat; [|apply bound_pos]; repeat (apply Rmult_le_pos || apply Rplus_le_le_0_compat); lra.
Qed.

Lemma slopes_pos K p a b : layer_slopes e low bm K p a b -> 0 <= xa a -> 0 <= xd a -> 0 <= ga b -> 0 <= gd b -> 0 <= ga a /\ 0 <= gd a.
Proof.
  intros H Ha Hd Pg Ph. pose proof (layer_bounds_pos _ _ _ _ _ (slopes_bounds _ _ _ _ H) Ha Hd) as (Pa & Pd).
  destruct H as [? ? m ? ? s a b A _ _ _ Hs E1 E2 _ _ _|? ? ? ? q a b _ _ _ E1 E2 _|n a b d t mm _ E1 E2 _ _].
  - rewrite E1, E2. assert (0 <= s * ga b) by (apply Rmult_le_pos; lra). assert (0 <= s * gd b) by (apply Rmult_le_pos; lra).
    assert (0 <= bound (N.to_nat m) (s * (ga b + gd b))) by (apply bound_pos; lra). lra.
  - rewrite E1, E2. pose proof (pos_INR q). assert (0 <= INR q * ga b) by (apply Rmult_le_pos; lra). assert (0 <= INR q * gd b) by (apply Rmult_le_pos; lra).
    assert (0 <= bound q (INR q * (ga b + gd b))) by (apply bound_pos; lra). lra.
  - rewrite E1, E2. assert (0 <= t) by (apply product_error_pos; assumption). assert (0 <= mm) by (unfold mm; lra). unfold d.
    assert (0 <= xd b * mm) by (apply Rmult_le_pos; lra).
    assert (0 <= bound 2 ((1 + xd b) * mm)) by (apply bound_pos; apply Rmult_le_pos; lra). lra.
Qed.

(** ** Gates *)
Lemma gates_firm (z : f32) (z' d : R) : fin z = true -> Rabs (real z - z') <= d -> d < Rabs z' ->
  (@gate f32 AF z = f32_one /\ @gate R AR z' = 1) \/ (@gate f32 AF z = f32_zero /\ @gate R AR z' = 0).
Proof.
  intros Fz D L. unfold gate. cbn [fgtb fzero fone f32_arith R_arith]. pose proof (gtb_real z f32_zero Fz eq_refl) as G. change (real f32_zero) with 0 in G.
  apply Rabs_le_inv in D. destruct (Rlt_dec 0 z') as [P|P].
  - rewrite Rabs_pos_eq in L by lra. left. replace (f32_gtb z f32_zero) with true; [auto|]. symmetry. apply G. lra.
  - rewrite Rabs_left1 in L by lra. right. destruct (f32_gtb z f32_zero); [|auto]. assert (0 < real z) by (apply G; reflexivity). lra.
Qed.

Lemma masked_near (c z : f32) (c' z' a d : R) : (c = f32_one /\ c' = 1) \/ (c = f32_zero /\ c' = 0) -> fin z = true -> Rabs (real z - z') <= d -> Rabs z' <= a ->
  fin (f32_mul e c z) = true /\ Rabs (real (f32_mul e c z) - c' * z') <= d /\ Rabs (c' * z') <= a.
Proof.
  intros H F D A. pose proof (Rabs_pos (real z - z')). pose proof (Rabs_pos z'). destruct H as [(-> & ->)|(-> & ->)].
  - destruct (mul_one e z F) as (F1 & ->). rewrite Rmult_1_l. auto.
  - destruct (mul_nothing e z F) as (F1 & ->). rewrite Rmult_0_l, Rminus_0_r, Rabs_R0. split; [exact F1|]. lra.
Qed.

Lemma near_size (x : f32) (y a d : R) : Rabs (real x - y) <= d -> Rabs y <= a -> Rabs (real x) <= a + d.
Proof. intros D A. replace (real x) with ((real x - y) + y) by ring. eapply Rle_trans; [apply Rabs_triang|]. lra. Qed.

(** Products of two approximations. *)
Lemma product_near (x y x' y' a da b db : R) : Rabs (x - x') <= da -> Rabs x' <= a -> Rabs (y - y') <= db -> Rabs y' <= b ->
  Rabs (x * y) <= (a + da) * (b + db) /\ Rabs (x * y - x' * y') <= (a + da) * db + da * b.
Proof.
  intros Dx Ax Dy Ay. pose proof (Rabs_pos (x - x')). pose proof (Rabs_pos x'). pose proof (Rabs_pos (y - y')). pose proof (Rabs_pos y').
  assert (Sx : Rabs x <= a + da). { replace x with ((x - x') + x') by ring. eapply Rle_trans; [apply Rabs_triang|]. lra. }
  assert (Sy : Rabs y <= b + db). { replace y with ((y - y') + y') by ring. eapply Rle_trans; [apply Rabs_triang|]. lra. }
  split; [rewrite Rabs_mult; apply Rmult_le_compat; try apply Rabs_pos; assumption|].
  replace (x * y - x' * y') with (x * (y - y') + (x - x') * y') by ring. eapply Rle_trans; [apply Rabs_triang|]. rewrite !Rabs_mult.
  apply Rplus_le_compat; apply Rmult_le_compat; try apply Rabs_pos; assumption.
Qed.

(** ** Fully connected layers *)
Definition fc_tracked (k : nat) (a b : span) (m n : N) (l : fc_layer f32) (l' : fc_layer R) : Prop :=
  (shaped (fc_weights_gradients l) (mkShape m n 1) /\ shaped (fc_weights_gradients l') (mkShape m n 1)
   /\ forall i j q, in_shape (mkShape m n 1) i j q ->
        tracked k ((ga b + gd b) * (xa a + xd a)) ((ga b + gd b) * xd a + gd b * xa a) (@val f32 AF (fc_weights_gradients l) i j q) (@val R AR (fc_weights_gradients l') i j q))
  /\ (shaped (fc_bias_gradients l) (mkShape m 1 1) /\ shaped (fc_bias_gradients l') (mkShape m 1 1)
   /\ forall i j q, in_shape (mkShape m 1 1) i j q ->
        tracked k (ga b + gd b) (gd b) (@val f32 AF (fc_bias_gradients l) i j q) (@val R AR (fc_bias_gradients l') i j q)).

Lemma fc_near_round K k a b m n (l : fc_layer f32) (l' : fc_layer R) X X' Y0 Y0' G G' o0 o0' l1 l1' Y Y' l2 l2' og og' :
  fc_ok m n l -> fc_ok m n l' -> fc_run_state l = Training -> fc_run_state l' = Training ->
  exact_tensor (fc_weights l) (fc_weights l') -> exact_tensor (fc_bias l) (fc_bias l') ->
  layer_slopes e low bm K (PFC (fc_weights l') (fc_bias l')) a b -> layer_firm low bm (PFC (fc_weights l') (fc_bias l')) a b X' ->
  0 <= xa a -> 0 <= xd a -> 0 <= ga b -> 0 <= gd b -> (k + 1 <= K)%nat ->
  paired (xa a) (xd a) (mkShape n 1 1) X X' -> paired (ga b) (gd b) (mkShape m 1 1) G G' -> fc_tracked k a b m n l l' ->
  shaped Y0 (mkShape m 1 1) -> shaped Y0' (mkShape m 1 1) -> shaped o0 (mkShape n 1 1) -> shaped o0' (mkShape n 1 1) ->
  @fc_forward bm f32 AF l X Y0 = Done (l1, Y, Ok tt) -> @fc_forward bm R AR l' X' Y0' = Done (l1', Y', Ok tt) ->
  @fc_backward bm f32 AF l1 X Y G o0 = Done (l2, og, Ok tt) -> @fc_backward bm R AR l1' X' Y' G' o0' = Done (l2', og', Ok tt) ->
  paired (ga a) (gd a) (mkShape n 1 1) og og' /\ fc_tracked (k + 1) a b m n l2 l2'.
Proof.
  intros O O' Tr Tr' Ew Eb LT Fi Pa Pd Pg Ph Hk TX TG (TW & TB) SY0 SY0' So So' E E' EB EB'.
  pose proof TX as (SX & SX' & XX). pose proof TG as (SG & SG' & GG). pose proof O as (Ow & Ob & Ot). pose proof O' as (Ow' & Ob' & Ot').
  inversion LT as [? ? m' n' wv s a' b' AR' LB Hw HS Ps EA ED Fo Fb Fw| |]; subst a' b'. subst AR'.
  pose proof (holds_shape _ _ _ _ _ _ Hw (shaped_holds bm _ _ Ow')) as Q. injection Q as -> ->.
  inversion LB as [? ? m' n' wv1 bv W B a1 d1 AR' Hw1 Hb1 HW HB W0 B0 Hfit E1 E2 E3 E4 E5| | |]. subst a1 d1 weights bias. subst AR'. clear LB.
  pose proof (holds_shape _ _ _ _ _ _ Hw1 (shaped_holds bm _ _ Ow')) as Q. injection Q as -> ->.
  assert (Am : allocatable (mkShape m 1 1)) by exact (proj1 (@shaped_eq f32 AF _ _ SG)).
  assert (Aw : allocatable (mkShape m n 1)) by exact (proj1 (@shaped_eq f32 AF _ _ Ow)).
  assert (An : allocatable (mkShape n 1 1)) by exact (proj1 (@shaped_eq f32 AF _ _ SX)).
  destruct (exact_twins e low bm _ _ _ Ew Ow) as (_ & WW). destruct (exact_twins e low bm _ _ _ Eb Ob) as (_ & BB).
  assert (WV : forall i p, (i < m)%N -> (p < n)%N -> @val R AR (fc_weights l') i p 0%N = wv i p 0%N).
  { intros i p Hi Hp. apply (holds_fun bm _ _ _ _ (shaped_holds bm _ _ Ow') Hw). repeat split; cbn; lia. }
  (* masks *)
  pose proof (@fc_forward_training f32 AF bm l m n X Y0 O Tr SX SY0) as Q. rewrite E in Q. injection Q as -> EYf.
  pose proof (@fc_forward_training R AR bm l' m n X' Y0' O' Tr' SX' SY0') as Q. rewrite E' in Q. injection Q as -> EYr.
  set (mask := of_fun _ _) in EB. set (mask' := of_fun _ _) in EB'.
  assert (TM : forall i j q, in_shape (mkShape m 1 1) i j q ->
     (@val f32 AF mask i j q = f32_one /\ @val R AR mask' i j q = 1) \/ (@val f32 AF mask i j q = f32_zero /\ @val R AR mask' i j q = 0)).
  { intros i j q Hin. unfold mask, mask'. rewrite !val_of_fun by exact Hin. apply column_in in Hin. destruct Hin as (Hi & -> & ->).
    rewrite (sum_Rsum low).
    destruct (affine_near e (upto n) (fun p => @val f32 AF (fc_weights l) i p 0%N) (fun p => @val f32 AF X p 0%N 0%N) (fun p => @val R AR X' p 0%N 0%N)
      (@val f32 AF (fc_bias l) i 0%N 0%N) (xa a) (xd a) W B Pa Pd W0) as ((F1 & D1) & _ & _).
    - intros p Hp. apply in_upto in Hp. apply WW. repeat split; cbn [di dj dk]; lia.
    - apply BB. repeat split; cbn [di dj dk]; lia.
    - intros p Hp. apply in_upto in Hp. apply XX. repeat split; cbn [di dj dk]; lia.
    - rewrite (Rsum_ext _ (fun p => Rabs (wv1 i p 0%N))); [apply HW; exact Hi|]. intros p Hp. apply in_upto in Hp.
      rewrite (proj2 (WW i p 0%N ltac:(repeat split; cbn [di dj dk]; lia))). f_equal.
      apply (holds_fun bm _ _ _ _ (shaped_holds bm _ _ Ow') Hw1). repeat split; cbn [di dj dk]; lia.
    - rewrite (proj2 (BB i 0%N 0%N ltac:(repeat split; cbn [di dj dk]; lia))).
      rewrite (holds_fun bm _ _ _ _ (shaped_holds bm _ _ Ob') Hb1) by (repeat split; cbn [di dj dk]; lia). apply HB. exact Hi.
    - rewrite length_upto. exact Hfit.
    - rewrite length_upto in D1. apply (gates_firm _ _ (xd b)); [exact F1| |].
      + match goal with H : _ = xd b |- _ => rewrite H in D1 end. unfold fc_pre. eapply Rle_trans; [|exact D1]. right. f_equal. f_equal. f_equal.
        * apply Rsum_ext. intros p Hp. apply in_upto in Hp. rewrite (proj2 (WW i p 0%N ltac:(repeat split; cbn [di dj dk]; lia))). reflexivity.
        * symmetry. apply BB. repeat split; cbn [di dj dk]; lia.
      + apply (Fi m n); try (apply shaped_holds; assumption). exact Hi. }
  assert (O1 : fc_ok m n (fc_set_mask l mask)) by (apply fc_mask_ok; [exact O|exact Tr|apply shaped_of_fun; exact Am]).
  assert (O1' : fc_ok m n (fc_set_mask l' mask')) by (apply fc_mask_ok; [exact O'|exact Tr'|apply shaped_of_fun; exact Am]).
  rewrite (@fc_backward_values f32 AF bm (fc_set_mask l mask) m n X Y G o0 O1 Tr SX SG So) in EB. injection EB as <- <-.
  rewrite (@fc_backward_values R AR bm (fc_set_mask l' mask') m n X' Y' G' o0' O1' Tr' SX' SG' So') in EB'. injection EB' as <- <-.
  (* masked gradients *)
  assert (TMG : near (ga b) (gd b) (mkShape m 1 1) (fun i j q => f32_mul e (@val f32 AF mask i j q) (@val f32 AF G i j q))
                  (fun i j q => @val R AR mask' i j q * @val R AR G' i j q)).
  { intros i j q Hin. destruct (GG i j q Hin) as (F2 & E8 & L2). apply masked_near; auto. }
  assert (K1 : 1 <= INR K) by (change 1 with (INR 1); apply le_INR; lia).
  split; [|split].
  - (* outgoing *)
    apply paired_of_fun; [exact An|]. intros p j q Hin. apply column_in in Hin. destruct Hin as (Hp & -> & ->).
    unfold fc_outgoing, mm_fn. rewrite sum_Rsum. cbn [fmul R_arith f32_arith fc_set_mask fc_weights fc_relu_mask].
    set (mg := fun i => f32_mul e (@val f32 AF mask i 0%N 0%N) (@val f32 AF G i 0%N 0%N)).
    set (mg' := fun i => @val R AR mask' i 0%N 0%N * @val R AR G' i 0%N 0%N).
    set (t := fun i => f32_mul e (@val f32 AF (fc_weights l) i p 0%N) (mg i)).
    set (z := fun i => wv i p 0%N * real (mg i)). set (t' := fun i => @val R AR (fc_weights l') i p 0%N * mg' i).
    assert (MG : forall i, (i < m)%N -> fin (mg i) = true /\ Rabs (real (mg i) - mg' i) <= gd b /\ Rabs (mg' i) <= ga b).
    { intros i Hi. apply (TMG i 0%N 0%N). repeat split; cbn; lia. }
    assert (Sz : forall i, (i < m)%N -> Rabs (z i) <= Rabs (wv i p 0%N) * (ga b + gd b)).
    { intros i Hi. destruct (MG i Hi) as (_ & D & A). unfold z. rewrite Rabs_mult. apply Rmult_le_compat_l; [apply Rabs_pos|]. eapply near_size; eassumption. }
    assert (Sm : forall i, In i (upto m) -> Rabs (wv i p 0%N) <= s).
    { intros i Hi. eapply Rle_trans; [|exact (HS p Hp)]. apply (Rsum_term (fun i => Rabs (wv i p 0%N))); [intros; apply Rabs_pos|exact Hi]. }
    assert (Pq : 0 <= s * (ga b + gd b)) by (apply Rmult_le_pos; lra).
    destruct (sum_near e t z (upto m) (N.to_nat m) (s * (ga b + gd b))) as (F1 & D1).
    + intros i Hi. pose proof (Sm i Hi) as Hs. apply in_upto in Hi. destruct (WW i p 0%N) as (Fw1 & Ew1); [repeat split; cbn; lia|]. destruct (MG i Hi) as (Fm & _).
      unfold t, z. rewrite <- WV, <- Ew1 by assumption. apply rounded_mul; [exact Fw1|exact Fm|]. rewrite Ew1, WV by assumption.
      eapply Rle_trans; [apply (Sz i Hi)|]. eapply Rle_trans; [|exact (fits_big _ _ Pq Fo)]. apply Rmult_le_compat_r; lra.
    + rewrite length_upto. lia.
    + apply Rle_trans with (Rsum (map (fun i => Rabs (wv i p 0%N) * (ga b + gd b)) (upto m))).
      * apply Rsum_le. intros i Hi. apply in_upto in Hi. apply Sz. exact Hi.
      * rewrite Rsum_scale_r. apply Rmult_le_compat_r; [lra|]. apply HS. exact Hp.
    + exact Fo.
    + split; [exact F1|].
      assert (D2 : Rabs (Rsum (map z (upto m)) - Rsum (map t' (upto m))) <= s * gd b).
      { replace (Rsum (map z (upto m)) - Rsum (map t' (upto m))) with (Rsum (map (fun i => z i - t' i) (upto m))).
        2: { rewrite (Rsum_ext _ (fun i => z i + (-1) * t' i)) by (intros; ring). rewrite Rsum_plus, Rsum_scale. ring. }
        eapply Rle_trans; [apply Rabs_Rsum|]. apply Rle_trans with (Rsum (map (fun i => Rabs (wv i p 0%N) * gd b) (upto m))).
        - apply Rsum_le. intros i Hi. apply in_upto in Hi. unfold z, t'. rewrite WV by assumption. rewrite <- Rmult_minus_distr_l, Rabs_mult.
          apply Rmult_le_compat_l; [apply Rabs_pos|]. apply MG. exact Hi.
        - rewrite Rsum_scale_r. apply Rmult_le_compat_r; [lra|]. apply HS. exact Hp. }
      split.
      * rewrite ED. change (Rabs (real (fold_left (f32_add e) (map t (upto m)) f32_zero) - Rsum (map t' (upto m))) <= s * gd b + bound (N.to_nat m) (s * (ga b + gd b))).
        set (y := real (fold_left (f32_add e) (map t (upto m)) f32_zero)) in *. replace (y - Rsum (map t' (upto m))) with ((y - Rsum (map z (upto m))) + (Rsum (map z (upto m)) - Rsum (map t' (upto m)))) by ring.
        eapply Rle_trans; [apply Rabs_triang|]. lra.
      * rewrite EA. change (Rabs (Rsum (map t' (upto m))) <= s * ga b). eapply Rle_trans; [apply Rabs_Rsum|].
        apply Rle_trans with (Rsum (map (fun i => Rabs (wv i p 0%N) * ga b) (upto m))).
        -- apply Rsum_le. intros i Hi. apply in_upto in Hi. unfold t'. rewrite WV by assumption. rewrite Rabs_mult. apply Rmult_le_compat_l; [apply Rabs_pos|]. apply MG. exact Hi.
        -- rewrite Rsum_scale_r. apply Rmult_le_compat_r; [lra|]. apply HS. exact Hp.
  - (* weights *)
    cbn [fc_after fc_weights_gradients fc_set_mask fc_relu_mask]. split; [apply shaped_of_fun; exact Aw|]. split; [apply shaped_of_fun; exact Aw|].
    intros i p q Hin. rewrite !val_of_fun by exact Hin. pose proof Hin as (Hi & Hp & Hq). cbn [di dj dk] in Hi, Hp, Hq.
    assert (q = 0%N) as -> by lia. unfold mm_fn. rewrite upto_1, sum_Rsum. cbn [map Rsum fold_right]. unfold sum. cbn [fold_left].
    cbn [fmul fadd fzero R_arith f32_arith].
    destruct (TMG i 0%N 0%N) as (F1 & D1 & L1); [repeat split; cbn; lia|]. destruct (XX p 0%N 0%N) as (F2 & D2 & L2); [repeat split; cbn; lia|].
    destruct (product_near _ _ _ _ _ _ _ _ D1 L1 D2 L2) as (S1 & S2).
    destruct TW as (_ & _ & TW). rewrite Rplus_0_r. set (Qw := (ga b + gd b) * (xa a + xd a)) in *.
    assert (PQ : 0 <= Qw) by (unfold Qw; apply Rmult_le_pos; lra).
    eapply tracked_step; [apply TW; exact Hin| |exact S1|exact S2|exact Hk|exact Fw].
    apply rounded_zero. apply rounded_mul; [exact F1|exact F2|]. eapply Rle_trans; [exact S1|].
    assert (PK : 0 <= INR K * Qw) by (apply Rmult_le_pos; lra). eapply Rle_trans; [|exact (fits_big _ _ PK Fw)].
    rewrite <- (Rmult_1_l Qw) at 1. apply Rmult_le_compat_r; lra.
  - (* biases *)
    cbn [fc_after fc_bias_gradients fc_set_mask fc_relu_mask]. split; [apply shaped_of_fun; exact Am|]. split; [apply shaped_of_fun; exact Am|].
    intros i j q Hin. rewrite !val_of_fun by exact Hin.
    destruct (TMG i j q Hin) as (F1 & D1 & L1). destruct TB as (_ & _ & TB).
    eapply tracked_step; [apply TB; exact Hin|apply rounded_self; exact F1|eapply near_size; eassumption|exact D1|exact Hk|exact Fb].
Qed.

(** ** Max pooling *)
Lemma won_real low2 (l : mp_layer) x : mp_ok l -> (0 < di (mp_mask_shape l))%N -> (0 < dj (mp_mask_shape l))%N ->
  (forall i j k, in_shape (mp_input_shape l) i j k -> fin (x i j k) = true /\ low2 < real (x i j k)) ->
  forall i j k, in_shape (mp_output_shape l) i j k -> @won f32 AF l x i j k = @won R (R_arith low2) l (fun i j k => real (x i j k)) i j k.
Proof.
  intros (_ & _ & (Hk & Ti & Tj) & _) Mi Mj Hx i j k (Hi & Hj & Hkk). unfold won, track_fn.
  set (s := mp_input_shape l) in *. set (mk := mp_mask_shape l) in *. set (st := mp_stride l) in *.
  assert (Ins : forall ii jj, (ii < di mk)%N -> (jj < dj mk)%N -> in_shape s (i * st + ii) (j * st + jj) k).
  { intros ii jj Hii Hjj. pose proof (tiles_bound _ _ _ _ _ _ Ti Hi Hii). pose proof (tiles_bound _ _ _ _ _ _ Tj Hj Hjj). repeat split; [assumption|assumption|lia]. }
  destruct (tracks_start e low2 (@window_pos f32 s (di mk) (dj mk) st x i j k) (@window_pos R s (di mk) (dj mk) st (fun i j k => real (x i j k)) i j k)) as (I1 & _); [| | |exact I1].
  - intros Q. assert (H0 : List.In (real (x (i * st + 0)%N (j * st + 0)%N k), flat s (i * st + 0) (j * st + 0) k) (@window_pos R s (di mk) (dj mk) st (fun i j k => real (x i j k)) i j k)).
    { unfold window_pos. apply in_flat_map. exists 0%N. split; [apply in_upto; exact Mj|]. apply in_map_iff. exists 0%N. split; [reflexivity|apply in_upto; exact Mi]. }
    rewrite Q in H0. destruct H0.
  - apply Forall2_windows. intros jj ii Hjj Hii. apply in_upto in Hii, Hjj. cbn [fst snd]. split; [reflexivity|].
    destruct (Hx _ _ _ (Ins ii jj Hii Hjj)) as (F1 & _). auto.
  - intros (y & p) Hy. unfold window_pos in Hy. apply in_flat_map in Hy. destruct Hy as (jj & Hjj & Hy). apply in_map_iff in Hy. destruct Hy as (ii & Q & Hii).
    injection Q as <- _. apply in_upto in Hii, Hjj. cbn [fst]. apply Hx. apply Ins; assumption.
Qed.

Lemma wons_firm (l l' : mp_layer) a d x x' win : mp_ok l ->
  mp_input_shape l' = mp_input_shape l -> mp_mask_shape l' = mp_mask_shape l -> mp_stride l' = mp_stride l ->
  near a d (mp_input_shape l) x x' -> winners low (mp_mask_shape l) (mp_stride l) (mp_output_shape l) x' win ->
  (forall i j k c, in_shape (mp_output_shape l) i j k -> In c (window_positions (di (mp_mask_shape l)) (dj (mp_mask_shape l)) (mp_stride l) i j k) -> c <> win i j k ->
     value_at x' c + 2 * d < value_at x' (win i j k)) ->
  (0 < di (mp_mask_shape l))%N -> (0 < dj (mp_mask_shape l))%N ->
  forall i j k, in_shape (mp_output_shape l) i j k ->
    let '(p, q, r) := win i j k in In (p, q, r) (window_positions (di (mp_mask_shape l)) (dj (mp_mask_shape l)) (mp_stride l) i j k)
      /\ @won f32 AF l x i j k = flat (mp_input_shape l) p q r /\ @won R AR l' x' i j k = flat (mp_input_shape l) p q r.
Proof.
  intros O E1 E2 E3 Hn Hw Hm Mi Mj i j k Hin. pose proof (Hw i j k Hin) as (W1 & W2 & W3). specialize (Hm i j k). destruct (win i j k) as ((p & q) & r) eqn:Ew.
  pose proof O as (_ & _ & Po & _).
  assert (Ins : forall p q r, In (p, q, r) (window_positions (di (mp_mask_shape l)) (dj (mp_mask_shape l)) (mp_stride l) i j k) -> in_shape (mp_input_shape l) p q r).
  { intros p1 q1 r1 H. exact (window_in_shape _ _ _ _ _ _ _ _ _ _ Po Hin H). }
  split; [exact W1|]. split.
  - rewrite (won_real (- (a + d) - 1) l x O Mi Mj); [|intros p1 q1 r1 H1; destruct (Hn p1 q1 r1 H1) as (F1 & D1 & A1); split; [exact F1|]|exact Hin].
    + unfold won. apply track_unique. split; [exact W1|]. destruct (Hn p q r (Ins p q r W1)) as (F1 & D1 & A1). pose proof (near_size _ _ _ _ D1 A1) as S1.
      apply Rabs_le_inv in S1. apply Rabs_le_inv in D1. split; [cbn [value_at]; lra|]. intros ((p1 & q1) & r1) Hc Ne. specialize (Hm _ Hin Hc Ne). cbn [value_at] in *.
      destruct (Hn p1 q1 r1 (Ins _ _ _ Hc)) as (_ & D2 & _). apply Rabs_le_inv in D2. lra.
    + pose proof (near_size _ _ _ _ D1 A1) as S1. apply Rabs_le_inv in S1. lra.
  - unfold won. rewrite E1, E2, E3. apply track_unique. split; [exact W1|]. split; [exact W2|exact W3].
Qed.

Lemma mp_near_round K a b (l l' : mp_layer) X X' Y0 Y0' G G' o0 o0' l1 l1' Y Y' l2 l2' og og' :
  mp_ok l -> mp_ok l' -> mp_run_state l = Training -> mp_run_state l' = Training ->
  exact_params (@params_of f32 (LMaxPool l)) (@params_of R (LMaxPool l')) ->
  layer_slopes e low bm K (@params_of R (LMaxPool l')) a b -> layer_firm low bm (@params_of R (LMaxPool l')) a b X' -> 0 <= ga b -> 0 <= gd b ->
  paired (xa a) (xd a) (mp_input_shape l) X X' -> paired (ga b) (gd b) (mp_output_shape l) G G' ->
  shaped Y0 (mp_output_shape l) -> shaped Y0' (mp_output_shape l) -> shaped o0 (mp_input_shape l) -> shaped o0' (mp_input_shape l) ->
  @mp_forward bm f32 AF l X Y0 = Done (l1, Y, Ok tt) -> @mp_forward bm R AR l' X' Y0' = Done (l1', Y', Ok tt) ->
  @mp_backward bm f32 AF l1 X Y G o0 = Done (l2, og, Ok tt) -> @mp_backward bm R AR l1' X' Y' G' o0' = Done (l2', og', Ok tt) ->
  paired (ga a) (gd a) (mp_input_shape l) og og'.
Proof.
  intros O O' Tr Tr' (E1 & E2 & E3 & E4) LT Fi Pg Ph (SX & SX' & XX) (SG & SG' & GG) SY SY' So So' EF EF' EB EB'.
  inversion LT as [|? ? ? ? q a' b' LB HO Hpos EA ED Fo|]; subst a' b' ins mask outs stride. rewrite E1, E2, E3, E4 in HO. rewrite E1 in Hpos.
  assert (Mi : (0 < di (mp_mask_shape l))%N /\ (0 < dj (mp_mask_shape l))%N) by (rewrite <- E2; inversion LB; auto). destruct Mi as (Mi & Mj).
  cbn [params_of layer_firm] in Fi. rewrite E1, E2, E3, E4 in Fi. destruct Fi as (x0 & win & Hx0 & Hwin & Hmargin).
  pose proof (holds_fun bm _ _ _ _ Hx0 (shaped_holds bm _ _ SX')) as Qx. pose proof O as (_ & _ & Po & _).
  assert (XX0 : near (xa a) (xd a) (mp_input_shape l) (@val f32 AF X) x0).
  { intros i j k Hin. rewrite (Qx i j k Hin). apply XX. exact Hin. }
  destruct (@mp_train_values f32 AF bm l _ _ X Y0 G o0 O Tr Hpos (shaped_holds bm _ _ SX) SY (shaped_holds bm _ _ SG) So) as (ogf & F1 & F2 & F3).
  rewrite EF in F1. injection F1 as -> ->. rewrite F2 in EB. injection EB as <- <-.
  destruct (@mp_train_values R AR bm l' x0 (@val R AR G') X' Y0' G' o0' O' Tr') as (ogr & R1 & R2 & R3); rewrite ?E1, ?E3; try assumption; try (apply shaped_holds; assumption).
  rewrite EF' in R1. injection R1 as -> ->. rewrite R2 in EB'. injection EB' as <- <-. rewrite E1, E3 in R3.
  eapply paired_holds; [exact F3|exact R3|]. intros pa pb pc Hin. cbv beta.
  pose proof (wons_firm l l' _ _ _ _ win O E1 E2 E4 XX0 Hwin Hmargin Mi Mj) as W.
  set (ps := filter (fun '(i, j, k) => (@won R AR l' x0 i j k =? flat (mp_input_shape l) pa pb pc)%N) (cells (mp_output_shape l))).
  assert (Eps : filter (fun '(i, j, k) => (@won f32 AF l (@val f32 AF X) i j k =? flat (mp_input_shape l) pa pb pc)%N) (cells (mp_output_shape l)) = ps).
  { apply filter_ext_in. intros ((i & j) & k) Hc. apply in_cells in Hc. specialize (W i j k Hc). destruct (win i j k) as ((? & ?) & ?). destruct W as (_ & -> & ->). reflexivity. }
  rewrite Eps. clear Eps.
  assert (Lq : (length ps <= q)%nat).
  { eapply Nat.le_trans; [|exact (HO pa pb pc Hin)]. apply filter_shorter. intros ((i & j) & k) Hc Q. apply in_cells in Hc. apply N.eqb_eq in Q.
    specialize (W i j k Hc). destruct (win i j k) as ((p1 & p2) & p3). destruct W as (Hw & _ & Ew). rewrite Ew in Q. clear Ew.
    apply flat_inj in Q; [|exact (window_in_shape _ _ _ _ _ _ _ _ _ _ Po Hc Hw)|exact Hin]. destruct Q as (<- & <- & <-).
    apply in_window in Hw. destruct Hw as (ii & jj & Hii & Hjj & -> & -> & ->).
    rewrite !andb_true_iff, !N.leb_le, !N.ltb_lt, N.eqb_eq. lia. }
  set (t := fun c : N * N * N => let '(i, j, k) := c in @val f32 AF G i j k). set (t' := fun c : N * N * N => let '(i, j, k) := c in @val R AR G' i j k).
  assert (Tt : forall c, In c ps -> fin (t c) = true /\ Rabs (real (t c) - t' c) <= gd b /\ Rabs (t' c) <= ga b).
  { intros ((i & j) & k) Hc. apply filter_In in Hc. destruct Hc as (Hc & _). apply in_cells in Hc. exact (GG i j k Hc). }
  assert (Bd : forall (h : N * N * N -> R) c, 0 <= c -> (forall p, In p ps -> Rabs (h p) <= c) -> Rsum (map (fun p => Rabs (h p)) ps) <= INR q * c).
  { intros h c Pc Hc. apply Rle_trans with (Rsum (map (fun _ => c) ps)); [apply Rsum_le; exact Hc|].
    rewrite Rsum_const. apply Rmult_le_compat_r; [exact Pc|]. apply le_INR. exact Lq. }
  rewrite sum_Rsum.
  destruct (sum_near e t (fun c => real (t c)) ps q (INR q * (ga b + gd b))) as (S1 & S2).
  - intros c Hc. apply rounded_self. apply Tt. exact Hc.
  - exact Lq.
  - apply Bd; [lra|]. intros c Hc. destruct (Tt c Hc) as (_ & D & A). eapply near_size; eassumption.
  - exact Fo.
  - split; [exact S1|].
    assert (S3 : Rabs (Rsum (map (fun c => real (t c)) ps) - Rsum (map t' ps)) <= INR q * gd b).
    { replace (Rsum (map (fun c => real (t c)) ps) - Rsum (map t' ps)) with (Rsum (map (fun c => real (t c) - t' c) ps)).
      2: { rewrite (Rsum_ext _ (fun i => real (t i) + (-1) * t' i)) by (intros; ring). rewrite Rsum_plus, Rsum_scale. ring. }
      eapply Rle_trans; [apply Rabs_Rsum|]. apply Bd; [lra|]. intros c Hc. apply Tt. exact Hc. }
    split.
    + rewrite ED. change (Rabs (real (fold_left (f32_add e) (map t ps) f32_zero) - Rsum (map t' ps)) <= INR q * gd b + bound q (INR q * (ga b + gd b))).
      set (y := real (fold_left (f32_add e) (map t ps) f32_zero)) in *.
      replace (y - Rsum (map t' ps)) with ((y - Rsum (map (fun c => real (t c)) ps)) + (Rsum (map (fun c => real (t c)) ps) - Rsum (map t' ps))) by ring.
      eapply Rle_trans; [apply Rabs_triang|]. lra.
    + rewrite EA. change (Rabs (Rsum (map t' ps)) <= INR q * ga b). eapply Rle_trans; [apply Rabs_Rsum|]. apply Bd; [lra|]. intros c Hc. apply Tt. exact Hc.
Qed.

(** ** Softmax *)
Lemma sm_near_round K a b (l : sm_layer f32) (l' : sm_layer R) X X' Y Y' G G' o0 o0' l2 l2' og og' :
  sm_ok l -> sm_ok l' -> sm_run_state l = Training -> sm_run_state l' = Training ->
  sm_shape l' = sm_shape l -> layer_slopes e low bm K (PSoftmax (sm_shape l')) a b -> 0 <= xa a -> 0 <= xd a -> 0 <= ga b -> 0 <= gd b ->
  @computes R AR bm (PSoftmax (sm_shape l')) X' Y' ->
  paired (xa b) (xd b) (sm_shape l) Y Y' -> paired (ga b) (gd b) (sm_shape l) G G' ->
  shaped o0 (sm_shape l) -> shaped o0' (sm_shape l) ->
  @sm_backward bm f32 AF l X Y G o0 = Done (l2, og, Ok tt) -> @sm_backward bm R AR l' X' Y' G' o0' = Done (l2', og', Ok tt) ->
  paired (ga a) (gd a) (sm_shape l) og og'.
Proof.
  intros O O' Tr Tr' Es LT Pa Pdx Pg Ph C (SY & SY' & YY) (SG & SG' & GG) So So' EB EB'.
  pose proof (layer_bounds_pos _ _ _ _ _ (slopes_bounds _ _ _ _ LT) Pa Pdx) as (_ & Pd).
  inversion LT as [| |n a' b' d t mm LB EA ED F1 F2 Hsn]; subst a' b'.
  symmetry in Hsn. rewrite Es in Hsn. rewrite Hsn in *. rewrite Es in C. unfold d in *. clear d.
  assert (X1 : xa b = 1) by (inversion LB; reflexivity).
  destruct (@sm_backward_values f32 AF bm l n X Y G o0 O Tr Hsn SY SG So) as (l3 & Q). rewrite Q in EB. injection EB as _ <-.
  destruct (@sm_backward_values R AR bm l' n X' Y' G' o0' O' Tr' Es SY' SG' So') as (l3' & Q'). rewrite Q' in EB'. injection EB' as _ <-.
  assert (An : allocatable (mkShape n 1 1)) by exact (proj1 (@shaped_eq f32 AF _ _ SG)).
  apply paired_of_fun; [exact An|]. intros i j k Hin. apply column_in in Hin. destruct Hin as (Hi & -> & ->).
  rewrite (sm_outgoing_R low) by exact Hi. unfold softmax_back. rewrite pairing_column. unfold sm_outgoing, mm_fn. rewrite upto_1. cbn [map]. unfold sum at 1. cbn [fold_left].
  cbn [fmul fadd fzero fmone f32_arith].
  set (y := fun p => @val f32 AF Y p 0%N 0%N). set (y' := fun p => @val R AR Y' p 0%N 0%N). set (g := fun p => @val f32 AF G p 0%N 0%N). set (g' := fun p => @val R AR G' p 0%N 0%N).
  assert (Hy : forall p, (p < n)%N -> fin (y p) = true /\ Rabs (real (y p) - y' p) <= xd b /\ Rabs (y' p) <= 1).
  { intros p Hp. rewrite <- X1. apply (YY p 0%N 0%N). repeat split; cbn; lia. }
  assert (Hg : forall p, (p < n)%N -> fin (g p) = true /\ Rabs (real (g p) - g' p) <= gd b /\ Rabs (g' p) <= ga b).
  { intros p Hp. apply (GG p 0%N 0%N). repeat split; cbn; lia. }
  assert (Dist : (forall p, (p < n)%N -> 0 <= y' p) /\ Rsum (map y' (upto n)) = 1).
  { inversion C as [| | |? X2 x2 Y2 Hx2 Hy2 E1 E2 E3]; subst. pose proof (holds_fun bm _ _ _ _ (shaped_holds bm _ _ SY') Hy2) as V.
    cbn [fdiv fexp R_arith] in V. rewrite sum_Rsum in V. rewrite cells_column in V.
    set (T0 := Rsum (map (fun p => exp (x2 p 0%N 0%N)) (upto n))) in *.
    assert (PT : 0 < T0). { apply Rsum_pos; [|intros; apply exp_pos]. intros Q0. assert (In i (upto n)) by (apply in_upto; exact Hi). rewrite Q0 in H. destruct H. }
    assert (V' : forall p, (p < n)%N -> y' p = exp (x2 p 0%N 0%N) * / T0). { intros p Hp. unfold y'. rewrite V by (repeat split; cbn; lia). reflexivity. }
    split.
    - intros p Hp. rewrite V' by exact Hp. apply Rmult_le_pos; [left; apply exp_pos|left; apply Rinv_0_lt_compat; exact PT].
    - rewrite (Rsum_ext _ (fun p => exp (x2 p 0%N 0%N) * / T0)) by (intros p Hp; apply in_upto in Hp; apply V'; exact Hp). rewrite Rsum_scale_r. apply Rinv_r. lra. }
  destruct Dist as (Py & Sy).
  set (dot := @sum f32 AF (map (fun p => f32_mul e (y p) (g p)) (upto n))). set (dot' := Rsum (map (fun p => y' p * g' p) (upto n))).
  (* the inner product *)
  assert (Hd : fin dot = true /\ Rabs (real dot - dot') <= t /\ Rabs dot' <= ga b).
  { assert (PQ : 0 <= (1 + xd b) * (ga b + gd b)) by (apply Rmult_le_pos; lra).
    assert (Pr : forall p, In p (upto n) -> Rabs (real (y p) * real (g p)) <= (1 + xd b) * (ga b + gd b)
       /\ Rabs (real (y p) * real (g p) - y' p * g' p) <= (1 + xd b) * gd b + xd b * ga b).
    { intros p Hp. apply in_upto in Hp. destruct (Hy p Hp) as (_ & D1 & A1), (Hg p Hp) as (_ & D2 & A2). exact (product_near _ _ _ _ _ _ _ _ D1 A1 D2 A2). }
    assert (Ln : INR (N.to_nat n) = INR (length (upto n))) by (rewrite length_upto; reflexivity).
    assert (PI1 : 1 <= INR (N.to_nat n)) by (change 1 with (INR 1); apply le_INR; lia).
    assert (PQ2 : 0 <= INR (N.to_nat n) * ((1 + xd b) * (ga b + gd b))) by (apply Rmult_le_pos; lra).
    destruct (sum_near e (fun p => f32_mul e (y p) (g p)) (fun p => real (y p) * real (g p)) (upto n) (N.to_nat n) (INR (N.to_nat n) * ((1 + xd b) * (ga b + gd b)))) as (S1 & S2).
    - intros p Hp. pose proof (proj1 (Pr p Hp)) as B1. apply in_upto in Hp. apply rounded_mul; [apply Hy; exact Hp|apply Hg; exact Hp|]. eapply Rle_trans; [exact B1|].
      eapply Rle_trans; [|apply (fits_big _ _ PQ2 F1)]. rewrite <- (Rmult_1_l ((1 + xd b) * (ga b + gd b))) at 1. apply Rmult_le_compat_r; lra.
    - rewrite length_upto. lia.
    - rewrite Ln, <- Rsum_const. apply Rsum_le. intros p Hp. apply Pr. exact Hp.
    - exact F1.
    - split; [exact S1|]. split.
      + assert (S3 : Rabs (Rsum (map (fun p => real (y p) * real (g p)) (upto n)) - dot') <= INR (N.to_nat n) * ((1 + xd b) * gd b + xd b * ga b)).
        { unfold dot'. replace (_ - _) with (Rsum (map (fun p => real (y p) * real (g p) - y' p * g' p) (upto n))).
          2: { rewrite (Rsum_ext _ (fun i => real (y i) * real (g i) + (-1) * (y' i * g' i))) by (intros; ring). rewrite Rsum_plus, Rsum_scale. ring. }
          eapply Rle_trans; [apply Rabs_Rsum|]. rewrite Ln, <- Rsum_const. apply Rsum_le. intros p Hp. apply Pr. exact Hp. }
        unfold t, product_error. change (real dot) with (real (fold_left (f32_add e) (map (fun p => f32_mul e (y p) (g p)) (upto n)) f32_zero)).
        set (v := real (fold_left (f32_add e) (map (fun p => f32_mul e (y p) (g p)) (upto n)) f32_zero)) in *.
        set (w := Rsum (map (fun p => real (y p) * real (g p)) (upto n))) in *. replace (v - dot') with ((v - w) + (w - dot')) by ring.
        eapply Rle_trans; [apply Rabs_triang|]. lra.
      + unfold dot'. eapply Rle_trans; [apply Rabs_Rsum|]. apply Rle_trans with (Rsum (map (fun p => y' p * ga b) (upto n))).
        * apply Rsum_le. intros p Hp. apply in_upto in Hp. rewrite Rabs_mult, (Rabs_pos_eq (y' p)) by (apply Py; exact Hp). apply Rmult_le_compat_l; [apply Py; exact Hp|]. apply Hg. exact Hp.
        * rewrite Rsum_scale_r, Sy. lra. }
  destruct Hd as (Fd & Dd & Ad).
  destruct (mul_minus_one e dot Fd) as (Fm & Em). change (@sum f32 AF (map (fun p => f32_mul e (@val f32 AF Y p 0%N 0%N) (@val f32 AF G p 0%N 0%N)) (upto n))) with dot.
  set (nd := f32_mul e dot f32_mone) in *.
  destruct (Hy i Hi) as (Fy & Dy & Ay), (Hg i Hi) as (Fg & Dg & Ag). change (@val f32 AF Y i 0%N 0%N) with (y i). change (@val f32 AF G i 0%N 0%N) with (g i).
  change (@val R AR Y' i 0%N 0%N) with (y' i). change (@val R AR G' i 0%N 0%N) with (g' i).
  change (Rsum (map (fun i0 : N => @val R AR Y' i0 0%N 0%N * @val R AR G' i0 0%N 0%N) (upto n))) with dot'.
  assert (Pt : 0 <= t) by (eapply Rle_trans; [apply Rabs_pos|exact Dd]).
  assert (Dn : Rabs (real nd - - dot') <= t). { rewrite Em. replace (- real dot - - dot') with (- (real dot - dot')) by ring. rewrite Rabs_Ropp. exact Dd. }
  assert (An' : Rabs (- dot') <= ga b) by (rewrite Rabs_Ropp; exact Ad).
  destruct (product_near _ _ _ _ _ _ _ _ Dy Ay Dg Ag) as (B1 & B2). destruct (product_near _ _ _ _ _ _ _ _ Dy Ay Dn An') as (B3 & B4).
  assert (Pm : (1 + xd b) * (ga b + gd b) + (1 + xd b) * (ga b + t) = (1 + xd b) * mm) by (unfold mm; ring).
  assert (N1 : 0 <= (1 + xd b) * (ga b + gd b)) by (apply Rmult_le_pos; lra). assert (N2 : 0 <= (1 + xd b) * (ga b + t)) by (apply Rmult_le_pos; lra).
  assert (N3 : 0 <= (1 + xd b) * mm) by lra. pose proof (fits_big _ _ N3 F2) as Big.
  assert (R1 : rounded (f32_mul e (y i) (g i)) (real (y i) * real (g i))) by (apply rounded_mul; [exact Fy|exact Fg|lra]).
  assert (R2 : rounded (f32_add e f32_zero (f32_mul e (y i) nd)) (real (y i) * real nd)) by (apply rounded_zero; apply rounded_mul; [exact Fy|exact Fm|lra]).
  pose proof (partial_one _ _ _ R1 (Rle_refl _)) as P1. pose proof (Rabs_pos (real (y i) * real (g i))). pose proof (Rabs_pos (real (y i) * real nd)).
  destruct (partial_step e 1 _ _ _ _ _ P1 R2) as (F3 & _ & D3 & _). { eapply sum_fits_mono; [| |exact F2]; [lia|lra]. }
  split; [exact F3|]. split.
  - rewrite ED. set (v := real (f32_add e _ _)) in *.
    assert (D4 : Rabs (real (y i) * real (g i) + real (y i) * real nd - (y' i * g' i - y' i * dot')) <= xd b * mm + gd b + t).
    { replace (real (y i) * real (g i) + real (y i) * real nd - (y' i * g' i - y' i * dot'))
        with ((real (y i) - y' i) * (real (g i) + real nd) + y' i * ((real (g i) - g' i) + (real nd - - dot'))) by ring.
      eapply Rle_trans; [apply Rabs_triang|]. rewrite !Rabs_mult. rewrite Rplus_assoc. apply Rplus_le_compat.
      - apply Rmult_le_compat; try apply Rabs_pos; [exact Dy|]. eapply Rle_trans; [apply Rabs_triang|]. pose proof (near_size _ _ _ _ Dg Ag). pose proof (near_size _ _ _ _ Dn An'). unfold mm. lra.
      - rewrite <- (Rmult_1_l (gd b + t)). apply Rmult_le_compat; try apply Rabs_pos; [exact Ay|]. eapply Rle_trans; [apply Rabs_triang|]. lra. }
    assert (D5 : bound (1 + 1) (Rabs (real (y i) * real (g i)) + Rabs (real (y i) * real nd)) <= bound 2 ((1 + xd b) * mm)) by (apply bound_mono; lra).
    set (w := real (y i) * real (g i) + real (y i) * real nd) in *. replace (v - (y' i * g' i - y' i * dot')) with ((v - w) + (w - (y' i * g' i - y' i * dot'))) by ring.
    eapply Rle_trans; [apply Rabs_triang|]. lra.
  - rewrite EA. replace (y' i * g' i - y' i * dot') with (y' i * (g' i - dot')) by ring. rewrite Rabs_mult. rewrite <- (Rmult_1_l (2 * ga b)).
    apply Rmult_le_compat; try apply Rabs_pos; [exact Ay|]. apply Rabs_le_inv in Ag, Ad. apply Rabs_le. lra.
Qed.
End Two.
