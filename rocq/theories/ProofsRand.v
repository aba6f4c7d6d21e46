(** * Proofs for C51: random fills *)
From Coq Require Import Reals Lra ZifyBool ZifyNat ZifyN.
From Flocq Require Import Core IEEE754.Binary IEEE754.Bits.
From Verif Require Import Base Arith Helper Tensor Float32 Float32Facts Spec SpecError FloatError Rand Loops Layout.
Local Open Scope R_scope.

(** ** Bit patterns *)
Lemma of_bits_finite n : (0 <= n < 2139095040)%Z -> fin (b32_of_bits n) = true /\ 0 <= real (b32_of_bits n).
Proof.
  intros H. unfold b32_of_bits, binary_float_of_bits. rewrite is_finite_FF2B, B2R_FF2B.
  unfold binary_float_of_bits_aux, split_bits. change (2 ^ 23)%Z with 8388608%Z. change (2 ^ 8)%Z with 256%Z.
  replace (8388608 * 256 <=? n)%Z with false by lia.
  assert (E : ((n / 8388608) mod 256 < 255)%Z) by (rewrite Z.mod_small; [|split; [apply Z.div_pos; lia|]]; try apply Z.div_lt_upper_bound; lia).
  assert (M : (0 <= n mod 8388608 < 8388608)%Z) by (apply Z.mod_pos_bound; lia).
  destruct (Zeq_bool ((n / 8388608) mod 256) 0) eqn:E0.
  - destruct (n mod 8388608)%Z as [|p|p]; [split; [reflexivity|apply Rle_refl]| |lia].
    split; [reflexivity|]. cbn [FF2R cond_Zopp]. apply F2R_ge_0. cbn. lia.
  - destruct (Zeq_bool ((n / 8388608) mod 256) (256 - 1)) eqn:E1; [apply Zeq_bool_eq in E1; lia|].
    destruct (n mod 8388608 + 8388608)%Z as [|p|p] eqn:P; [lia| |lia].
    split; [reflexivity|]. cbn [FF2R cond_Zopp]. apply F2R_ge_0. cbn. lia.
Qed.

Lemma of_bits_positive n : (0 <= n < 4294967296)%Z -> fin (b32_of_bits n) = true -> 0 < real (b32_of_bits n) -> (1 <= n < 2139095040)%Z.
Proof.
  intros H. unfold b32_of_bits, binary_float_of_bits. rewrite is_finite_FF2B, B2R_FF2B.
  unfold binary_float_of_bits_aux, split_bits. change (2 ^ 23)%Z with 8388608%Z. change (2 ^ 8)%Z with 256%Z.
  assert (M : (0 <= n mod 8388608 < 8388608)%Z) by (apply Z.mod_pos_bound; lia).
  destruct (Z.leb_spec (8388608 * 256) n) as [L|L].
  - intros _ P. exfalso.
    assert (X : forall p x, FF2R radix2 (F754_finite true p x) <= 0) by (intros; apply F2R_le_0; cbn; lia).
    revert P. apply Rle_not_lt. destruct (Zeq_bool ((n / 8388608) mod 256) 0).
    + destruct (n mod 8388608)%Z as [|p|p]; [apply Rle_refl|apply X|apply Rle_refl].
    + destruct (Zeq_bool ((n / 8388608) mod 256) (256 - 1)).
      * destruct (n mod 8388608)%Z; apply Rle_refl.
      * destruct (n mod 8388608 + 8388608)%Z; [apply Rle_refl|apply X|apply Rle_refl].
  - intros Fi P. split.
    + destruct (Z.eq_dec n 0) as [->|]; [|lia]. exfalso. revert P. cbn. apply Rlt_irrefl.
    + destruct (Z.lt_ge_cases n 2139095040) as [|G]; [assumption|]. exfalso. revert Fi.
      assert (E : ((n / 8388608) mod 256 = 255)%Z).
      { assert (n / 8388608 = 255)%Z as -> by (Z.div_mod_to_equations; lia). reflexivity. }
      rewrite E. change (Zeq_bool 255 0) with false. change (Zeq_bool 255 (256 - 1)) with true. cbv iota.
      destruct (n mod 8388608)%Z; discriminate.
Qed.

Lemma of_to_bits (x : f32) : b32_of_bits (Z.of_N (fto_bits x)) = x.
Proof.
  cbn [fto_bits f32_bits]. pose proof (bits_of_binary_float_range 23 8 eq_refl eq_refl x) as (B & _).
  change (bits_of_binary_float 23 8 x) with (bits_of_b32 x) in B. rewrite Z2N.id by exact B.
  apply (binary_float_of_bits_of_binary_float 23 8 eq_refl eq_refl eq_refl x).
Qed.

Lemma to_of_bits n : (n < 4294967296)%N -> fto_bits (b32_of_bits (Z.of_N n)) = n.
Proof.
  intros H. cbn [fto_bits f32_bits].
  pose proof (bits_of_binary_float_of_bits 23 8 eq_refl eq_refl eq_refl (Z.of_N n)) as E.
  unfold bits_of_b32, b32_of_bits. rewrite E; [lia|]. change (2 ^ (23 + 8 + 1))%Z with 4294967296%Z. lia.
Qed.

Lemma to_bits_range (x : f32) : (fto_bits x < 4294967296)%N.
Proof.
  cbn [fto_bits f32_bits]. pose proof (bits_of_binary_float_range 23 8 eq_refl eq_refl x) as B.
  change (bits_of_binary_float 23 8 x) with (bits_of_b32 x) in B. change (2 ^ (23 + 8 + 1))%Z with 4294967296%Z in B. lia.
Qed.

Lemma decrease_positive (x : f32) : fin x = true -> 0 < real x ->
  fin (decrease x) = true /\ 0 <= real (decrease x) /\ (fto_bits (decrease x) + 1 = fto_bits x)%N.
Proof.
  intros Fx Px. pose proof (to_bits_range x) as R. assert (B : (1 <= Z.of_N (fto_bits x) < 2139095040)%Z).
  { apply of_bits_positive; [lia| |]; rewrite of_to_bits; assumption. }
  unfold decrease. cbn [fof_bits f32_bits]. set (n := (fto_bits x - 1)%N).
  destruct (of_bits_finite (Z.of_N n)) as (F1 & F2); [lia|]. split; [exact F1|]. split; [exact F2|].
  rewrite to_of_bits by lia. lia.
Qed.

(** ** The values drawn from the generator *)
Lemma one_plus n : (0 <= n < 8388608)%Z ->
  fin (b32_of_bits (1065353216 + n)) = true /\ real (b32_of_bits (1065353216 + n)) = 1 + IZR n * / 8388608.
Proof.
  intros H. unfold b32_of_bits, binary_float_of_bits. rewrite is_finite_FF2B, B2R_FF2B.
  unfold binary_float_of_bits_aux, split_bits. change (2 ^ 23)%Z with 8388608%Z. change (2 ^ 8)%Z with 256%Z.
  replace (8388608 * 256 <=? 1065353216 + n)%Z with false by lia.
  assert (E : ((1065353216 + n) / 8388608 = 127)%Z) by (Z.div_mod_to_equations; lia).
  assert (M : ((1065353216 + n) mod 8388608 = n)%Z) by (Z.div_mod_to_equations; lia).
  rewrite E, M. change (Zeq_bool (127 mod 256) 0) with false. change (Zeq_bool (127 mod 256) (256 - 1)) with false. cbv iota.
  destruct (n + 8388608)%Z as [|p|p] eqn:P; [lia| |lia]. split; [reflexivity|].
  cbn [FF2R cond_Zopp]. unfold F2R. cbn [Fnum Fexp].
  change (127 mod 256 + SpecFloat.emin (23 + 1) (2 ^ (8 - 1)) - 1)%Z with (-23)%Z.
  rewrite <- P, plus_IZR. change (bpow radix2 (-23)) with (/ 8388608). lra.
Qed.

Lemma unit_value_spec e w : (w < W32)%N ->
  fin (unit_value e w) = true /\ real (unit_value e w) = IZR (Z.of_N (w / 512)) * / 8388608.
Proof.
  intros H. unfold unit_value. cbn [fof_bits f32_bits].
  assert (B : (0 <= Z.of_N (w / 512) < 8388608)%Z).
  { assert (w / 512 < 8388608)%N by (apply N.div_lt_upper_bound; unfold W32 in H; lia). lia. }
  replace (Z.of_N (1065353216 + w / 512)) with (1065353216 + Z.of_N (w / 512))%Z by lia.
  destruct (one_plus _ B) as (F1 & F2).
  pose proof (Binary.Bminus_correct 24 128 f32_prec f32_emax (nan_add e) BinarySingleNaN.mode_NE _ f32_one F1 eq_refl) as C.
  rewrite F2, real_one in C. replace (1 + IZR (Z.of_N (w / 512)) * / 8388608 - 1) with (IZR (Z.of_N (w / 512)) * / 8388608) in C by lra.
  change (round radix2 _ _ (IZR (Z.of_N (w / 512)) * / 8388608)) with (rnd (IZR (Z.of_N (w / 512)) * / 8388608)) in C.
  assert (G : rnd (IZR (Z.of_N (w / 512)) * / 8388608) = IZR (Z.of_N (w / 512)) * / 8388608).
  { apply round_generic; [typeclasses eauto|]. apply generic_format_FLT.
    exists (Float radix2 (Z.of_N (w / 512)) (-23)); cbn [Fnum Fexp]; [reflexivity| |lia].
    rewrite Z.abs_eq by lia. apply Z.lt_trans with 8388608%Z; [lia|reflexivity]. }
  rewrite G in C. assert (0 <= IZR (Z.of_N (w / 512)) * / 8388608 < 1).
  { split; [apply Rmult_le_pos; [apply IZR_le; lia|lra]|].
    apply Rmult_lt_reg_r with 8388608; [lra|]. rewrite Rmult_assoc, Rinv_l by lra. rewrite Rmult_1_r, Rmult_1_l. apply IZR_lt. lia. }
  rewrite Rlt_bool_true in C.
  - destruct C as (C1 & C2 & _). split; [exact C2|exact C1].
  - rewrite Rabs_pos_eq by lra. apply Rlt_trans with 1; [lra|]. change 1 with (bpow radix2 0). apply bpow_lt. lia.
Qed.

Lemma max_rand_spec e : fin (max_rand e) = true /\ real (max_rand e) = 8388607 * / 8388608.
Proof. destruct (unit_value_spec e 4294967295) as (F1 & F2); [reflexivity|]. split; [exact F1|exact F2]. Qed.

Lemma unit_bounds e w : (w < W32)%N -> 0 <= real (unit_value e w) <= real (max_rand e).
Proof.
  intros H. destruct (unit_value_spec e w H) as (_ & ->). destruct (max_rand_spec e) as (_ & ->).
  assert (B : (w / 512 < 8388608)%N) by (apply N.div_lt_upper_bound; unfold W32 in H; lia).
  split; [apply Rmult_le_pos; [apply IZR_le; lia|lra]|]. apply Rmult_le_compat_r; [lra|]. apply IZR_le. lia.
Qed.

(** ** Operations that do not overflow *)
Lemma mul_in_range e x y : fin x = true -> fin y = true -> Rabs (rnd (real x * real y)) < bpow radix2 128 ->
  fin (f32_mul e x y) = true /\ real (f32_mul e x y) = rnd (real x * real y).
Proof.
  intros Fx Fy B. pose proof (Binary.Bmult_correct 24 128 f32_prec f32_emax (nan_mul e) BinarySingleNaN.mode_NE x y) as C.
  change (round radix2 _ _ (real x * real y)) with (rnd (real x * real y)) in C. rewrite Rlt_bool_true in C by exact B.
  destruct C as (C1 & C2 & _). split; [etransitivity; [exact C2|]; rewrite Fx, Fy; reflexivity|exact C1].
Qed.

Lemma add_in_range e x y : fin x = true -> fin y = true -> Rabs (rnd (real x + real y)) < bpow radix2 128 ->
  fin (f32_add e x y) = true /\ real (f32_add e x y) = rnd (real x + real y).
Proof.
  intros Fx Fy B. pose proof (Binary.Bplus_correct 24 128 f32_prec f32_emax (nan_add e) BinarySingleNaN.mode_NE x y Fx Fy) as C.
  change (round radix2 _ _ (real x + real y)) with (rnd (real x + real y)) in C. rewrite Rlt_bool_true in C by exact B.
  destruct C as (C1 & C2 & _). split; [exact C2|exact C1].
Qed.

Lemma real_bound x : Rabs (real x) < bpow radix2 128.
Proof. apply abs_B2R_lt_emax. Qed.

Lemma leb_fin x y : fin x = true -> fin y = true -> (f32_leb x y = true <-> real x <= real y).
Proof.
  intros Fx Fy. unfold f32_leb, f32_cmp. rewrite Bcompare_correct by assumption.
  destruct (Rcompare_spec (real x) (real y)); split; intros; try reflexivity; try discriminate; lra.
Qed.

Lemma gtb_fin x y : fin x = true -> fin y = true -> (f32_gtb x y = false <-> real x <= real y).
Proof.
  intros Fx Fy. unfold f32_gtb, f32_cmp. rewrite Bcompare_correct by assumption.
  destruct (Rcompare_spec (real x) (real y)); split; intros; try reflexivity; try discriminate; lra.
Qed.

(** ** The loop that settles the scale *)
Section Loop.
Context {A : Type} (done : A -> bool) (step : A -> A) (P : A -> Prop) (m : A -> N).
Hypothesis keep : forall a, P a -> done a = false -> P (step a) /\ (m (step a) < m a)%N.

Lemma loop_done p a : done a = true -> loop_until done step p a = a.
Proof. intros D. destruct p; cbn [loop_until]; rewrite D; reflexivity. Qed.

Lemma loop_keeps p : forall a, P a ->
  P (loop_until done step p a)
  /\ (done (loop_until done step p a) = true \/ (m (loop_until done step p a) + Npos p <= m a)%N).
Proof.
  induction p as [p IH|p IH|]; intros a H; cbn [loop_until]; (destruct (done a) eqn:D; [auto|]).
  - destruct (keep a H D) as (H1 & L1). destruct (IH _ H1) as (H2 & L2). destruct (IH _ H2) as (H3 & L3). split; [exact H3|].
    destruct L3 as [L3|L3]; [auto|]. destruct L2 as [L2|L2].
    + left. rewrite loop_done; exact L2.
    + right. lia.
  - destruct (IH _ H) as (H2 & L2). destruct (IH _ H2) as (H3 & L3). split; [exact H3|].
    destruct L3 as [L3|L3]; [auto|]. destruct L2 as [L2|L2].
    + left. rewrite loop_done; exact L2.
    + right. lia.
  - destruct (keep a H D) as (H1 & L1). split; [exact H1|]. right. lia.
Qed.

Lemma loop_ends a : P a -> P (loop_until done step (N.succ_pos (m a)) a) /\ done (loop_until done step (N.succ_pos (m a)) a) = true.
Proof.
  intros H. destruct (loop_keeps (N.succ_pos (m a)) a H) as (H1 & [L|L]); [auto|]. exfalso.
  assert (Npos (N.succ_pos (m a)) = N.succ (m a)) by (destruct (m a); reflexivity). lia.
Qed.
End Loop.

Section Uniform.
Context (e : env) (low high : f32).
Hypothesis (Fl : fin low = true) (Fh : fin high = true) (Le : real low <= real high).

Definition settled (s : f32) : Prop := fin s = true /\ 0 <= real s.

Lemma zero_scale_ok s : fin s = true -> real s = 0 -> scale_ok e low high s = true.
Proof.
  intros Fs Z. destruct (max_rand_spec e) as (Fm & _). unfold scale_ok. apply negb_true_iff.
  destruct (mul_in_range e s (max_rand e)) as (F1 & R1); [assumption|assumption|rewrite Z, Rmult_0_l, rnd_0, Rabs_R0; apply bpow_gt_0|].
  rewrite Z, Rmult_0_l, rnd_0 in R1.
  destruct (add_in_range e (f32_mul e s (max_rand e)) low) as (F2 & R2); [assumption|assumption| |].
  { rewrite R1, Rplus_0_l, rnd_real. apply real_bound. }
  rewrite R1, Rplus_0_l, rnd_real in R2. apply gtb_fin; [assumption|assumption|]. rewrite R2. exact Le.
Qed.

Lemma uniform_loop_ends s : settled s ->
  settled (loop_until (scale_ok e low high) decrease (N.succ_pos (fto_bits s)) s)
  /\ scale_ok e low high (loop_until (scale_ok e low high) decrease (N.succ_pos (fto_bits s)) s) = true.
Proof.
  intros H. apply (loop_ends (scale_ok e low high) decrease settled (@fto_bits f32 f32_bits)); [|exact H].
  intros a (Fa & Pa) D. assert (Z : 0 < real a).
  { destruct (Req_dec (real a) 0) as [Z|Z]; [|lra]. rewrite zero_scale_ok in D by assumption. discriminate. }
  destruct (decrease_positive a Fa Z) as (F1 & P1 & B). split; [split; assumption|]. lia.
Qed.

(** At exit the largest value is finite and at most [high]. *)
Lemma exit_bound s : settled s -> scale_ok e low high s = true ->
  rnd (real s * real (max_rand e)) < bpow radix2 128
  /\ rnd (rnd (real s * real (max_rand e)) + real low) <= real high.
Proof.
  intros (Fs & Ps) D. apply negb_true_iff in D. destruct (max_rand_spec e) as (Fm & Rm).
  assert (Q : 0 <= rnd (real s * real (max_rand e))).
  { rewrite <- rnd_0. apply rnd_mono. apply Rmult_le_pos; [exact Ps|]. rewrite Rm. lra. }
  pose proof (real_bound low) as Bl. apply Rabs_def2 in Bl. pose proof (real_bound high) as Bh. apply Rabs_def2 in Bh.
  destruct (Rlt_le_dec (rnd (real s * real (max_rand e))) (bpow radix2 128)) as [L|L].
  - destruct (mul_in_range e s (max_rand e)) as (F1 & R1); [assumption|assumption|rewrite Rabs_pos_eq by exact Q; exact L|].
    split; [exact L|].
    assert (G : real low <= rnd (rnd (real s * real (max_rand e)) + real low)).
    { rewrite <- (rnd_real low) at 1. apply rnd_mono. lra. }
    destruct (Rlt_le_dec (rnd (rnd (real s * real (max_rand e)) + real low)) (bpow radix2 128)) as [L2|L2].
    + destruct (add_in_range e (f32_mul e s (max_rand e)) low) as (F2 & R2); [assumption|assumption| |].
      { rewrite R1. apply Rabs_def1; lra. }
      rewrite R1 in R2. apply gtb_fin in D; [|assumption|assumption]. rewrite R2 in D. exact D.
    + exfalso. pose proof (Binary.Bplus_correct 24 128 f32_prec f32_emax (nan_add e) BinarySingleNaN.mode_NE _ low F1 Fl) as C.
      rewrite R1 in C. change (round radix2 _ _ (rnd (real s * real (max_rand e)) + real low)) with (rnd (rnd (real s * real (max_rand e)) + real low)) in C.
      rewrite Rlt_bool_false in C by (rewrite Rabs_pos_eq by (pose proof (bpow_ge_0 radix2 128); lra); exact L2).
      destruct C as (C1 & C2). change (Bplus _ _ _ _ _ _ _ low) with (f32_add e (f32_mul e s (max_rand e)) low) in C1.
      assert (S : Bsign 24 128 (f32_mul e s (max_rand e)) = false).
      { destruct (Bsign 24 128 (f32_mul e s (max_rand e))) eqn:S; [|reflexivity]. exfalso.
        assert (X : rnd (real s * real (max_rand e)) <= 0).
        { rewrite <- R1. destruct (f32_mul e s (max_rand e)) as [b|b|b|b p x]; try apply Rle_refl. cbn in S. subst b. apply F2R_le_0. cbn. lia. }
        assert (rnd (rnd (real s * real (max_rand e)) + real low) <= real low) by (rewrite <- (rnd_real low) at 2; apply rnd_mono; lra). lra. }
      rewrite S in C1. destruct (f32_add e (f32_mul e s (max_rand e)) low) as [b|b|b|b p x]; try discriminate C1.
      injection C1 as ->. apply gtb_false in D; [|reflexivity|destruct high; try reflexivity; discriminate].
      rewrite (rank_finite high) in D by exact Fh. cbn [rank] in D. lra.
  - exfalso. pose proof (Binary.Bmult_correct 24 128 f32_prec f32_emax (nan_mul e) BinarySingleNaN.mode_NE s (max_rand e)) as C.
    change (round radix2 _ _ (real s * real (max_rand e))) with (rnd (real s * real (max_rand e))) in C.
    rewrite Rlt_bool_false in C by (rewrite Rabs_pos_eq by exact Q; exact L).
    change (Bmult _ _ _ _ _ _ s (max_rand e)) with (f32_mul e s (max_rand e)) in C.
    assert (Ss : Bsign 24 128 s = false).
    { destruct s as [b|b|b|b p x]; try discriminate Fs.
      - exfalso. cbn in L. rewrite Rmult_0_l, rnd_0 in L. pose proof (bpow_gt_0 radix2 128). lra.
      - destruct b; [|reflexivity]. exfalso. revert Ps. apply Rlt_not_le. apply F2R_lt_0. reflexivity. }
    assert (Sm : Bsign 24 128 (max_rand e) = false).
    { destruct (max_rand e) as [b|b|b|b p x]; try discriminate Fm.
      - exfalso. cbn in Rm. lra.
      - destruct b; [|reflexivity]. exfalso. cbn [B2R] in Rm.
        assert (F2R (Float radix2 (SpecFloat.cond_Zopp true (Z.pos p)) x) < 0) by (apply F2R_lt_0; reflexivity). lra. }
    rewrite Ss, Sm in C. destruct (f32_mul e s (max_rand e)) as [b|b|b|b p x] eqn:M; try discriminate C.
    injection C as ->. assert (A : f32_add e (B754_infinity 24 128 false) low = B754_infinity 24 128 false)
      by (destruct low; try discriminate Fl; reflexivity).
    rewrite A in D. apply gtb_false in D; [|reflexivity|destruct high; try reflexivity; discriminate].
    rewrite (rank_finite high) in D by exact Fh. cbn [rank] in D. lra.
Qed.

Lemma sample_bounds s w : settled s -> scale_ok e low high s = true -> (w < W32)%N ->
  let x := uniform_sample e (low, s) w in fin x = true /\ real low <= real x <= real high.
Proof.
  intros S D W. destruct (exit_bound s S D) as (B1 & B2). destruct S as (Fs & Ps).
  destruct (unit_value_spec e w W) as (Fu & _). destruct (unit_bounds e w W) as (U1 & U2).
  destruct (max_rand_spec e) as (Fm & Rm).
  assert (M1 : 0 <= rnd (real (unit_value e w) * real s)).
  { rewrite <- rnd_0. apply rnd_mono. apply Rmult_le_pos; assumption. }
  assert (M2 : rnd (real (unit_value e w) * real s) <= rnd (real s * real (max_rand e))).
  { apply rnd_mono. rewrite Rmult_comm. apply Rmult_le_compat_l; assumption. }
  destruct (mul_in_range e (unit_value e w) s) as (F1 & R1); [assumption|assumption|rewrite Rabs_pos_eq by exact M1; lra|].
  assert (G : real low <= rnd (rnd (real (unit_value e w) * real s) + real low)).
  { rewrite <- (rnd_real low) at 1. apply rnd_mono. lra. }
  assert (G2 : rnd (rnd (real (unit_value e w) * real s) + real low) <= real high).
  { eapply Rle_trans; [|exact B2]. apply rnd_mono. lra. }
  pose proof (real_bound low) as Bl. apply Rabs_def2 in Bl. pose proof (real_bound high) as Bh. apply Rabs_def2 in Bh.
  destruct (add_in_range e (f32_mul e (unit_value e w) s) low) as (F2 & R2); [assumption|assumption|rewrite R1; apply Rabs_def1; lra|].
  cbn [uniform_sample]. rewrite R1 in R2. rewrite R2. auto.
Qed.

Lemma sample_is s w : settled s -> scale_ok e low high s = true -> (w < W32)%N ->
  real (uniform_sample e (low, s) w) = rnd (rnd (real (unit_value e w) * real s) + real low).
Proof.
  intros S D W. destruct (exit_bound s S D) as (B1 & B2). destruct S as (Fs & Ps).
  destruct (unit_value_spec e w W) as (Fu & _). destruct (unit_bounds e w W) as (U1 & U2).
  destruct (max_rand_spec e) as (Fm & Rm).
  assert (M1 : 0 <= rnd (real (unit_value e w) * real s)).
  { rewrite <- rnd_0. apply rnd_mono. apply Rmult_le_pos; assumption. }
  assert (M2 : rnd (real (unit_value e w) * real s) <= rnd (real s * real (max_rand e))).
  { apply rnd_mono. rewrite Rmult_comm. apply Rmult_le_compat_l; assumption. }
  destruct (mul_in_range e (unit_value e w) s) as (F1 & R1); [assumption|assumption|rewrite Rabs_pos_eq by exact M1; lra|].
  assert (G : real low <= rnd (rnd (real (unit_value e w) * real s) + real low)).
  { rewrite <- (rnd_real low) at 1. apply rnd_mono. lra. }
  assert (G2 : rnd (rnd (real (unit_value e w) * real s) + real low) <= real high).
  { eapply Rle_trans; [|exact B2]. apply rnd_mono. lra. }
  pose proof (real_bound low) as Bl. apply Rabs_def2 in Bl. pose proof (real_bound high) as Bh. apply Rabs_def2 in Bh.
  destruct (add_in_range e (f32_mul e (unit_value e w) s) low) as (F2 & R2); [assumption|assumption|rewrite R1; apply Rabs_def1; lra|].
  cbn [uniform_sample]. rewrite R1 in R2. exact R2.
Qed.

(** Larger words give larger values, words below 512 give [low]. *)
Lemma sample_mono s w w' : settled s -> scale_ok e low high s = true -> (w < W32)%N -> (w' < W32)%N -> (w <= w')%N ->
  real (uniform_sample e (low, s) w) <= real (uniform_sample e (low, s) w').
Proof.
  intros S D W W' Hww. rewrite !sample_is by assumption. apply rnd_mono. apply Rplus_le_compat_r. apply rnd_mono. apply Rmult_le_compat_r; [apply S|].
  rewrite (proj2 (unit_value_spec e w W)), (proj2 (unit_value_spec e w' W')). apply Rmult_le_compat_r; [lra|]. apply IZR_le.
  pose proof (N.div_le_mono w w' 512 ltac:(discriminate) Hww). lia.
Qed.

Lemma sample_low s w : settled s -> scale_ok e low high s = true -> (w < 512)%N -> real (uniform_sample e (low, s) w) = real low.
Proof.
  intros S D W. assert (W' : (w < W32)%N) by (unfold W32; lia). rewrite sample_is by assumption.
  rewrite (proj2 (unit_value_spec e w W')), N.div_small by exact W. change (IZR (Z.of_N 0)) with 0. rewrite !Rmult_0_l, rnd_0, Rplus_0_l. apply rnd_real.
Qed.

End Uniform.

(** ** What [Uniform::new_inclusive] accepts *)
Lemma sub_not_finite e x y : fin x = false \/ fin y = false -> fin (f32_sub e x y) = false.
Proof.
  intros H. unfold f32_sub, Bminus.
  destruct x as [sx|sx|sx px Hx|sx mx ex Hx], y as [sy|sy|sy py Hy|sy my ey Hy]; cbn in H |- *;
    try (destruct H; discriminate); try reflexivity; try (rewrite nan_fin by apply isnan_build_nan; reflexivity).
  destruct sx, sy; cbn; try reflexivity; rewrite nan_fin by apply isnan_build_nan; reflexivity.
Qed.

Lemma div_finite_inv e x y : fin y = true -> real y <> 0 -> fin (f32_div e x y) = true -> fin x = true /\ real (f32_div e x y) = rnd (real x / real y).
Proof.
  intros Fy Z F. pose proof (Binary.Bdiv_correct 24 128 f32_prec f32_emax (nan_div e) BinarySingleNaN.mode_NE x y Z) as C.
  destruct (Rlt_bool _ _).
  - destruct C as (C1 & C2 & _). change (Bdiv _ _ _ _ _ _ x y) with (f32_div e x y) in *. rewrite F in C2. auto.
  - change (Bdiv _ _ _ _ _ _ x y) with (f32_div e x y) in C. destruct (f32_div e x y); discriminate.
Qed.

Lemma uniform_new_done bm e low high d : uniform_new bm e low high = Done d ->
  fin low = true /\ fin high = true /\ real low <= real high
  /\ exists s, d = (low, s) /\ settled s /\ scale_ok e low high s = true.
Proof.
  unfold uniform_new. intros H. destruct (match bm with Debug => _ | Release => false end); [discriminate|].
  destruct (f32_leb low high) eqn:L; cbn [negb] in H; [|discriminate].
  destruct (finite (f32_div e (f32_sub e high low) (max_rand e))) eqn:Fd; cbn [negb] in H; [|discriminate].
  injection H as <-. unfold finite in Fd. destruct (max_rand_spec e) as (Fm & Rm).
  assert (Zm : real (max_rand e) <> 0) by (rewrite Rm; lra).
  destruct (div_finite_inv _ _ _ Fm Zm Fd) as (Fs & Rd).
  assert (Fh : fin high = true) by (destruct (fin high) eqn:X; [reflexivity|rewrite sub_not_finite in Fs by auto; discriminate]).
  assert (Fl : fin low = true) by (destruct (fin low) eqn:X; [reflexivity|rewrite sub_not_finite in Fs by auto; discriminate]).
  apply leb_fin in L; [|assumption|assumption]. split; [exact Fl|]. split; [exact Fh|]. split; [exact L|].
  assert (S0 : settled (f32_div e (f32_sub e high low) (max_rand e))).
  { split; [exact Fd|]. rewrite Rd, <- rnd_0. apply rnd_mono. apply Rmult_le_pos; [|rewrite Rm; left; apply Rinv_0_lt_compat; lra].
    pose proof (Binary.Bminus_correct 24 128 f32_prec f32_emax (nan_add e) BinarySingleNaN.mode_NE high low Fh Fl) as C.
    destruct (Rlt_bool _ _).
    - destruct C as (C & _). change (Bminus _ _ _ _ _ _ high low) with (f32_sub e high low) in C. rewrite C.
      change (0 <= rnd (real high - real low)). rewrite <- rnd_0. apply rnd_mono. lra.
    - destruct C as (C & _). change (Bminus _ _ _ _ _ _ high low) with (f32_sub e high low) in C.
      destruct (f32_sub e high low); discriminate. }
  destruct (uniform_loop_ends e low high Fl Fh L _ S0) as (S1 & D1). eexists. split; [reflexivity|]. auto.
Qed.

(** It panics exactly when the bounds are not finite, out of order, or too far apart. *)
Lemma uniform_new_panics bm e low high p : uniform_new bm e low high = Panic p ->
  p = PAssert /\ (fin low = false \/ fin high = false \/ real high < real low
                  \/ fin (f32_div e (f32_sub e high low) (max_rand e)) = false).
Proof.
  unfold uniform_new. intros H. destruct (match bm with Debug => _ | Release => false end) eqn:B.
  - injection H as <-. split; [reflexivity|]. destruct bm; [|discriminate]. unfold finite in B.
    destruct (fin low) eqn:X; [|auto]. destruct (fin high) eqn:Y; [discriminate|auto].
  - destruct (f32_leb low high) eqn:L; cbn [negb] in H.
    + destruct (finite (f32_div e (f32_sub e high low) (max_rand e))) eqn:Fd; cbn [negb] in H; [discriminate|].
      injection H as <-. auto 6.
    + injection H as <-. split; [reflexivity|]. destruct (fin low) eqn:X; [|auto]. destruct (fin high) eqn:Y; [|auto].
      right. right. left. destruct (Rlt_le_dec (real high) (real low)) as [|G]; [assumption|].
      apply (leb_fin low high X Y) in G. congruence.
Qed.

Lemma fill_uniform_spec bm e (t : tensor f32) low high words : (forall n, (words n < W32)%N) ->
  match fill_with_uniform_words bm e t low high words with
  | Done t' => (fin low = true /\ fin high = true /\ real low <= real high)
               /\ strides t' = strides t /\ tshape t' = tshape t /\ length (data t') = length (data t)
               /\ (forall x, In x (data t') -> fin x = true /\ real low <= real x <= real high)
               /\ (forall a b x y, nth_error (data t') a = Some x -> nth_error (data t') b = Some y -> (words a <= words b)%N -> real x <= real y)
               /\ (forall a x, nth_error (data t') a = Some x -> (words a < 512)%N -> real x = real low)
  | Panic p => p = PAssert /\ (fin low = false \/ fin high = false \/ real high < real low
                              \/ fin (f32_div e (f32_sub e high low) (max_rand e)) = false)
  end.
Proof.
  intros W. unfold fill_with_uniform_words. destruct (uniform_new bm e low high) as [d|p] eqn:E; cbn [bind].
  - destruct (uniform_new_done _ _ _ _ _ E) as (Fl & Fh & L & s & -> & S & D).
    cbn [fill_with_uniform]. unfold with_data. cbn [strides tshape data]. split; [auto|]. split; [reflexivity|]. split; [reflexivity|].
    split; [rewrite map_length, seq_length; reflexivity|].
    assert (N : forall a x, nth_error (map (fun n => uniform_sample e (low, s) (words n)) (seq 0 (length (data t)))) a = Some x -> x = uniform_sample e (low, s) (words a)).
    { intros a x Na. rewrite nth_error_map in Na. destruct (nth_error (seq _ _) a) as [q|] eqn:Nq; [|discriminate]. injection Na as <-.
      assert (La : (a < length (data t))%nat) by (rewrite <- (seq_length (length (data t)) 0); apply nth_error_Some; congruence).
      pose proof (nth_error_nth _ _ 0%nat Nq) as Q. rewrite seq_nth in Q by exact La. subst q. reflexivity. }
    split; [|split].
    + intros x Hx. apply in_map_iff in Hx. destruct Hx as (n & <- & _). apply (sample_bounds e low high Fl Fh L s (words n) S D (W n)).
    + intros a b x y Nx Ny Le. rewrite (N _ _ Nx), (N _ _ Ny). apply (sample_mono e low high Fl Fh L); auto.
    + intros a x Nx Lt. rewrite (N _ _ Nx). apply (sample_low e low high Fl Fh L); auto.
  - eapply uniform_new_panics, E.
Qed.

Lemma fill_gaussian_spec {F} (t : tensor F) ok sample :
  match fill_with_gaussian ok sample t with
  | Done t' => ok = true /\ strides t' = strides t /\ tshape t' = tshape t /\ length (data t') = length (data t)
               /\ forall n, (n < length (data t))%nat -> nth_error (data t') n = Some (sample n)
  | Panic p => ok = false /\ p = PUnwrap
  end.
Proof.
  destruct ok; cbn [fill_with_gaussian]; [|auto]. unfold with_data. cbn [strides tshape data].
  split; [reflexivity|]. split; [reflexivity|]. split; [reflexivity|]. split; [rewrite map_length, seq_length; reflexivity|].
  intros n Hn. apply map_nth_error. rewrite nth_error_nth' with (d := O) by (rewrite seq_length; exact Hn).
  rewrite seq_nth by exact Hn. reflexivity.
Qed.
