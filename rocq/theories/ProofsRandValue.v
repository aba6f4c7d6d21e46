(** * Proofs for C51: the values of a uniform fill *)
From Coq Require Import Reals Lra ZifyBool ZifyNat ZifyN.
From Flocq Require Import Core IEEE754.Binary IEEE754.Bits.
From Verif Require Import Base Arith Helper Tensor Float32 Float32Facts Spec SpecError FloatError Rand Loops Layout ProofsRand.
Local Open Scope R_scope.

(** ** The scale is the largest possible *)
Lemma of_bits_value n : (0 <= n < 2139095040)%Z ->
  real (b32_of_bits n) = if (n / 8388608 =? 0)%Z then IZR (n mod 8388608) * bpow radix2 (-149)
                         else IZR (n mod 8388608 + 8388608) * bpow radix2 (n / 8388608 - 150).
Proof.
  intros H. unfold b32_of_bits, binary_float_of_bits. rewrite B2R_FF2B.
  unfold binary_float_of_bits_aux, split_bits. change (2 ^ 23)%Z with 8388608%Z. change (2 ^ 8)%Z with 256%Z.
  replace (8388608 * 256 <=? n)%Z with false by lia.
  assert (E : (0 <= n / 8388608 < 255)%Z) by (split; [apply Z.div_pos; lia|apply Z.div_lt_upper_bound; lia]).
  assert (M : (0 <= n mod 8388608 < 8388608)%Z) by (apply Z.mod_pos_bound; lia).
  rewrite (Z.mod_small (n / 8388608) 256) by lia. destruct (Z.eqb_spec (n / 8388608) 0) as [E0|E0].
  - rewrite E0. change (Zeq_bool 0 0) with true. cbv iota. destruct (n mod 8388608)%Z as [|p|p]; [cbn [FF2R]; ring| |lia]. reflexivity.
  - rewrite (Zeq_bool_false _ 0 E0). assert (E1 : (n / 8388608 <> 256 - 1)%Z) by lia. rewrite (Zeq_bool_false _ _ E1).
    destruct (n mod 8388608 + 8388608)%Z as [|p|p] eqn:P; [lia| |lia]. cbn [FF2R cond_Zopp]. unfold F2R. cbn [Fnum Fexp].
    change (SpecFloat.emin (23 + 1) (2 ^ (8 - 1))) with (-149)%Z. do 2 f_equal. lia.
Qed.

Lemma of_bits_next n : (0 <= n)%Z -> (n + 1 < 2139095040)%Z -> real (b32_of_bits n) < real (b32_of_bits (n + 1)).
Proof.
  intros H L. rewrite !of_bits_value by lia.
  assert (M : (0 <= n mod 8388608 < 8388608)%Z) by (apply Z.mod_pos_bound; lia).
  assert (D : (n = 8388608 * (n / 8388608) + n mod 8388608)%Z) by (apply Z.div_mod; lia).
  assert (E : (0 <= n / 8388608)%Z) by (apply Z.div_pos; lia).
  destruct (Z.eq_dec (n mod 8388608) 8388607) as [X|X].
  - assert (Q : ((n + 1) / 8388608 = n / 8388608 + 1)%Z) by (symmetry; apply Z.div_unique with 0%Z; lia).
    assert (Q2 : ((n + 1) mod 8388608 = 0)%Z) by (symmetry; apply Z.mod_unique with (n / 8388608 + 1)%Z; lia).
    rewrite Q, Q2, X. replace (n / 8388608 + 1 =? 0)%Z with false by lia. destruct (Z.eqb_spec (n / 8388608) 0) as [Z0|Z0].
    + rewrite Z0. apply Rmult_lt_compat_r; [apply bpow_gt_0|]. apply IZR_lt. lia.
    + replace (n / 8388608 + 1 - 150)%Z with (n / 8388608 - 150 + 1)%Z by lia. rewrite bpow_plus. change (bpow radix2 1) with 2.
      pose proof (bpow_gt_0 radix2 (n / 8388608 - 150)) as P. change (IZR (8388607 + 8388608)) with 16777215. change (IZR (0 + 8388608)) with 8388608. lra.
  - assert (Q : ((n + 1) / 8388608 = n / 8388608)%Z) by (symmetry; apply Z.div_unique with (n mod 8388608 + 1)%Z; lia).
    assert (Q2 : ((n + 1) mod 8388608 = n mod 8388608 + 1)%Z) by (symmetry; apply Z.mod_unique with (n / 8388608)%Z; lia).
    rewrite Q, Q2. destruct (n / 8388608 =? 0)%Z; (apply Rmult_lt_compat_r; [apply bpow_gt_0|apply IZR_lt; lia]).
Qed.

Lemma of_bits_mono n m : (0 <= n <= m)%Z -> (m < 2139095040)%Z -> real (b32_of_bits n) <= real (b32_of_bits m).
Proof.
  intros H. assert (X : (m = n + Z.of_nat (Z.to_nat (m - n)))%Z) by lia. rewrite X. clear X. induction (Z.to_nat (m - n)) as [|k IH]; intros L.
  - replace (n + Z.of_nat 0)%Z with n by lia. apply Rle_refl.
  - eapply Rle_trans; [apply IH; lia|]. replace (n + Z.of_nat (S k))%Z with (n + Z.of_nat k + 1)%Z by lia. left. apply of_bits_next; lia.
Qed.

Lemma decrease_less (x : f32) : fin x = true -> 0 < real x -> real (decrease x) < real x.
Proof.
  intros Fx Px. destruct (decrease_positive x Fx Px) as (F1 & P1 & B). pose proof (to_bits_range x) as R.
  assert (X : (1 <= Z.of_N (fto_bits x) < 2139095040)%Z) by (apply of_bits_positive; [lia| |]; rewrite of_to_bits; assumption).
  assert (N : real (b32_of_bits (Z.of_N (fto_bits (decrease x)))) < real (b32_of_bits (Z.of_N (fto_bits (decrease x)) + 1))) by (apply of_bits_next; lia).
  replace (Z.of_N (fto_bits (decrease x)) + 1)%Z with (Z.of_N (fto_bits x)) in N by lia. rewrite !of_to_bits in N. exact N.
Qed.

(** Nothing lies between a float and the one before. *)
Lemma decrease_next (x y : f32) : fin x = true -> 0 < real x -> fin y = true -> real (decrease x) < real y -> real x <= real y.
Proof.
  intros Fx Px Fy L. destruct (decrease_positive x Fx Px) as (F1 & P1 & B). pose proof (to_bits_range x) as R. pose proof (to_bits_range y) as R'.
  assert (X : (1 <= Z.of_N (fto_bits x) < 2139095040)%Z) by (apply of_bits_positive; [lia| |]; rewrite of_to_bits; assumption).
  assert (Y : (1 <= Z.of_N (fto_bits y) < 2139095040)%Z) by (apply of_bits_positive; [lia| |]; rewrite of_to_bits; [assumption|lra]).
  destruct (N.le_gt_cases (fto_bits x) (fto_bits y)) as [G|G].
  - rewrite <- (of_to_bits x), <- (of_to_bits y). apply of_bits_mono; lia.
  - exfalso. revert L. apply Rle_not_lt. rewrite <- (of_to_bits y), <- (of_to_bits (decrease x)). apply of_bits_mono; lia.
Qed.

Section Largest.
Context (e : env) (low high : f32).
Hypothesis (Fl : fin low = true) (Fh : fin high = true) (Le : real low <= real high).

Definition top (s : f32) : R := rnd (rnd (real s * (8388607 / 8388608)) + real low).

Lemma top_mono s s' : real s <= real s' -> top s <= top s'.
Proof. intros H. apply rnd_mono. apply Rplus_le_compat_r. apply rnd_mono. apply Rmult_le_compat_r; lra. Qed.

Lemma too_large s : settled s -> scale_ok e low high s = false -> real high < top s.
Proof.
  intros (Fs & Ps) D. destruct (Rlt_le_dec (real high) (top s)) as [|L]; [assumption|]. exfalso.
  destruct (max_rand_spec e) as (Fm & Rm). unfold top in L.
  assert (Q : real (max_rand e) = 8388607 / 8388608) by (rewrite Rm; field). rewrite <- Q in L.
  pose proof (real_bound low) as Bl. apply Rabs_def2 in Bl. pose proof (real_bound high) as Bh. apply Rabs_def2 in Bh.
  pose proof (real_bound s) as Bs. apply Rabs_def2 in Bs.
  assert (P0 : 0 <= rnd (real s * real (max_rand e))).
  { rewrite <- rnd_0. apply rnd_mono. apply Rmult_le_pos; [exact Ps|]. rewrite Q. lra. }
  assert (P1 : rnd (real s * real (max_rand e)) <= real s).
  { rewrite <- (rnd_real s) at 2. apply rnd_mono. rewrite Q. nra. }
  destruct (mul_in_range e s (max_rand e)) as (F1 & R1); [assumption|assumption|apply Rabs_def1; lra|].
  assert (G : real low <= rnd (rnd (real s * real (max_rand e)) + real low)) by (rewrite <- (rnd_real low) at 1; apply rnd_mono; lra).
  destruct (add_in_range e (f32_mul e s (max_rand e)) low) as (F2 & R2); [assumption|assumption|rewrite R1; apply Rabs_def1; lra|].
  rewrite R1 in R2. unfold scale_ok in D. apply negb_false_iff in D.
  assert (X : f32_gtb (f32_add e (f32_mul e s (max_rand e)) low) high = false) by (apply gtb_fin; [assumption|assumption|rewrite R2; exact L]). congruence.
Qed.

(** The loop stops at the largest scale, from the given one downwards, that keeps the largest value at or below [high]. *)
Lemma loop_largest s0 : settled s0 ->
  let s := loop_until (scale_ok e low high) decrease (N.succ_pos (fto_bits s0)) s0 in
  settled s /\ scale_ok e low high s = true /\ real s <= real s0 /\ forall s', fin s' = true -> real s < real s' <= real s0 -> real high < top s'.
Proof.
  intros H s.
  pose proof (loop_ends (scale_ok e low high) decrease
    (fun s => settled s /\ real s <= real s0 /\ forall s', fin s' = true -> real s < real s' <= real s0 -> real high < top s') (@fto_bits f32 f32_bits)) as LE.
  destruct (LE) with (a := s0) as ((S & L & T) & D).
  - intros a ((Fa & Pa) & L & T) D. assert (Z : 0 < real a).
    { destruct (Req_dec (real a) 0) as [Z|Z]; [|lra]. rewrite zero_scale_ok in D by assumption. discriminate. }
    destruct (decrease_positive a Fa Z) as (F1 & P1 & B). pose proof (decrease_less a Fa Z) as Q. split; [|lia].
    split; [split; assumption|]. split; [lra|]. intros s' F' (L1 & L2). pose proof (decrease_next a s' Fa Z F' L1) as G.
    eapply Rlt_le_trans; [apply (too_large a); [split; assumption|exact D]|]. apply top_mono. exact G.
  - split; [exact H|]. split; [lra|]. intros; lra.
  - split; [exact S|]. split; [exact D|]. split; [exact L|]. exact T.
Qed.
End Largest.

Lemma fill_uniform_values bm e (t t' : tensor f32) low high words : (forall n, (words n < W32)%N) ->
  fill_with_uniform_words bm e t low high words = Done t' ->
  let scale := f32_div e (f32_sub e high low) (max_rand e) in
  let value s v := rnd (rnd (v * real s) + real low) in
  fin scale = true /\ exists s, fin s = true /\ 0 <= real s <= real scale
    /\ (forall n x, nth_error (data t') n = Some x -> real x = value s (IZR (Z.of_N (words n / 512)) / 8388608))
    /\ value s (8388607 / 8388608) <= real high
    /\ forall s', fin s' = true -> real s < real s' <= real scale -> real high < value s' (8388607 / 8388608).
Proof.
  intros W H scale value. unfold fill_with_uniform_words in H. destruct (uniform_new bm e low high) as [d|p] eqn:E; [|discriminate]. cbn [bind] in H.
  destruct (uniform_new_done _ _ _ _ _ E) as (Fl & Fh & L & _). unfold uniform_new in E.
  destruct (match bm with Debug => _ | Release => false end); [discriminate|].
  destruct (f32_leb low high) eqn:Lb; cbn [negb] in E; [|discriminate]. fold scale in E.
  destruct (finite scale) eqn:Fd; cbn [negb] in E; [|discriminate]. injection E as <-. split; [exact Fd|].
  destruct (max_rand_spec e) as (Fm & Rm). assert (Zm : real (max_rand e) <> 0) by (rewrite Rm; lra).
  destruct (div_finite_inv _ _ _ Fm Zm Fd) as (Fs & Rd).
  assert (S0 : settled scale).
  { split; [exact Fd|]. unfold scale. rewrite Rd, <- rnd_0. apply rnd_mono. apply Rmult_le_pos; [|rewrite Rm; left; apply Rinv_0_lt_compat; lra].
    pose proof (Binary.Bminus_correct 24 128 f32_prec f32_emax (nan_add e) BinarySingleNaN.mode_NE high low Fh Fl) as C.
    destruct (Rlt_bool _ _).
    - destruct C as (C & _). change (Bminus _ _ _ _ _ _ high low) with (f32_sub e high low) in C. rewrite C.
      change (0 <= rnd (real high - real low)). rewrite <- rnd_0. apply rnd_mono. lra.
    - destruct C as (C & _). change (Bminus _ _ _ _ _ _ high low) with (f32_sub e high low) in C.
      destruct (f32_sub e high low); discriminate. }
  destruct (loop_largest e low high Fl Fh L scale S0) as (S & D & Ls & T).
  set (s := loop_until (scale_ok e low high) decrease (N.succ_pos (fto_bits scale)) scale) in *.
  assert (TC : forall s1, value s1 (8388607 / 8388608) = top low s1) by (intros s1; unfold value, top; do 3 f_equal; ring).
  exists s. split; [apply S|]. split; [split; [apply S|exact Ls]|]. split; [|split].
  - intros n x Nx. cbn [fill_with_uniform] in H. injection H as <-. unfold with_data in Nx. cbn [data] in Nx.
    rewrite nth_error_map in Nx. destruct (nth_error (seq _ _) n) as [q|] eqn:Nq; [|discriminate]. injection Nx as <-.
    assert (La : (n < length (data t))%nat) by (rewrite <- (seq_length (length (data t)) 0); apply nth_error_Some; congruence).
    pose proof (nth_error_nth _ _ 0%nat Nq) as Q. rewrite seq_nth in Q by exact La. subst q.
    etransitivity; [exact (sample_is e low high Fl Fh L s (words n) S D (W n))|]. rewrite (proj2 (unit_value_spec e _ (W n))). reflexivity.
  - rewrite TC. destruct (exit_bound e low high Fl Fh L s S D) as (_ & B). rewrite Rm in B. exact B.
  - intros s' F' G. rewrite TC. apply T; assumption.
Qed.
