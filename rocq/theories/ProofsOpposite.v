(** * C97: negation and f32 arithmetic *)
From Coq Require Import Reals Lra ZifyBool ZifyNat ZifyN.
From Flocq Require Import Core IEEE754.Binary.
From Verif Require Import Base Arith Float32 Float32Facts SpecError FloatError ProofsMono SpecOpposed.
Local Open Scope R_scope.

Definition opp (x y : f32) : Prop := isnan x = isnan y /\ (isnan x = false -> rank y = - rank x).

Lemma opposite_opp x y : opposite x y <-> opp x y.
Proof.
  split.
  - intros [(A & B)|[(s & -> & ->)|(A & B & C)]]; split; try congruence.
    + reflexivity.
    + cbn [rank]. destruct s; cbn [negb]; intros; lra.
    + rewrite (fin_nan x), (fin_nan y) by assumption. reflexivity.
    + intros _. rewrite !rank_finite by assumption. exact C.
  - intros (E & H). destruct (isnan x) eqn:Nx; [left; auto|]. specialize (H eq_refl). pose proof inf_pos. right.
    pose proof (B2R_bound x). pose proof (B2R_bound y).
    assert (Q : forall s, rank (B754_infinity 24 128 s) = if s then - top else top) by reflexivity.
    destruct x as [s|s|s p H'|s m ex H'], y as [s'|s'|s' p' K'|s' m' ex' K']; try discriminate;
      try (right; split; [reflexivity|]; split; [reflexivity|exact H]); rewrite ?Q in H.
    + exfalso. rewrite rank_finite in H by reflexivity. destruct s'; lra.
    + exfalso. rewrite rank_finite in H by reflexivity. destruct s; lra.
    + left. exists s. split; [reflexivity|]. f_equal. destruct s, s'; try reflexivity; exfalso; lra.
    + exfalso. rewrite rank_finite in H by reflexivity. destruct s; lra.
    + exfalso. rewrite rank_finite in H by reflexivity. destruct s'; lra.
Qed.

Lemma rnd_opp r : rnd (- r) = - rnd r.
Proof. unfold rnd. apply round_NE_opp. Qed.

Lemma sat_opp r : sat (- r) = - sat r.
Proof. pose proof inf_pos. unfold sat, Rmax, Rmin. repeat destruct (Rle_dec _ _); lra. Qed.

Lemma mul_rank_fin e x y : fin x = true -> fin y = true -> isnan (f32_mul e x y) = false /\ rank (f32_mul e x y) = sat (rnd (real x * real y)).
Proof.
  intros Fx Fy. pose proof (Binary.Bmult_correct 24 128 f32_prec f32_emax (nan_mul e) BinarySingleNaN.mode_NE x y) as C.
  change (round radix2 _ _ (real x * real y)) with (rnd (real x * real y)) in C.
  change (Bmult _ _ _ _ _ _ x y) with (f32_mul e x y) in C.
  destruct (Rlt_bool_spec (Rabs (rnd (real x * real y))) top) as [L|L].
  - destruct C as (C1 & C2 & _). rewrite Fx, Fy in C2. cbn [andb] in C2. split; [apply fin_nan; exact C2|]. rewrite rank_finite, C1, sat_id; auto.
  - apply (overflow_rank _ _ _ C). pose proof (sign_real x) as Sx. pose proof (sign_real y) as Sy.
    assert (P : forall a b, 0 <= a -> 0 <= b -> 0 <= a * b) by (intros; apply Rmult_le_pos; assumption).
    assert (G : 0 <= real x * real y -> top <= rnd (real x * real y)).
    { intros H. rewrite Rabs_pos_eq in L; [exact L|]. rewrite <- rnd_0. apply rnd_mono, H. }
    assert (G' : real x * real y <= 0 -> rnd (real x * real y) <= - top).
    { intros H. assert (rnd (real x * real y) <= 0) by (rewrite <- rnd_0; apply rnd_mono, H). rewrite Rabs_left1 in L by assumption. lra. }
    destruct (Bsign 24 128 x), (Bsign 24 128 y); cbn [xorb].
    + apply G. pose proof (P (- real x) (- real y) ltac:(lra) ltac:(lra)). lra.
    + apply G'. pose proof (P (- real x) (real y) ltac:(lra) ltac:(lra)). lra.
    + apply G'. pose proof (P (real x) (- real y) ltac:(lra) ltac:(lra)). lra.
    + apply G. apply P; lra.
Qed.

(** Values up to the sign of zero. *)
Lemma opp_cases x y : opposite x y ->
  (isnan x = true /\ isnan y = true) \/ (exists s, x = B754_infinity 24 128 s /\ y = B754_infinity 24 128 (negb s))
  \/ (fin x = true /\ fin y = true /\ real y = - real x).
Proof. exact (fun H => H). Qed.

Lemma opposite_zero : opposite f32_zero f32_zero.
Proof. right. right. do 2 (split; [reflexivity|]). cbn. lra. Qed.

Lemma opposite_fin x y : fin x = true -> fin y = true -> real y = - real x -> opposite x y.
Proof. intros. right. right. auto. Qed.

Lemma opposite_rank x y : isnan x = false -> isnan y = false -> rank y = - rank x -> opposite x y.
Proof. intros A B C. apply opposite_opp. split; [congruence|auto]. Qed.

Lemma opposite_add e x x' y y' : opposite x x' -> opposite y y' -> opposite (f32_add e x y) (f32_add e x' y').
Proof.
  intros [(A & B)|[(s & -> & ->)|(A & B & C)]].
  - intros _. left. split; apply add_nan_l; assumption.
  - intros [(A & B)|[(s' & -> & ->)|(A & B & C)]].
    + left. split; apply add_nan_r; assumption.
    + destruct s, s'; cbn; (right; left; eexists; split; reflexivity) || (left; split; apply isnan_build_nan).
    + right. left. exists s. destruct y; try discriminate; destruct y'; try discriminate; split; reflexivity.
  - intros [(A' & B')|[(s' & -> & ->)|(A' & B' & C')]].
    + left. split; apply add_nan_r; assumption.
    + right. left. exists s'. destruct x; try discriminate; destruct x'; try discriminate; split; reflexivity.
    + destruct (add_rank_fin e x y A A') as (N1 & R1). destruct (add_rank_fin e x' y' B B') as (N2 & R2).
      apply opposite_rank; [assumption|assumption|]. rewrite R1, R2, C, C'. replace (- real x + - real y) with (- (real x + real y)) by ring.
      rewrite rnd_opp. apply sat_opp.
Qed.

Lemma mul_nan_l e x y : isnan x = true -> isnan (f32_mul e x y) = true.
Proof. intros H. destruct x; try discriminate. unfold f32_mul, Bmult. apply isnan_build_nan || (destruct y; apply isnan_build_nan). Qed.
Lemma mul_nan_r e x y : isnan y = true -> isnan (f32_mul e x y) = true.
Proof. intros H. destruct y; try discriminate. unfold f32_mul, Bmult. destruct x; apply isnan_build_nan. Qed.

(** Is the value a zero? *)
Lemma fin_zero (x : f32) : fin x = true -> real x = 0 -> exists s, x = B754_zero 24 128 s.
Proof.
  destruct x as [s|s|s p H'|s m ex H']; intros F Z; try discriminate; [eauto|]. exfalso. cbn in Z. apply eq_0_F2R in Z. destruct s; discriminate Z.
Qed.

Lemma sign_finite (x y : f32) : fin x = true -> fin y = true -> real y = - real x -> real x <> 0 -> Bsign 24 128 y = negb (Bsign 24 128 x).
Proof.
  intros Fx Fy E Z. pose proof (sign_real x) as Sx. pose proof (sign_real y) as Sy. destruct (Bsign 24 128 x), (Bsign 24 128 y); try reflexivity; exfalso; lra.
Qed.

(** Multiplying an infinity by a finite value. *)
Lemma mul_inf e s (y : f32) : fin y = true ->
  (real y = 0 -> isnan (f32_mul e (B754_infinity 24 128 s) y) = true /\ isnan (f32_mul e y (B754_infinity 24 128 s)) = true)
  /\ (real y <> 0 -> f32_mul e (B754_infinity 24 128 s) y = B754_infinity 24 128 (xorb s (Bsign 24 128 y))
      /\ f32_mul e y (B754_infinity 24 128 s) = B754_infinity 24 128 (xorb s (Bsign 24 128 y))).
Proof.
  intros Fy. split; intros Z.
  - destruct (fin_zero y Fy Z) as (s' & ->). split; apply isnan_build_nan.
  - destruct y as [s'|s'|s' p H'|s' m ex H']; try discriminate; [exfalso; apply Z; reflexivity|]. cbn [Bsign]. split; [reflexivity|].
    rewrite Bool.xorb_comm. reflexivity.
Qed.

Lemma opposite_mul e c x x' : opposite x x' -> opposite (f32_mul e c x) (f32_mul e c x') /\ opposite (f32_mul e x c) (f32_mul e x' c).
Proof.
  destruct (isnan c) eqn:Nc. { intros _. split; left; split; first [apply mul_nan_l; assumption|apply mul_nan_r; assumption]. }
  intros [(A & B)|[(s & -> & ->)|(A & B & C)]].
  - split; left; split; first [apply mul_nan_l; assumption|apply mul_nan_r; assumption].
  - destruct (fin c) eqn:Fc.
    + destruct (Req_dec (real c) 0) as [Z|Z].
      * destruct (proj1 (mul_inf e s c Fc) Z), (proj1 (mul_inf e (negb s) c Fc) Z). split; left; split; assumption.
      * destruct (proj2 (mul_inf e s c Fc) Z) as (-> & ->), (proj2 (mul_inf e (negb s) c Fc) Z) as (-> & ->).
        split; right; left; exists (xorb s (Bsign 24 128 c)); rewrite Bool.negb_xorb_l; split; reflexivity.
    + destruct c as [s'|s'|s' p H'|s' m ex H']; try discriminate. split; right; left.
      * exists (xorb s' s). rewrite Bool.negb_xorb_r. split; reflexivity.
      * exists (xorb s s'). rewrite Bool.negb_xorb_l. split; reflexivity.
  - destruct (fin c) eqn:Fc.
    + destruct (mul_rank_fin e c x Fc A) as (N1 & R1). destruct (mul_rank_fin e c x' Fc B) as (N2 & R2).
      destruct (mul_rank_fin e x c A Fc) as (N3 & R3). destruct (mul_rank_fin e x' c B Fc) as (N4 & R4).
      split; (apply opposite_rank; [assumption|assumption|]); rewrite ?R1, ?R2, ?R3, ?R4, C, <- sat_opp, <- rnd_opp; do 2 f_equal; ring.
    + destruct c as [s'|s'|s' p H'|s' m ex H']; try discriminate. destruct (Req_dec (real x) 0) as [Z|Z].
      * assert (Z' : real x' = 0) by lra. destruct (proj1 (mul_inf e s' x A) Z), (proj1 (mul_inf e s' x' B) Z'). split; left; split; assumption.
      * assert (Z' : real x' <> 0) by lra. destruct (proj2 (mul_inf e s' x A) Z) as (-> & ->), (proj2 (mul_inf e s' x' B) Z') as (-> & ->).
        rewrite (sign_finite x x' A B C Z). split; right; left; exists (xorb s' (Bsign 24 128 x)); rewrite Bool.negb_xorb_r; split; reflexivity.
Qed.
