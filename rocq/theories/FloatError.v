(** * Rounding errors of f32 *)
From Coq Require Import Reals Lra ZifyBool ZifyNat ZifyN.
From Flocq Require Import Core IEEE754.Binary.
From Flocq Require Import Relative Plus_error.
From Verif Require Import Base Arith Float32 Float32Facts SpecReal SpecError RealSums.
Local Open Scope R_scope.

#[local] Instance prec24 : Prec_gt_0 24 := eq_refl.
Definition rnd (x : R) : R := round radix2 (FLT_exp (-149) 24) ZnearestE x.

Lemma rnd_mono x y : x <= y -> rnd x <= rnd y.
Proof. apply round_le; typeclasses eauto. Qed.

Lemma real_format (x : f32) : generic_format radix2 (FLT_exp (-149) 24) (real x).
Proof. exact (Binary.generic_format_B2R 24 128 x). Qed.

Lemma rnd_real (x : f32) : rnd (real x) = real x.
Proof. apply round_generic; [typeclasses eauto|apply real_format]. Qed.

Lemma nan_fin x : isnan x = true -> fin x = false.
Proof. destruct x; try discriminate; reflexivity. Qed.

Lemma add_finite e x y : fin (f32_add e x y) = true -> fin x = true /\ fin y = true /\ real (f32_add e x y) = rnd (real x + real y).
Proof.
  intros H. assert (Nx : isnan x = false) by (destruct (isnan x) eqn:N; [|reflexivity]; rewrite (nan_fin _ (add_nan_l e x y N)) in H; discriminate).
  assert (Ny : isnan y = false) by (destruct (isnan y) eqn:N; [|reflexivity]; rewrite (nan_fin _ (add_nan_r e x y N)) in H; discriminate).
  assert (Fx : fin x = true).
  { destruct x as [s|s|s p H'|s m ex H']; try reflexivity; try discriminate Nx. exfalso.
    destruct y as [t|t|t q K|t n ey K]; try discriminate Ny; unfold f32_add, Bplus in H; cbn in H; try discriminate H.
    destruct s, t; cbn in H; try discriminate H; rewrite nan_fin in H by apply isnan_build_nan; discriminate. }
  assert (Fy : fin y = true).
  { destruct y as [s|s|s p H'|s m ex H']; try reflexivity; try discriminate Ny. exfalso.
    destruct x as [t|t|t q K|t n ey K]; try discriminate Nx; try discriminate Fx; unfold f32_add, Bplus in H; cbn in H; discriminate H. }
  split; [exact Fx|]. split; [exact Fy|].
  pose proof (Binary.Bplus_correct 24 128 f32_prec f32_emax (nan_add e) BinarySingleNaN.mode_NE x y Fx Fy) as C.
  destruct (Rlt_bool _ _); [apply C|]. destruct C as (C & _). change (Bplus _ _ _ _ _ _ x y) with (f32_add e x y) in C.
  destruct (f32_add e x y); discriminate.
Qed.

Lemma mul_finite e x y : fin (f32_mul e x y) = true -> fin x = true /\ fin y = true /\ real (f32_mul e x y) = rnd (real x * real y).
Proof.
  intros H. pose proof (Binary.Bmult_correct 24 128 f32_prec f32_emax (nan_mul e) BinarySingleNaN.mode_NE x y) as C.
  destruct (Rlt_bool _ _).
  - destruct C as (C1 & C2 & _). change (Bmult _ _ _ _ _ _ x y) with (f32_mul e x y) in *. rewrite H in C2. symmetry in C2.
    apply andb_true_iff in C2. destruct C2. auto.
  - change (Bmult _ _ _ _ _ _ x y) with (f32_mul e x y) in *. destruct (f32_mul e x y); discriminate.
Qed.

(** ** A quotient of 0 <= x <= y is between 0 and 1. *)
Lemma rnd_0 : rnd 0 = 0.
Proof. apply round_0. typeclasses eauto. Qed.

Lemma real_one : real f32_one = 1.
Proof. unfold f32_one. cbn. unfold F2R. cbn. lra. Qed.

Lemma rnd_1 : rnd 1 = 1.
Proof. rewrite <- real_one. apply rnd_real. Qed.

Lemma div_unit e x y : fin x = true -> fin y = true -> 0 <= real x <= real y -> 0 < real y ->
  fin (f32_div e x y) = true /\ 0 <= real (f32_div e x y) <= 1.
Proof.
  intros Fx Fy Hx Hy. pose proof (Binary.Bdiv_correct 24 128 f32_prec f32_emax (nan_div e) BinarySingleNaN.mode_NE x y) as C.
  assert (B : 0 <= rnd (real x / real y) <= 1).
  { split; [rewrite <- rnd_0|rewrite <- rnd_1]; apply rnd_mono.
    - apply Rmult_le_pos; [lra|]. left. apply Rinv_0_lt_compat. exact Hy.
    - apply Rmult_le_reg_r with (real y); [exact Hy|]. unfold Rdiv. rewrite Rmult_assoc, Rinv_l by lra. lra. }
  change (round radix2 _ _ (real x / real y)) with (rnd (real x / real y)) in C.
  assert (Z : real y <> 0) by lra. specialize (C Z). rewrite Rlt_bool_true in C.
  - destruct C as (C1 & C2 & _). change (Bdiv _ _ _ _ _ _ x y) with (f32_div e x y) in *. rewrite C1, C2. auto.
  - rewrite Rabs_pos_eq by lra. apply Rle_lt_trans with 1; [lra|]. change 1 with (bpow radix2 0). apply bpow_lt. lia.
Qed.

(** ** Sums of non-negative numbers grow. *)
Lemma sum_grows e l x : fin (fold_left (f32_add e) l x) = true -> (forall y, In y l -> fin y = true -> 0 <= real y) -> fin x = true -> 0 <= real x ->
  (real x <= real (fold_left (f32_add e) l x)) /\ (forall y, In y l -> fin y = true /\ real y <= real (fold_left (f32_add e) l x)).
Proof.
  revert x; induction l as [|a l IH]; intros x Ff Hl Fx Hx; cbn [fold_left] in *; [split; [lra|intros y []]|].
  assert (Fs : fin (f32_add e x a) = true).
  { clear - Ff. revert Ff. generalize (f32_add e x a). induction l as [|b l IH]; intros z; cbn [fold_left]; [auto|].
    intros H. apply IH in H. apply add_finite in H. apply H. }
  destruct (add_finite e x a Fs) as (_ & Fa & Es). pose proof (Hl a (or_introl eq_refl) Fa) as Ha.
  assert (Lx : real x <= real (f32_add e x a)) by (rewrite Es, <- (rnd_real x) at 1; apply rnd_mono; lra).
  assert (La : real a <= real (f32_add e x a)) by (rewrite Es, <- (rnd_real a) at 1; apply rnd_mono; lra).
  destruct (IH (f32_add e x a) Ff) as (I1 & I2); [intros; apply Hl; [right|]; assumption|exact Fs|lra|].
  split; [lra|]. intros y [<-|Hy]; [split; [exact Fa|lra]|apply I2; exact Hy].
Qed.

(** ** Dot products *)

Lemma u_ro_u : u_ro radix2 24 = u.
Proof. unfold u_ro, u. cbn. lra. Qed.

Lemma mul_error x y : exists d h, Rabs d <= u /\ Rabs h <= eta /\ rnd (x * y) = x * y * (1 + d) + h.
Proof.
  destruct (error_N_FLT radix2 (-149) 24 eq_refl (fun z => negb (Z.even z)) (x * y)) as (d & h & Hd & Hh & _ & E).
  exists d, h. change (Rabs d <= u_ro radix2 24) in Hd. rewrite u_ro_u in Hd. split; [exact Hd|]. split; [|exact E].
  eapply Rle_trans; [exact Hh|]. unfold eta. cbn. lra.
Qed.

Lemma plus_error x y : exists d, Rabs d <= u /\ rnd (real x + real y) = (real x + real y) * (1 + d).
Proof.
  destruct (FLT_plus_error_N_ex radix2 (-149) 24 (fun z => negb (Z.even z)) (real x) (real y) (real_format x) (real_format y)) as (d & Hd & E).
  exists d. rewrite u_ro_u in Hd. split; [|exact E].
  eapply Rle_trans; [exact Hd|]. assert (Hu : 0 < u) by (unfold u; lra).
  apply Rmult_le_reg_r with (1 + u); [lra|]. unfold Rdiv. rewrite Rmult_assoc, Rinv_l by lra. nra.
Qed.

Lemma u_pos : 0 < u.
Proof. unfold u. lra. Qed.

Lemma eta_pos : 0 < eta.
Proof. unfold eta. lra. Qed.

Lemma pow_1u_ge n : 1 <= (1 + u) ^ n.
Proof. apply pow_R1_Rle. pose proof u_pos. lra. Qed.

Notation exact l := (Rsum (map (fun p => real (fst p) * real (snd p)) l)).
Notation absolute l := (Rsum (map (fun p => Rabs (real (fst p) * real (snd p))) l)).

(** One more product [z], with error [d1] and [h], added with error [d2] to a sum [s] known up to [E]. *)
Lemma step_error n s S A z d1 d2 h : (1 <= n)%nat -> Rabs S <= A -> Rabs (s - S) <= bound n A -> Rabs d1 <= u -> Rabs d2 <= u -> Rabs h <= eta ->
  Rabs ((s + (z * (1 + d1) + h)) * (1 + d2) - (S + z)) <= bound (n + 1) (A + Rabs z).
Proof.
  intros Hn HS He H1 H2 Hh. pose proof u_pos as Pu. pose proof eta_pos as Pe. pose proof (pow_1u_ge n) as Pn.
  assert (HA : 0 <= A) by (pose proof (Rabs_pos S); lra).
  replace ((s + (z * (1 + d1) + h)) * (1 + d2) - (S + z))
    with ((s - S) * (1 + d2) + S * d2 + z * (d1 + d2 + d1 * d2) + h * (1 + d2)) by ring.
  assert (Q2 : Rabs (1 + d2) <= 1 + u) by (eapply Rle_trans; [apply Rabs_triang|]; rewrite Rabs_R1; lra).
  assert (Q12 : Rabs (d1 + d2 + d1 * d2) <= (1 + u) * (1 + u) - 1).
  { eapply Rle_trans; [apply Rabs_triang|]. rewrite Rabs_mult.
    assert (Rabs d1 * Rabs d2 <= u * u) by (apply Rmult_le_compat; try apply Rabs_pos; assumption).
    pose proof (Rabs_triang d1 d2). lra. }
  assert (T1 : Rabs ((s - S) * (1 + d2)) <= bound n A * (1 + u)).
  { rewrite Rabs_mult. apply Rmult_le_compat; try apply Rabs_pos; assumption. }
  assert (T2 : Rabs (S * d2) <= A * u) by (rewrite Rabs_mult; apply Rmult_le_compat; try apply Rabs_pos; assumption).
  assert (T3 : Rabs (z * (d1 + d2 + d1 * d2)) <= Rabs z * ((1 + u) * (1 + u) - 1)).
  { rewrite Rabs_mult. apply Rmult_le_compat_l; [apply Rabs_pos|exact Q12]. }
  assert (T4 : Rabs (h * (1 + d2)) <= eta * (1 + u)) by (rewrite Rabs_mult; apply Rmult_le_compat; try apply Rabs_pos; assumption).
  eapply Rle_trans; [apply Rabs_triang|]. eapply Rle_trans; [apply Rplus_le_compat_r, Rabs_triang|].
  eapply Rle_trans; [do 2 apply Rplus_le_compat_r; apply Rabs_triang|].
  eapply Rle_trans; [repeat apply Rplus_le_compat; eassumption|].
  unfold bound. rewrite plus_INR, pow_add, pow_1. cbn [INR]. set (p := (1 + u) ^ n) in *. pose proof (pos_INR n) as Pi.
  assert (Pp : 1 + u <= p).
  { unfold p. replace (1 + u) with ((1 + u) ^ 1) at 1 by ring. apply Rle_pow; [lra|exact Hn]. }
  assert (K1 : Rabs z * ((1 + u) * (1 + u) - 1) <= Rabs z * (p * (1 + u) - 1)).
  { apply Rmult_le_compat_l; [apply Rabs_pos|]. assert ((1 + u) * (1 + u) <= p * (1 + u)) by (apply Rmult_le_compat_r; lra). lra. }
  assert (K2 : eta * (1 + u) <= p * (1 + u) * eta).
  { rewrite (Rmult_comm (p * (1 + u))). apply Rmult_le_compat_l; [lra|]. rewrite <- (Rmult_1_l (1 + u)) at 1. apply Rmult_le_compat_r; lra. }
  nra.
Qed.

Lemma fold_error e (l : list (f32 * f32)) n x S A : (1 <= n)%nat -> Rabs S <= A -> Rabs (real x - S) <= bound n A ->
  fin (fold_left (f32_add e) (map (fun p => f32_mul e (fst p) (snd p)) l) x) = true ->
  Rabs (real (fold_left (f32_add e) (map (fun p => f32_mul e (fst p) (snd p)) l) x) - (S + exact l)) <= bound (n + length l) (A + absolute l).
Proof.
  revert n x S A; induction l as [|(a & b) l IH]; intros n x S A Hn HS He Hf; cbn [map fold_left length] in *.
  - cbn [Rsum fold_right]. rewrite !Rplus_0_r, Nat.add_0_r. exact He.
  - cbn [fst snd] in *. rewrite !Rsum_cons. rewrite <- !Rplus_assoc. replace (n + Datatypes.S (length l))%nat with ((n + 1) + length l)%nat by lia.
    assert (Fs : fin (f32_add e x (f32_mul e a b)) = true).
    { clear - Hf. revert Hf. generalize (f32_add e x (f32_mul e a b)). induction l as [|c l IH]; intros z; cbn [fold_left map]; [auto|].
      intros H. apply IH in H. apply add_finite in H. apply H. }
    destruct (add_finite _ _ _ Fs) as (_ & Fm & Es). destruct (mul_finite _ _ _ Fm) as (_ & _ & Em).
    apply IH; [lia| | |exact Hf].
    + eapply Rle_trans; [apply Rabs_triang|]. lra.
    + destruct (plus_error x (f32_mul e a b)) as (d2 & H2 & E2). destruct (mul_error (real a) (real b)) as (d1 & h & H1 & Hh & E1).
      rewrite Es, E2, Em, E1. apply step_error; assumption.
Qed.

Lemma dot_error e (l : list (f32 * f32)) :
  let s := fold_left (f32_add e) (map (fun p => f32_mul e (fst p) (snd p)) l) f32_zero in
  fin s = true -> Rabs (real s - exact l) <= bound (length l) (absolute l).
Proof.
  cbv zeta. destruct l as [|(a & b) l]; cbn [map fold_left length fst snd].
  - intros _. cbn. unfold bound. cbn. rewrite Rminus_0_r, Rabs_R0. lra.
  - intros Hf. assert (Fs : fin (f32_add e f32_zero (f32_mul e a b)) = true).
    { clear - Hf. revert Hf. generalize (f32_add e f32_zero (f32_mul e a b)). induction l as [|c l IH]; intros z; cbn [fold_left map]; [auto|].
      intros H. apply IH in H. apply add_finite in H. apply H. }
    destruct (add_finite _ _ _ Fs) as (_ & Fm & Es). destruct (mul_finite _ _ _ Fm) as (_ & _ & Em).
    rewrite !Rsum_cons. cbn [fst snd]. change (Datatypes.S (length l)) with (1 + length l)%nat. apply fold_error; [lia|lra| |exact Hf].
    replace (real f32_zero) with 0 in Es by reflexivity. rewrite Rplus_0_l, rnd_real in Es. rewrite Es, Em.
    destruct (mul_error (real a) (real b)) as (d & h & Hd & Hh & E). rewrite E.
    replace (real a * real b * (1 + d) + h - real a * real b) with (real a * real b * d + h) by ring.
    eapply Rle_trans; [apply Rabs_triang|]. rewrite Rabs_mult. unfold bound. cbn [INR]. rewrite pow_1.
    pose proof u_pos. pose proof eta_pos. pose proof (Rabs_pos (real a * real b)).
    assert (Rabs (real a * real b) * Rabs d <= Rabs (real a * real b) * u) by (apply Rmult_le_compat_l; assumption).
    assert (0 < u * eta) by (apply Rmult_lt_0_compat; assumption). lra.
Qed.
