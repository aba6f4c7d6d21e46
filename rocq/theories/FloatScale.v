(** * f32 arithmetic and scaling by powers of two *)
From Coq Require Import Reals Lra ZifyBool ZifyNat ZifyN.
From Flocq Require Import Core IEEE754.Binary.
From Flocq Require Import Plus_error.
From Verif Require Import Base Arith Helper Tensor Network Float32 Float32Facts Spec SpecLayer SpecReal SpecError FloatError SpecScale.
Local Open Scope R_scope.

#[local] Instance prec24' : Prec_gt_0 24 := eq_refl.
Notation format := (generic_format radix2 (FLT_exp (-149) 24)).

Lemma pow2 k : powerRZ 2 k = bpow radix2 k.
Proof. symmetry. apply bpow_powerRZ. Qed.

(** ** Rounding *)
Lemma rnd_scale_normal z k : bpow radix2 (-126) <= Rabs z -> bpow radix2 (-126) <= Rabs (z * bpow radix2 k) -> rnd (z * bpow radix2 k) = rnd z * bpow radix2 k.
Proof.
  intros H H'. assert (Nz : z <> 0) by (intros ->; rewrite Rabs_R0 in H; pose proof (bpow_gt_0 radix2 (-126)); lra).
  pose proof (mag_mult_bpow radix2 z k Nz) as M.
  assert (L : (-125 <= mag radix2 z)%Z) by (apply mag_ge_bpow; exact H).
  assert (L' : (-125 <= mag radix2 (z * bpow radix2 k))%Z) by (apply mag_ge_bpow; exact H').
  assert (C : cexp radix2 (FLT_exp (-149) 24) (z * bpow radix2 k) = (cexp radix2 (FLT_exp (-149) 24) z + k)%Z).
  { unfold cexp, FLT_exp. rewrite M in L' |- *. lia. }
  unfold rnd, round, scaled_mantissa. rewrite C. unfold F2R. cbn [Fnum Fexp]. rewrite bpow_plus, <- Rmult_assoc. f_equal. f_equal. f_equal. f_equal.
  rewrite Z.opp_add_distr, bpow_plus, Rmult_assoc, (Rmult_comm (bpow radix2 k)), Rmult_assoc, <- bpow_plus. replace (- k + k)%Z with 0%Z by lia. cbn. ring.
Qed.

Lemma format_up z k : (0 <= k)%Z -> format z -> format (z * bpow radix2 k).
Proof.
  intros Hk H. apply FLT_format_generic in H; [|exact eq_refl]. destruct H as [f E M X]. apply generic_format_FLT.
  exists (Float radix2 (Fnum f) (Fexp f + k)); [|exact M|cbn [Fexp]; lia]. rewrite E. unfold F2R. cbn [Fnum Fexp]. rewrite bpow_plus. ring.
Qed.

Lemma rnd_sum_up x y k : (0 <= k)%Z -> format x -> format y -> rnd ((x + y) * bpow radix2 k) = rnd (x + y) * bpow radix2 k.
Proof.
  intros Hk Fx Fy. destruct (Rle_lt_dec (bpow radix2 (-126)) (Rabs (x + y))) as [L|L].
  - apply rnd_scale_normal; [exact L|]. rewrite Rabs_mult, (Rabs_pos_eq (bpow radix2 k)) by apply bpow_ge_0.
    assert (1 <= bpow radix2 k) by (change 1 with (bpow radix2 0); apply bpow_le; exact Hk).
    pose proof (bpow_gt_0 radix2 (-126)). apply Rle_trans with (Rabs (x + y) * 1); [lra|]. apply Rmult_le_compat_l; lra.
  - assert (G : format (x + y)). { apply FLT_format_plus_small; try assumption; [exact eq_refl|]. apply Rlt_le. eapply Rlt_le_trans; [exact L|]. apply bpow_le. lia. }
    unfold rnd. rewrite !round_generic; try typeclasses eauto; [reflexivity|exact G|apply format_up; assumption].
Qed.

Lemma rnd_sum_scale x y k : format x -> format y -> format (x * bpow radix2 k) -> format (y * bpow radix2 k) ->
  rnd (x * bpow radix2 k + y * bpow radix2 k) = rnd (x + y) * bpow radix2 k.
Proof.
  intros Fx Fy Fx' Fy'. destruct (Z_le_gt_dec 0 k) as [Hk|Hk].
  - rewrite <- Rmult_plus_distr_r. apply rnd_sum_up; assumption.
  - pose proof (rnd_sum_up _ _ (- k) ltac:(lia) Fx' Fy') as H. rewrite <- Rmult_plus_distr_r, Rmult_assoc, <- bpow_plus in H.
    replace (k + - k)%Z with 0%Z in H by lia. rewrite Rmult_1_r in H. rewrite H, <- Rmult_plus_distr_r, Rmult_assoc, <- bpow_plus.
    replace (- k + k)%Z with 0%Z by lia. cbn. ring.
Qed.

Lemma add_sign e x y : fin (f32_add e x y) = true -> Bsign 24 128 (f32_add e x y) =
  match Rcompare (real x + real y) 0 with Eq => andb (Bsign 24 128 x) (Bsign 24 128 y) | Lt => true | Gt => false end.
Proof.
  intros H. destruct (add_finite e x y H) as (Fx & Fy & _).
  pose proof (Binary.Bplus_correct 24 128 f32_prec f32_emax (nan_add e) BinarySingleNaN.mode_NE x y Fx Fy) as C.
  destruct (Rlt_bool _ _); [apply C|]. destruct C as (C & _). change (Bplus _ _ _ _ _ _ x y) with (f32_add e x y) in C. destruct (f32_add e x y); discriminate.
Qed.

Lemma mul_sign e x y : fin (f32_mul e x y) = true -> Bsign 24 128 (f32_mul e x y) = xorb (Bsign 24 128 x) (Bsign 24 128 y).
Proof.
  intros H. pose proof (Binary.Bmult_correct 24 128 f32_prec f32_emax (nan_mul e) BinarySingleNaN.mode_NE x y) as C.
  change (Bmult _ _ _ _ _ _ x y) with (f32_mul e x y) in *. destruct (Rlt_bool _ _).
  - apply C. destruct (f32_mul e x y); first [reflexivity|discriminate].
  - destruct (f32_mul e x y); discriminate.
Qed.

Lemma compare_scaled z k : Rcompare (z * bpow radix2 k) 0 = Rcompare z 0.
Proof.
  pose proof (bpow_gt_0 radix2 k) as P. replace 0 with (0 * bpow radix2 k) at 1 by ring. apply Rcompare_mult_r. exact P.
Qed.

(** ** The operations of a network *)
Lemma add_scaled e k x x' y y' : scaled k x x' -> scaled k y y' -> fin (f32_add e x y) = true -> fin (f32_add e x' y') = true ->
  scaled k (f32_add e x y) (f32_add e x' y').
Proof.
  intros (Fx & Fx' & Sx & Ex) (Fy & Fy' & Sy & Ey) H H'. destruct (add_finite e x y H) as (_ & _ & E). destruct (add_finite e x' y' H') as (_ & _ & E').
  unfold scaled. rewrite !add_sign, E, E', Sx, Sy by assumption. rewrite pow2 in *. split; [exact H|]. split; [exact H'|].
  rewrite Ex, Ey. split; [rewrite <- Rmult_plus_distr_r, compare_scaled; reflexivity|].
  apply rnd_sum_scale; try apply real_format; [rewrite <- Ex|rewrite <- Ey]; apply real_format.
Qed.

Lemma mul_scaled e a b x x' y y' : scaled a x x' -> scaled b y y' -> normal_product x y -> normal_product x' y' ->
  fin (f32_mul e x y) = true -> fin (f32_mul e x' y') = true -> scaled (a + b) (f32_mul e x y) (f32_mul e x' y').
Proof.
  intros (Fx & Fx' & Sx & Ex) (Fy & Fy' & Sy & Ey) N1 N2 H H'. destruct (mul_finite e x y H) as (_ & _ & E). destruct (mul_finite e x' y' H') as (_ & _ & E').
  unfold scaled, normal_product in *. rewrite !mul_sign, E, E', Sx, Sy by assumption. rewrite !pow2 in *. split; [exact H|]. split; [exact H'|]. split; [reflexivity|].
  assert (Q : real x' * real y' = real x * real y * bpow radix2 (a + b)) by (rewrite Ex, Ey, bpow_plus; ring).
  rewrite Q in *. pose proof (bpow_gt_0 radix2 (a + b)) as P. destruct N1 as [Z|N1]; [rewrite Z, Rmult_0_l, !rnd_0; ring|].
  destruct N2 as [Z|N2]; [|apply rnd_scale_normal; assumption]. exfalso. apply Rmult_integral in Z. pose proof (bpow_gt_0 radix2 (-126)).
  destruct Z as [Z|Z]; [rewrite Z, Rabs_R0 in N1|]; lra.
Qed.

Lemma zero_scaled k : scaled k f32_zero f32_zero.
Proof. split; [reflexivity|]. split; [reflexivity|]. split; [reflexivity|]. cbn. ring. Qed.

Lemma fold_fin e l : forall x, fin (fold_left (f32_add e) l x) = true -> fin x = true.
Proof. induction l as [|y l IH]; intros x H; cbn [fold_left] in H; [exact H|]. apply IH in H. apply (add_finite e x y H). Qed.

(** A finite sum had finite terms. *)
Lemma sum_scaled {A} e k (t t' : A -> f32) l :
  (forall p, In p l -> fin (t p) = true -> fin (t' p) = true -> scaled k (t p) (t' p)) ->
  forall x x', scaled k x x' -> fin (fold_left (f32_add e) (map t l) x) = true -> fin (fold_left (f32_add e) (map t' l) x') = true ->
  scaled k (fold_left (f32_add e) (map t l) x) (fold_left (f32_add e) (map t' l) x').
Proof.
  induction l as [|p l IH]; intros H x x' Hx F F'; cbn [map fold_left] in *; [exact Hx|].
  pose proof (fold_fin _ _ _ F) as G. pose proof (fold_fin _ _ _ F') as G'. apply IH; try assumption; [intros q Hq; apply H; right; exact Hq|].
  apply add_scaled; try assumption. apply H; [left; reflexivity|apply (add_finite _ _ _ G)|apply (add_finite _ _ _ G')].
Qed.

Lemma positive_scaled k x x' : scaled k x x' -> (0 < real x' <-> 0 < real x).
Proof.
  intros (_ & _ & _ & E). rewrite E, pow2. pose proof (bpow_gt_0 radix2 k) as P. split; intros H.
  - apply Rmult_lt_reg_r with (bpow radix2 k); lra.
  - apply Rmult_lt_0_compat; assumption.
Qed.

Lemma fin_nan x : fin x = true -> isnan x = false.
Proof. destruct x; try discriminate; reflexivity. Qed.

Lemma gtb_scaled k x x' y y' : scaled k x x' -> scaled k y y' -> f32_gtb x' y' = f32_gtb x y.
Proof.
  intros (Fx & Fx' & _ & Ex) (Fy & Fy' & _ & Ey). unfold f32_gtb. rewrite !cmp_rank by (apply fin_nan; assumption). rewrite !rank_finite by assumption.
  change (B2R 24 128) with real in *. rewrite Ex, Ey, pow2, Rcompare_mult_r by apply bpow_gt_0. reflexivity.
Qed.

Lemma relu_scaled k e x x' : let AR := f32_arith e in scaled k x x' -> scaled k (Spec.relu x) (Spec.relu x').
Proof.
  intros AR H. unfold Spec.relu. cbn [fgtb fzero AR f32_arith]. rewrite (gtb_scaled k x x' f32_zero f32_zero H (zero_scaled k)).
  destruct (f32_gtb x f32_zero); [exact H|apply zero_scaled].
Qed.

Lemma gtb_ninf x : fin x = true -> f32_gtb x f32_ninf = true.
Proof. intros F. apply gtb_true. split; [apply fin_nan, F|]. split; [reflexivity|]. rewrite (rank_finite x F). pose proof (B2R_bound x). cbn [rank f32_ninf]. lra. Qed.

Lemma max_scaled {A} e k (t t' : A -> f32) l : let AR := f32_arith e in l <> [] -> (forall p, In p l -> scaled k (t p) (t' p)) ->
  scaled k (running_max (map t l)) (running_max (map t' l)).
Proof.
  intros AR NE H. destruct l as [|q l]; [congruence|]. unfold running_max. cbn [map fold_left]. cbn [fgtb fninf AR f32_arith].
  pose proof (H q (or_introl eq_refl)) as Hq. rewrite !gtb_ninf by apply Hq. assert (K : forall p, In p l -> scaled k (t p) (t' p)) by (intros p Hp; apply H; right; exact Hp).
  clear H NE. revert Hq. generalize (t q), (t' q). induction l as [|p l IH]; intros x x' Hx; cbn [map fold_left]; [exact Hx|].
  apply IH; [intros r Hr; apply K; right; exact Hr|]. pose proof (K p (or_introl eq_refl)) as Hp. rewrite (gtb_scaled k _ _ _ _ Hp Hx). destruct (f32_gtb (t p) x); assumption.
Qed.

(** Scaled by 1 means equal, bit for bit. *)
Lemma scaled_same x x' : scaled 0 x x' -> x' = x.
Proof. intros (F & F' & S & E). apply B2R_Bsign_inj; [exact F'|exact F| |exact S]. change (real x' = real x). rewrite E, pow2. change (bpow radix2 0) with 1. ring. Qed.
