(** * Facts about the f32 instance *)
From Coq Require Import Reals Lra.
From Flocq Require Import Core.Core IEEE754.Binary Plus_error.
From Verif Require Import Base Arith Float32.

Local Open Scope R_scope.

(** ** Comparison *)

(** A real number ordered like the f32 values; infinities at +/- 2^128. *)
Definition rank (x : f32) : R :=
  match x with
  | B754_infinity _ _ s => if s then (- bpow radix2 128) else bpow radix2 128
  | _ => B2R 24 128 x
  end.

Lemma rank_finite x : is_finite 24 128 x = true -> rank x = B2R 24 128 x.
Proof. destruct x; simpl; try discriminate; reflexivity. Qed.

Lemma B2R_bound (x : f32) : (- bpow radix2 128 < B2R 24 128 x < bpow radix2 128)%R.
Proof.
  pose proof (abs_B2R_lt_emax 24 128 x) as H. apply Rabs_def2 in H. lra.
Qed.

Lemma inf_pos : 0 < bpow radix2 128.
Proof. apply bpow_gt_0. Qed.

Lemma cmp_rank x y : isnan x = false -> isnan y = false -> f32_cmp x y = Some (Rcompare (rank x) (rank y)).
Proof.
  intros Nx Ny. pose proof inf_pos. pose proof (B2R_bound x) as Bx. pose proof (B2R_bound y) as By.
  destruct (is_finite 24 128 x) eqn:Fx, (is_finite 24 128 y) eqn:Fy.
  - unfold f32_cmp. rewrite Bcompare_correct, !rank_finite by assumption. reflexivity.
  - destruct y as [| s | |]; try discriminate. rewrite (rank_finite x) by assumption. unfold rank.
    unfold f32_cmp. destruct x, s; try discriminate; cbn [Bcompare BinarySingleNaN.Bcompare B2BSN];
      first [rewrite Rcompare_Gt by lra | rewrite Rcompare_Lt by lra]; reflexivity.
  - destruct x as [| s | |]; try discriminate. rewrite (rank_finite y) by assumption. unfold rank.
    unfold f32_cmp. destruct y, s; try discriminate; cbn [Bcompare BinarySingleNaN.Bcompare B2BSN];
      first [rewrite Rcompare_Gt by lra | rewrite Rcompare_Lt by lra]; reflexivity.
  - destruct x as [| s | |]; try discriminate. destruct y as [| s' | |]; try discriminate. unfold rank.
    unfold f32_cmp. destruct s, s'; cbn;
      first [rewrite Rcompare_Gt by lra | rewrite Rcompare_Lt by lra | rewrite Rcompare_Eq by lra]; reflexivity.
Qed.

Lemma cmp_nan_l x y : isnan x = true -> f32_cmp x y = None.
Proof. destruct x; try discriminate. destruct y; reflexivity. Qed.

Lemma cmp_nan_r x y : isnan y = true -> f32_cmp x y = None.
Proof. destruct y; try discriminate. destruct x; reflexivity. Qed.

Lemma gtb_true x y : f32_gtb x y = true <-> isnan x = false /\ isnan y = false /\ rank y < rank x.
Proof.
  unfold f32_gtb. destruct (isnan x) eqn:Nx.
  { rewrite cmp_nan_l by assumption. intuition discriminate. }
  destruct (isnan y) eqn:Ny.
  { rewrite cmp_nan_r by assumption. intuition discriminate. }
  rewrite cmp_rank by assumption. destruct (Rcompare_spec (rank x) (rank y)); intuition (try discriminate; lra).
Qed.

Lemma gtb_false x y : isnan x = false -> isnan y = false -> (f32_gtb x y = false <-> rank x <= rank y).
Proof.
  intros Nx Ny. unfold f32_gtb. rewrite cmp_rank by assumption.
  destruct (Rcompare_spec (rank x) (rank y)); intuition (try discriminate; lra).
Qed.

Lemma eqb_true x y : f32_eqb x y = true <-> isnan x = false /\ isnan y = false /\ rank x = rank y.
Proof.
  unfold f32_eqb. destruct (isnan x) eqn:Nx.
  { rewrite cmp_nan_l by assumption. intuition discriminate. }
  destruct (isnan y) eqn:Ny.
  { rewrite cmp_nan_r by assumption. intuition discriminate. }
  rewrite cmp_rank by assumption. destruct (Rcompare_spec (rank x) (rank y)); intuition (try discriminate; lra).
Qed.

Lemma eqb_sym x y : f32_eqb x y = f32_eqb y x.
Proof.
  apply eq_true_iff_eq. rewrite !eqb_true. intuition congruence.
Qed.

Lemma eqb_refl x : f32_eqb x x = negb (isnan x).
Proof.
  apply eq_true_iff_eq. rewrite eqb_true, negb_true_iff. intuition congruence.
Qed.

(** ** Bit equality up to the choice of NaN *)
Definition same (x y : f32) : Prop := x = y \/ (isnan x = true /\ isnan y = true).

Lemma same_refl x : same x x.
Proof. left; reflexivity. Qed.

Lemma isnan_build_nan (n : a_nan) : isnan (build_nan 24 128 n) = true.
Proof. destruct n as [x H]. unfold build_nan. simpl. destruct x; try discriminate. reflexivity. Qed.

Lemma add_nan_l e x y : isnan x = true -> isnan (f32_add e x y) = true.
Proof. destruct x; try discriminate. intros _. unfold f32_add, Bplus. destruct y; apply isnan_build_nan. Qed.

Lemma add_nan_r e x y : isnan y = true -> isnan (f32_add e x y) = true.
Proof. destruct y; try discriminate. intros _. unfold f32_add, Bplus. destruct x; apply isnan_build_nan. Qed.

Lemma BSN2B_same (n1 n2 : a_nan) z : same (BSN2B 24 128 n1 z) (BSN2B 24 128 n2 z).
Proof.
  destruct z; simpl; try (left; reflexivity). right. split; apply isnan_build_nan.
Qed.

Lemma add_env e1 e2 x y : same (f32_add e1 x y) (f32_add e2 x y).
Proof. apply BSN2B_same. Qed.

Lemma mul_env e1 e2 x y : same (f32_mul e1 x y) (f32_mul e2 x y).
Proof. apply BSN2B_same. Qed.

Lemma add_same e1 e2 x x' y y' : same x x' -> same y y' -> same (f32_add e1 x y) (f32_add e2 x' y').
Proof.
  intros [->|[Hx Hx']] [->|[Hy Hy']].
  - apply add_env.
  - right. split; apply add_nan_r; assumption.
  - right. split; apply add_nan_l; assumption.
  - right. split; apply add_nan_l; assumption.
Qed.

(** ** Sums that start from +0.0 are never -0.0 *)
Definition neg_zero : f32 := B754_zero 24 128 true.

Lemma add_not_neg_zero e x y : x <> neg_zero -> f32_add e x y <> neg_zero.
Proof.
  intros Hx. destruct (is_finite 24 128 x) eqn:Fx.
  2:{ destruct x as [s|s|s p H|s m ex H]; try discriminate; destruct y as [s'|s'|s' p' H'|s' m' ex' H']; try discriminate.
      unfold f32_add, Bplus. cbn. destruct (eqb s s'); cbn; discriminate. }
  destruct (is_finite 24 128 y) eqn:Fy.
  2:{ destruct y as [s|s|s p H|s m ex H]; try discriminate; destruct x; discriminate. }
  intros E. unfold f32_add in E.
  pose proof (Bplus_correct 24 128 f32_prec f32_emax (nan_add e) BinarySingleNaN.mode_NE x y Fx Fy) as C.
  fold f32 in E. rewrite E in C.
  destruct (Rlt_bool _ _).
  - destruct C as (C1 & _ & C3). cbn [B2R neg_zero] in C1. cbn [Bsign neg_zero] in C3.
    assert (Z0 : (B2R 24 128 x + B2R 24 128 y = 0)%R).
    { destruct (Req_dec (B2R 24 128 x + B2R 24 128 y) 0) as [Z0|NZ]; [exact Z0|exfalso].
      revert C1. apply not_eq_sym. apply round_plus_neq_0; try apply generic_format_B2R.
      - exact (@FLT_exp_valid (3 - 128 - 24) 24 f32_prec).
      - exact (@monotone_exp_not_FTZ _ (@FLT_exp_valid (3 - 128 - 24) 24 f32_prec) (@FLT_exp_monotone (3 - 128 - 24) 24)).
      - apply valid_rnd_N.
      - exact NZ. }
    rewrite Rcompare_Eq in C3 by exact Z0.
    symmetry in C3. apply andb_prop in C3. destruct C3 as [Sx Sy].
    destruct x as [s|s|s p H|s m ex H]; try discriminate.
    + cbn in Sx. subst s. apply Hx. reflexivity.
    + cbn in Sx. subst s.
      assert (Px : (B2R 24 128 (B754_finite 24 128 true m ex H) < 0)%R).
      { apply F2R_lt_0. reflexivity. }
      assert (Py : (B2R 24 128 y <= 0)%R).
      { destruct y as [s|s|s p' H'|s m' ex' H']; cbn in Sy; try discriminate; subst; try (cbn; lra).
        left. apply F2R_lt_0. reflexivity. }
      lra.
  - destruct C as (C1 & _). discriminate.
Qed.

Lemma fold_not_neg_zero e l x : x <> neg_zero -> fold_left (f32_add e) l x <> neg_zero.
Proof.
  revert x; induction l as [|a l IH]; intros x H; simpl; [exact H|]. apply IH. apply add_not_neg_zero. exact H.
Qed.

(** ** relu: [f32::max] against the comparison *)
Definition relu (x : f32) : f32 := if f32_gtb x f32_zero then x else f32_zero.

Lemma rank_zero_inv x : isnan x = false -> rank x = 0 -> x = f32_zero \/ x = neg_zero.
Proof.
  intros N H. destruct x as [s|s|s p Hp|s m ex Hb]; try discriminate.
  - destruct s; [right|left]; reflexivity.
  - pose proof inf_pos. unfold rank in H. destruct s; lra.
  - exfalso. unfold rank, B2R in H. apply eq_0_F2R in H. destruct s; discriminate.
Qed.

Lemma max_relu e x : x <> neg_zero -> f32_max e x f32_zero = relu x.
Proof.
  intros Hx. unfold f32_max, relu, f32_gtb. destruct (isnan x) eqn:N.
  { rewrite cmp_nan_l by assumption. reflexivity. }
  cbn [is_nan f32_zero]. rewrite cmp_rank by (assumption || reflexivity).
  destruct (Rcompare_spec (rank x) (rank f32_zero)) as [L|E|G]; try reflexivity.
  destruct (rank_zero_inv x N) as [-> | ->]; [exact E| |contradiction].
  destruct (max_zero e f32_zero f32_zero); reflexivity.
Qed.

Lemma relu_same x y : same x y -> relu x = relu y.
Proof.
  intros [->|[Hx Hy]]; [reflexivity|]. unfold relu, f32_gtb. rewrite !cmp_nan_l by assumption. reflexivity.
Qed.

Lemma relu_not_nan x : isnan (relu x) = false.
Proof.
  unfold relu. destruct (f32_gtb x f32_zero) eqn:E; [|reflexivity]. apply gtb_true in E. apply E.
Qed.

Lemma relu_nonneg x : 0 <= rank (relu x).
Proof.
  unfold relu. destruct (f32_gtb x f32_zero) eqn:E; [|cbn; lra].
  apply gtb_true in E. destruct E as (_ & _ & E). cbn in E. lra.
Qed.

(** ** Sums computed in two environments *)
Lemma fold_same e1 e2 l l' x x' :
  Forall2 same l l' -> same x x' -> same (fold_left (f32_add e1) l x) (fold_left (f32_add e2) l' x').
Proof.
  intros H. revert x x'. induction H as [|a a' l l' Ha Hl IH]; intros x x' Hx; simpl; [exact Hx|].
  apply IH. apply add_same; assumption.
Qed.
