(** * Rounded sums, one term at a time *)
From Coq Require Import Reals Lra ZifyBool ZifyNat ZifyN.
From Flocq Require Import Core IEEE754.Binary.
From Verif Require Import Base Arith Spec SpecReal Loops RealArith RealSums Float32 Float32Facts SpecError FloatError SpecNetError SpecGridBack ProofsNetError SpecGradError.
Local Open Scope R_scope.

Lemma bound_mono n a a' : a <= a' -> bound n a <= bound n a'.
Proof. intros H. unfold bound. pose proof (pow_1u_ge n). apply Rplus_le_compat_r. apply Rmult_le_compat_l; lra. Qed.

Lemma bound_pos n a : 0 <= a -> 0 <= bound n a.
Proof.
  intros H. unfold bound. pose proof (pow_1u_ge n). pose proof eta_pos. pose proof (pos_INR n). apply Rplus_le_le_0_compat; repeat apply Rmult_le_pos; lra.
Qed.

Lemma bound_more n m a : (n <= m)%nat -> 0 <= a -> bound n a <= bound m a.
Proof.
  intros H P. unfold bound. pose proof (pow_1u_mono n m H) as Q. pose proof eta_pos. pose proof (pos_INR n). pose proof (le_INR _ _ H). pose proof (pow_1u_ge n).
  apply Rplus_le_compat; [apply Rmult_le_compat_r; lra|]. apply Rmult_le_compat_r; [lra|]. apply Rmult_le_compat; lra.
Qed.

Lemma sum_fits_mono n m a a' : (n <= m)%nat -> 0 <= a <= a' -> sum_fits m a' -> sum_fits n a.
Proof. intros H P F. unfold sum_fits in *. eapply Rle_trans; [|exact F]. apply total_mono; assumption. Qed.

(** [x] is [z] up to one rounding. *)
Definition rounded (x : f32) (z : R) : Prop := fin x = true /\ exists d h, Rabs d <= u /\ Rabs h <= eta /\ real x = z * (1 + d) + h.

Lemma rounded_self x : fin x = true -> rounded x (real x).
Proof. intros F. split; [exact F|]. exists 0, 0. rewrite Rabs_R0. pose proof u_pos. pose proof eta_pos. split; [lra|]. split; [lra|ring]. Qed.

Lemma rounded_mul e x y : fin x = true -> fin y = true -> Rabs (real x * real y) <= 2 ^ 127 -> rounded (f32_mul e x y) (real x * real y).
Proof.
  intros Fx Fy H. destruct (mul_bounded e x y Fx Fy H) as (F & E). split; [exact F|]. destruct (mul_error (real x) (real y)) as (d & h & Hd & Hh & E2).
  exists d, h. rewrite E, E2. auto.
Qed.

Lemma rounded_diff x z : rounded x z -> Rabs (real x - z) <= u * Rabs z + eta.
Proof.
  intros (_ & d & h & Hd & Hh & ->). replace (z * (1 + d) + h - z) with (z * d + h) by ring. eapply Rle_trans; [apply Rabs_triang|]. rewrite Rabs_mult.
  apply Rplus_le_compat; [|exact Hh]. rewrite Rmult_comm. apply Rmult_le_compat_r; [apply Rabs_pos|exact Hd].
Qed.

(** A running sum [x] of [n] terms that stands for [S]. *)
Definition partial (n : nat) (A : R) (x : f32) (S : R) : Prop :=
  fin x = true /\ Rabs S <= A /\ Rabs (real x - S) <= bound n A /\ (n = 0%nat -> S = 0).

Lemma partial_zero A : 0 <= A -> partial 0 A f32_zero 0.
Proof.
  intros H. split; [reflexivity|]. change (real f32_zero) with 0. rewrite Rminus_0_r, Rabs_R0. split; [exact H|]. split; [apply bound_pos; exact H|reflexivity].
Qed.

Lemma partial_mono n m A A' x S : (n <= m)%nat -> A <= A' -> partial n A x S -> partial m A' x S.
Proof.
  intros H L (F & P & E & Z). split; [exact F|]. split; [lra|]. pose proof (Rabs_pos S). split; [|intros; apply Z; lia].
  eapply Rle_trans; [exact E|]. eapply Rle_trans; [apply bound_mono; exact L|]. apply bound_more; [exact H|lra].
Qed.

Lemma partial_one A x z : rounded x z -> Rabs z <= A -> partial 1 A x z.
Proof.
  intros Rx H. split; [apply Rx|]. split; [exact H|]. split; [|discriminate]. eapply Rle_trans; [exact (rounded_diff _ _ Rx)|].
  unfold bound. cbn [INR]. rewrite pow_1. pose proof u_pos. pose proof eta_pos. assert (u * Rabs z <= u * A) by (apply Rmult_le_compat_l; lra).
  assert (0 <= u * eta) by (apply Rmult_le_pos; lra). lra.
Qed.

(** Adding zero first changes nothing. *)
Lemma rounded_zero e x z : rounded x z -> rounded (f32_add e f32_zero x) z.
Proof.
  intros (F & d & h & Hd & Hh & E). assert (B : Rabs (0 + real x) < bpow radix2 128). { rewrite Rplus_0_l. apply (abs_B2R_lt_emax 24 128 x). }
  pose proof (Binary.Bplus_correct 24 128 f32_prec f32_emax (nan_add e) BinarySingleNaN.mode_NE f32_zero x eq_refl F) as C.
  change (B2R 24 128 f32_zero) with 0 in C. rewrite Rplus_0_l in *. change (B2R 24 128 x) with (real x) in C.
  change (round radix2 (SpecFloat.fexp 24 128) (BinarySingleNaN.round_mode BinarySingleNaN.mode_NE) (real x)) with (rnd (real x)) in C.
  rewrite rnd_real in C. rewrite Rlt_bool_true in C by exact B. destruct C as (C1 & C2 & _).
  split; [exact C2|]. exists d, h. split; [exact Hd|]. split; [exact Hh|]. etransitivity; [exact C1|exact E].
Qed.

Lemma partial_step e n A x S y z : partial n A x S -> rounded y z -> sum_fits (n + 1) (A + Rabs z) ->
  partial (n + 1) (A + Rabs z) (f32_add e x y) (S + z).
Proof.
  intros (Fx & PS & Ex & Z0) Ry Ft. pose proof Ry as (Fy & d1 & h & Hd & Hh & Ey). pose proof (rounded_diff _ _ Ry) as Dy. unfold sum_fits in Ft.
  pose proof u_pos as Pu. pose proof eta_pos as Pe. pose proof (Rabs_pos z) as Pz. pose proof (Rabs_pos S) as PS0.
  assert (By : Rabs (real y) <= Rabs z * (1 + u) + eta).
  { replace (real y) with ((real y - z) + z) by ring. eapply Rle_trans; [apply Rabs_triang|]. lra. }
  assert (HS : Rabs (S + z) <= A + Rabs z) by (eapply Rle_trans; [apply Rabs_triang|lra]).
  destruct n as [|n].
  - (* the first term *)
    specialize (Z0 eq_refl). subst S. change (0 + 1)%nat with 1%nat in *. rewrite Rplus_0_l in *.
    replace (bound 0 A) with 0 in Ex by (unfold bound; cbn; ring). rewrite Rminus_0_r in Ex.
    assert (X0 : real x = 0). { destruct (Req_dec (real x) 0) as [Q|Q]; [exact Q|]. apply Rabs_pos_lt in Q. lra. }
    rewrite pow_1 in Ft. cbn [INR] in Ft. rewrite Rmult_1_l in Ft.
    assert (0 <= u * A) by (apply Rmult_le_pos; lra). assert (0 <= u * Rabs z) by (apply Rmult_le_pos; lra). assert (0 <= u * eta) by (apply Rmult_le_pos; lra).
    destruct (add_bounded e x y Fx Fy) as (F & E). { rewrite X0, Rplus_0_l. lra. }
    rewrite X0, Rplus_0_l, rnd_real in E. apply partial_one; [|exact HS]. split; [exact F|]. exists d1, h. rewrite E. auto.
  - destruct (add_bounded e x y Fx Fy) as (F & E).
    { eapply Rle_trans; [|exact Ft]. apply (step_small (Datatypes.S n) (real x) S A z (real y)); [lia|exact PS|exact Ex|exact By]. }
    destruct (plus_error x y) as (d2 & H2 & E2). split; [exact F|]. split; [exact HS|]. split; [|lia]. rewrite E, E2, Ey. apply step_error; try assumption. lia.
Qed.

(** A sum of terms, each known up to one rounding. *)
Lemma sum_partial e {I} (t : I -> f32) (z : I -> R) l : (forall p, In p l -> rounded (t p) (z p)) ->
  forall n A x S, partial n A x S -> sum_fits (n + length l) (A + Rsum (map (fun p => Rabs (z p)) l)) ->
  partial (n + length l) (A + Rsum (map (fun p => Rabs (z p)) l)) (fold_left (f32_add e) (map t l) x) (S + Rsum (map z l)).
Proof.
  induction l as [|p l IH]; intros Hl n A x S P Ft; cbn [map fold_left length] in *.
  - change (Rsum []) with 0 in *. rewrite !Rplus_0_r in *. rewrite Nat.add_0_r in *. exact P.
  - rewrite !Rsum_cons in *. replace (n + Datatypes.S (length l))%nat with (n + 1 + length l)%nat in * by lia.
    assert (0 <= Rsum (map (fun p => Rabs (z p)) l)) by (apply Rsum_nonneg; intros; apply Rabs_pos). pose proof (Rabs_pos (z p)). assert (0 <= A) by (destruct P as (_ & Q & _); pose proof (Rabs_pos S); lra).
    rewrite <- !Rplus_assoc in *. apply IH; [intros; apply Hl; right; assumption| |exact Ft].
    apply partial_step; [exact P|apply Hl; left; reflexivity|]. eapply sum_fits_mono; [| |exact Ft]; [lia|lra].
Qed.

Lemma sum_near e {I} (t : I -> f32) (z : I -> R) l n A : (forall p, In p l -> rounded (t p) (z p)) -> (length l <= n)%nat ->
  Rsum (map (fun p => Rabs (z p)) l) <= A -> sum_fits n A ->
  fin (fold_left (f32_add e) (map t l) f32_zero) = true /\ Rabs (real (fold_left (f32_add e) (map t l) f32_zero) - Rsum (map z l)) <= bound n A.
Proof.
  intros Hl Hn HA Ft. assert (P0 : 0 <= Rsum (map (fun p => Rabs (z p)) l)) by (apply Rsum_nonneg; intros; apply Rabs_pos).
  destruct (sum_partial e t z l Hl 0 0 f32_zero 0 (partial_zero 0 (Rle_refl 0))) as (F & _ & E & _).
  - rewrite Rplus_0_l. eapply sum_fits_mono; [| |exact Ft]; [exact Hn|lra].
  - rewrite !Rplus_0_l in E. split; [exact F|]. eapply Rle_trans; [exact E|]. eapply Rle_trans; [apply bound_mono; exact HA|]. apply bound_more; [exact Hn|lra].
Qed.

Lemma fits_big n A : 0 <= A -> sum_fits n A -> A <= 2 ^ 127.
Proof.
  intros H Ft. eapply Rle_trans; [|exact Ft]. pose proof (pow_1u_ge n). pose proof (pos_INR n). pose proof eta_pos. assert (0 <= INR n * eta) by (apply Rmult_le_pos; lra).
  rewrite <- (Rmult_1_l A) at 1. apply Rmult_le_compat; lra.
Qed.

(** [x] is a rounded sum of [k] terms of at most [Q], each within [D] of the terms of the exact sum [y]. *)
Definition tracked (k : nat) (Q D : R) (x : f32) (y : R) : Prop := exists S, partial k (INR k * Q) x S /\ Rabs (S - y) <= INR k * D.

Lemma tracked_zero Q D : tracked 0 Q D f32_zero 0.
Proof.
  exists 0. cbn [INR]. rewrite !Rmult_0_l. split; [apply partial_zero; lra|]. rewrite Rminus_0_r, Rabs_R0. lra.
Qed.

Lemma tracked_step e k K Q D x y t z y' : tracked k Q D x y -> rounded t z -> Rabs z <= Q -> Rabs (z - y') <= D ->
  (k + 1 <= K)%nat -> sum_fits K (INR K * Q) -> tracked (k + 1) Q D (f32_add e x t) (y + y').
Proof.
  intros (S & P & E) Rt Hz Hd Hk Ft. exists (S + z). rewrite plus_INR. cbn [INR]. pose proof (Rabs_pos z) as Pz. pose proof (pos_INR k) as Pk.
  assert (0 <= INR k * Q) by (apply Rmult_le_pos; lra).
  split.
  - apply partial_mono with (n := (k + 1)%nat) (A := INR k * Q + Rabs z); [lia|lra|]. apply partial_step; [exact P|exact Rt|].
    eapply sum_fits_mono; [exact Hk| |exact Ft]. split; [lra|]. apply le_INR in Hk. rewrite plus_INR in Hk. cbn [INR] in Hk.
    apply Rle_trans with ((INR k + 1) * Q); [lra|]. apply Rmult_le_compat_r; lra.
  - replace (S + z - (y + y')) with ((S - y) + (z - y')) by ring. eapply Rle_trans; [apply Rabs_triang|]. lra.
Qed.

Lemma tracked_error k Q D x y : tracked k Q D x y -> fin x = true /\ Rabs (real x - y) <= INR k * D + bound k (INR k * Q).
Proof.
  intros (S & (F & _ & E & _) & H). split; [exact F|]. replace (real x - y) with ((real x - S) + (S - y)) by ring. eapply Rle_trans; [apply Rabs_triang|]. lra.
Qed.

(** ** Exact multiplications *)
Lemma mul_exactly e x y (z : f32) : fin x = true -> fin y = true -> real x * real y = real z ->
  fin (f32_mul e x y) = true /\ real (f32_mul e x y) = real z.
Proof.
  intros Fx Fy H. pose proof (Binary.Bmult_correct 24 128 f32_prec f32_emax (nan_mul e) BinarySingleNaN.mode_NE x y) as C.
  change (B2R 24 128 x) with (real x) in C. change (B2R 24 128 y) with (real y) in C. rewrite H in C.
  change (round radix2 (SpecFloat.fexp 24 128) (BinarySingleNaN.round_mode BinarySingleNaN.mode_NE) (real z)) with (rnd (real z)) in C.
  rewrite rnd_real in C. rewrite Rlt_bool_true in C by apply (abs_B2R_lt_emax 24 128 z).
  destruct C as (C1 & C2 & _). change (fin (f32_mul e x y) = (fin x && fin y)%bool) in C2. rewrite C2, Fx, Fy. auto.
Qed.

Lemma mul_one e x : fin x = true -> fin (f32_mul e f32_one x) = true /\ real (f32_mul e f32_one x) = real x.
Proof. intros F. apply mul_exactly; [reflexivity|exact F|]. rewrite real_one. ring. Qed.

Lemma mul_nothing e x : fin x = true -> fin (f32_mul e f32_zero x) = true /\ real (f32_mul e f32_zero x) = 0.
Proof. intros F. apply (mul_exactly e f32_zero x f32_zero); [reflexivity|exact F|]. change (real f32_zero) with 0. ring. Qed.

Lemma real_mone : real f32_mone = -1.
Proof. unfold f32_mone. cbn. unfold F2R. cbn. lra. Qed.

Lemma mul_minus_one e x : fin x = true -> fin (f32_mul e x f32_mone) = true /\ real (f32_mul e x f32_mone) = - real x.
Proof.
  intros F. assert (Z : exists z : f32, real z = - real x).
  { destruct x as [s|s|s pl H|s m ex H]; try discriminate F; [exists f32_zero; cbn; ring|]. exists (B754_finite 24 128 (negb s) m ex H).
    unfold real, B2R. destruct s; cbn [negb SpecFloat.cond_Zopp]; unfold F2R; cbn [Fnum Fexp]; rewrite <- ?Pos2Z.opp_pos, opp_IZR; ring. }
  destruct Z as (z & Ez). rewrite <- Ez. apply mul_exactly; [exact F|reflexivity|]. rewrite real_mone, Ez. ring.
Qed.
