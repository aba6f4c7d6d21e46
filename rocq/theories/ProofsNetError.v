(** * C65: a whole network in f32 against the same network in exact arithmetic *)
From Coq Require Import Reals Lra ZifyBool ZifyNat ZifyN.
From Flocq Require Import Core IEEE754.Binary.
From Verif Require Import Base Arith Helper Tensor Network Bincode Serial Spec SpecLayer SpecNet SpecReal SpecTrain Loops TensorFacts OpsFacts ProofsTensor LayerFacts NetFacts NetRun ProofsNet.
From Verif Require Import Float32 Float32Facts RealArith RealSums SpecError FloatError ProofsFloat ProofsError ProofsGrad SpecNetError.
Local Open Scope R_scope.

#[local] Instance prec24 : Prec_gt_0 24 := eq_refl.

(** ** No overflow *)
Lemma rnd_below z : Rabs z <= 2 ^ 127 -> Rabs (rnd z) < bpow radix2 128.
Proof.
  intros H. apply Rle_lt_trans with (bpow radix2 127); [|apply bpow_lt; lia].
  apply (abs_round_le_generic radix2 (FLT_exp (-149) 24) ZnearestE).
  - apply generic_format_bpow. unfold FLT_exp. lia.
  - replace (bpow radix2 127) with (2 ^ 127); [exact H|]. rewrite bpow_powerRZ. reflexivity.
Qed.

Lemma add_bounded e x y : fin x = true -> fin y = true -> Rabs (real x + real y) <= 2 ^ 127 ->
  fin (f32_add e x y) = true /\ real (f32_add e x y) = rnd (real x + real y).
Proof.
  intros Fx Fy H. pose proof (Binary.Bplus_correct 24 128 f32_prec f32_emax (nan_add e) BinarySingleNaN.mode_NE x y Fx Fy) as C.
  rewrite Rlt_bool_true in C; [|apply (rnd_below _ H)]. destruct C as (C1 & C2 & _). split; [exact C2|exact C1].
Qed.

Lemma mul_bounded e x y : fin x = true -> fin y = true -> Rabs (real x * real y) <= 2 ^ 127 ->
  fin (f32_mul e x y) = true /\ real (f32_mul e x y) = rnd (real x * real y).
Proof.
  intros Fx Fy H. pose proof (Binary.Bmult_correct 24 128 f32_prec f32_emax (nan_mul e) BinarySingleNaN.mode_NE x y) as C.
  rewrite Rlt_bool_true in C; [|apply (rnd_below _ H)]. destruct C as (C1 & C2 & _). split; [|exact C1].
  change (fin (f32_mul e x y) = (fin x && fin y)%bool) in C2. rewrite C2, Fx, Fy. reflexivity.
Qed.

Lemma div_bounded e x y : fin x = true -> fin y = true -> real y <> 0 -> Rabs (real x / real y) <= 2 ^ 127 ->
  fin (f32_div e x y) = true /\ real (f32_div e x y) = rnd (real x / real y).
Proof.
  intros Fx Fy Z H. pose proof (Binary.Bdiv_correct 24 128 f32_prec f32_emax (nan_div e) BinarySingleNaN.mode_NE x y Z) as C.
  rewrite Rlt_bool_true in C; [|apply (rnd_below _ H)]. destruct C as (C1 & C2 & _). split; [|exact C1].
  change (fin (f32_div e x y) = fin x) in C2. rewrite C2. exact Fx.
Qed.

Notation exact l := (Rsum (map (fun p => real (fst p) * real (snd p)) l)).
Notation absolute l := (Rsum (map (fun p => Rabs (real (fst p) * real (snd p))) l)).

Lemma absolute_pos (l : list (f32 * f32)) : 0 <= absolute l.
Proof. apply Rsum_nonneg. intros x _. apply Rabs_pos. Qed.

Lemma pow_1u_mono n m : (n <= m)%nat -> (1 + u) ^ n <= (1 + u) ^ m.
Proof. intros H. apply Rle_pow; [|exact H]. pose proof u_pos. lra. Qed.

Lemma bound_total n A : 0 <= A -> A + bound n A = (1 + u) ^ n * (A + INR n * eta).
Proof. intros _. unfold bound. ring. Qed.

(** A partial sum [x], an approximation of [S], and the next product. *)
Lemma step_small n (x S A z p : R) : (1 <= n)%nat -> Rabs S <= A -> Rabs (x - S) <= bound n A -> Rabs p <= Rabs z * (1 + u) + eta ->
  Rabs (x + p) <= (1 + u) ^ (n + 1) * (A + Rabs z + INR (n + 1) * eta).
Proof.
  intros Hn HS Hx Hp. pose proof u_pos. pose proof eta_pos. assert (HA : 0 <= A) by (pose proof (Rabs_pos S); lra).
  assert (Rabs x <= A + bound n A). { replace x with ((x - S) + S) by ring. eapply Rle_trans; [apply Rabs_triang|]. lra. }
  rewrite bound_total in * by exact HA. eapply Rle_trans; [apply Rabs_triang|]. eapply Rle_trans; [apply Rplus_le_compat; eassumption|].
  rewrite pow_add, pow_1, plus_INR. cbn [INR]. pose proof (pow_1u_ge n) as Pn. set (q := (1 + u) ^ n) in *. pose proof (pos_INR n) as Pi. pose proof (Rabs_pos z) as Pz.
  set (v := A + INR n * eta). assert (0 <= v). { unfold v. apply Rplus_le_le_0_compat; [exact HA|]. apply Rmult_le_pos; lra. }
  replace (q * (1 + u) * (A + Rabs z + (INR n + 1) * eta)) with (q * (1 + u) * v + q * (1 + u) * Rabs z + q * (1 + u) * eta) by (unfold v; ring).
  assert (q * v <= q * (1 + u) * v). { rewrite (Rmult_comm q (1 + u)), Rmult_assoc. rewrite <- (Rmult_1_l (q * v)) at 1. apply Rmult_le_compat_r; [|lra]. apply Rmult_le_pos; lra. }
  assert (1 * (1 + u) <= q * (1 + u)) by (apply Rmult_le_compat_r; lra).
  assert (Rabs z * (1 + u) <= q * (1 + u) * Rabs z). { rewrite (Rmult_comm (q * (1 + u))). apply Rmult_le_compat_l; lra. }
  assert (1 * eta <= q * (1 + u) * eta) by (apply Rmult_le_compat_r; lra). lra.
Qed.

Lemma total_mono n m A B : (n <= m)%nat -> 0 <= A <= B -> (1 + u) ^ n * (A + INR n * eta) <= (1 + u) ^ m * (B + INR m * eta).
Proof.
  intros H HA. pose proof u_pos. pose proof eta_pos. pose proof (pos_INR n). pose proof (le_INR _ _ H). pose proof (pow_1u_ge n).
  assert (0 <= INR n * eta) by (apply Rmult_le_pos; lra).
  apply Rmult_le_compat; [lra|lra|apply pow_1u_mono; exact H|]. apply Rplus_le_compat; [lra|]. apply Rmult_le_compat_r; lra.
Qed.

Lemma fold_fin e (l : list (f32 * f32)) n x S A : (1 <= n)%nat -> Rabs S <= A -> fin x = true -> Rabs (real x - S) <= bound n A ->
  (forall p, In p l -> fin (fst p) = true /\ fin (snd p) = true) ->
  (1 + u) ^ (n + length l) * (A + absolute l + INR (n + length l) * eta) <= 2 ^ 127 ->
  fin (fold_left (f32_add e) (map (fun p => f32_mul e (fst p) (snd p)) l) x) = true.
Proof.
  revert n x S A; induction l as [|(a & b) l IH]; intros n x S A Hn HS Fx He Hl Hb; cbn [map fold_left length fst snd] in *; [exact Fx|].
  rewrite Rsum_cons in Hb. cbn [fst snd] in Hb. replace (n + Datatypes.S (length l))%nat with ((n + 1) + length l)%nat in Hb by lia.
  destruct (Hl (a, b) (or_introl eq_refl)) as (Fa & Fb). cbn [fst snd] in Fa, Fb.
  pose proof (absolute_pos l) as Pl. set (z := real a * real b) in *. pose proof (Rabs_pos z) as Pz.
  assert (HA : 0 <= A) by (pose proof (Rabs_pos S); lra). pose proof u_pos. pose proof eta_pos.
  assert (L1 : (1 + u) ^ (n + 1) * (A + Rabs z + INR (n + 1) * eta) <= 2 ^ 127).
  { eapply Rle_trans; [|exact Hb]. apply total_mono; [lia|]. lra. }
  destruct (mul_bounded e a b Fa Fb) as (Fm & Em).
  { fold z. eapply Rle_trans; [|exact L1]. rewrite <- (Rmult_1_l (Rabs z)) at 1. pose proof (pos_INR (n + 1)). pose proof (pow_1u_ge (n + 1)).
    assert (0 <= INR (n + 1) * eta) by (apply Rmult_le_pos; lra). apply Rmult_le_compat; lra. }
  destruct (mul_error (real a) (real b)) as (d1 & h & H1 & Hh & E1). fold z in E1, Em.
  assert (Pm : Rabs (real (f32_mul e a b)) <= Rabs z * (1 + u) + eta).
  { rewrite Em, E1. eapply Rle_trans; [apply Rabs_triang|]. apply Rplus_le_compat; [|exact Hh]. rewrite Rabs_mult. apply Rmult_le_compat_l; [exact Pz|].
    eapply Rle_trans; [apply Rabs_triang|]. rewrite Rabs_R1. lra. }
  destruct (add_bounded e x (f32_mul e a b) Fx Fm) as (Fs & Es).
  { eapply Rle_trans; [|exact L1]. eapply step_small; eassumption. }
  apply IH with (n := (n + 1)%nat) (S := S + z) (A := A + Rabs z); [lia| |exact Fs| |intros p Hp; apply Hl; right; exact Hp|].
  - eapply Rle_trans; [apply Rabs_triang|]. lra.
  - destruct (plus_error x (f32_mul e a b)) as (d2 & H2 & E2). rewrite Es, E2, Em, E1. apply step_error; assumption.
  - rewrite <- !Rplus_assoc in *. exact Hb.
Qed.

Lemma dot_fin e (l : list (f32 * f32)) : (forall p, In p l -> fin (fst p) = true /\ fin (snd p) = true) ->
  (1 + u) ^ (length l) * (absolute l + INR (length l) * eta) <= 2 ^ 127 ->
  fin (fold_left (f32_add e) (map (fun p => f32_mul e (fst p) (snd p)) l) f32_zero) = true.
Proof.
  intros Hl Hb. destruct l as [|(a & b) l]; cbn [map fold_left length fst snd] in *; [reflexivity|]. rewrite Rsum_cons in Hb. cbn [fst snd] in Hb.
  change (Datatypes.S (length l)) with (1 + length l)%nat in Hb.
  destruct (Hl (a, b) (or_introl eq_refl)) as (Fa & Fb). cbn [fst snd] in Fa, Fb.
  pose proof (absolute_pos l) as Pl. set (z := real a * real b) in *. pose proof (Rabs_pos z) as Pz. pose proof u_pos. pose proof eta_pos.
  assert (L1 : (1 + u) ^ 1 * (Rabs z + INR 1 * eta) <= 2 ^ 127).
  { eapply Rle_trans; [|exact Hb]. apply total_mono; [lia|]. lra. }
  cbn [INR] in L1. rewrite pow_1, Rmult_1_l in L1.
  assert (0 <= u * Rabs z) by (apply Rmult_le_pos; lra). assert (0 <= u * eta) by (apply Rmult_le_pos; lra).
  destruct (mul_bounded e a b Fa Fb) as (Fm & Em). { fold z. lra. }
  destruct (mul_error (real a) (real b)) as (d1 & h & Hd1 & Hh & E1). fold z in E1, Em.
  assert (Q : Rabs (real (f32_mul e a b) - z) <= Rabs z * u + eta).
  { rewrite Em, E1. replace (z * (1 + d1) + h - z) with (z * d1 + h) by ring. eapply Rle_trans; [apply Rabs_triang|]. rewrite Rabs_mult.
    apply Rplus_le_compat; [|exact Hh]. apply Rmult_le_compat_l; assumption. }
  assert (Pm : Rabs (real (f32_mul e a b)) <= Rabs z * (1 + u) + eta).
  { replace (real (f32_mul e a b)) with ((real (f32_mul e a b) - z) + z) by ring. eapply Rle_trans; [apply Rabs_triang|]. lra. }
  destruct (add_bounded e f32_zero (f32_mul e a b) eq_refl Fm) as (Fs & Es).
  { replace (real f32_zero) with 0 by reflexivity. rewrite Rplus_0_l. lra. }
  replace (real f32_zero) with 0 in Es by reflexivity. rewrite Rplus_0_l, rnd_real in Es.
  apply (fold_fin e l 1 _ z (Rabs z)); [lia|lra|exact Fs| |intros p Hp; apply Hl; right; exact Hp|].
  - rewrite Es. unfold bound. cbn [INR]. rewrite pow_1. eapply Rle_trans; [exact Q|]. lra.
  - exact Hb.
Qed.

(** ** Weighted sums with a bias *)
Lemma bound_biased_mono n A A' B B' : A <= A' -> B <= B' -> bound_biased n A B <= bound_biased n A' B'.
Proof.
  intros HA HB. unfold bound_biased. pose proof (pow_1u_ge (n + 1)). apply Rplus_le_compat_r. apply Rmult_le_compat_l; lra.
Qed.

Section Sums.
Context (e : env).
#[local] Hint Extern 0 (Arith f32) => exact (f32_arith e) : typeclass_instances.

Lemma biased_fin {A} (l : list A) (f g : A -> f32) b S B :
  (forall p, In p l -> fin (f p) = true /\ fin (g p) = true) -> fin b = true ->
  Rsum (map (fun p => Rabs (real (f p) * real (g p))) l) <= S -> Rabs (real b) <= B -> fits_f32 (length l) S B ->
  let s := fadd (sum (map (fun p => fmul (f p) (g p)) l)) b in
  fin s = true /\ Rabs (real s - (Rsum (map (fun p => real (f p) * real (g p)) l) + real b)) <= bound_biased (length l) S B.
Proof.
  intros Hl Fb HS HB Hf s. pose proof u_pos. pose proof eta_pos. unfold fits_f32 in Hf. rewrite pow_add, pow_1 in Hf.
  set (l2 := map (fun p => (f p, g p)) l).
  assert (El : length l2 = length l) by (unfold l2; apply map_length).
  assert (Ea : absolute l2 = Rsum (map (fun p => Rabs (real (f p) * real (g p))) l)) by (unfold l2; rewrite map_map; reflexivity).
  assert (Es : sum (map (fun p => fmul (f p) (g p)) l) = fold_left (f32_add e) (map (fun p => f32_mul e (fst p) (snd p)) l2) f32_zero)
    by (unfold l2; rewrite map_map; reflexivity).
  set (n := length l) in *. pose proof (pow_1u_ge n) as Pn. set (q := (1 + u) ^ n) in *. pose proof (pos_INR n) as Pi.
  assert (P0 : 0 <= absolute l2) by apply absolute_pos. pose proof (Rabs_pos (real b)) as Pb.
  assert (Pe : 0 <= INR n * eta) by (apply Rmult_le_pos; lra).
  set (S' := absolute l2) in *.
  assert (T0 : q * (S' + INR n * eta) + Rabs (real b) <= 2 ^ 127).
  { eapply Rle_trans; [|exact Hf]. assert (q * (S' + INR n * eta) <= q * (S + INR n * eta)) by (apply Rmult_le_compat_l; lra).
    assert (1 * Rabs (real b) <= q * B) by (apply Rmult_le_compat; lra).
    assert (0 <= q * (S + B + INR n * eta)) by (apply Rmult_le_pos; lra).
    assert (0 <= u * (q * (S + B + INR n * eta))) by (apply Rmult_le_pos; lra). lra. }
  assert (F1 : fin (sum (map (fun p => fmul (f p) (g p)) l)) = true).
  { rewrite Es. apply dot_fin.
    - intros p Hp. unfold l2 in Hp. apply in_map_iff in Hp. destruct Hp as (x & <- & Hx). apply Hl. exact Hx.
    - rewrite El. fold q. fold S'. lra. }
  pose proof (sum_error e l f g F1) as Q. fold n in Q. rewrite <- Ea in Q. fold S' in Q.
  set (s0 := sum (map (fun p => fmul (f p) (g p)) l)) in *. set (X := Rsum (map (fun p => real (f p) * real (g p)) l)) in *.
  assert (HX : Rabs X <= S'). { rewrite Ea. unfold X. apply Rabs_Rsum. }
  assert (Fs : fin s = true).
  { apply add_bounded; [exact F1|exact Fb|]. eapply Rle_trans; [apply Rabs_triang|].
    assert (Rabs (real s0) <= S' + bound n S'). { replace (real s0) with ((real s0 - X) + X) by ring. eapply Rle_trans; [apply Rabs_triang|]. lra. }
    rewrite bound_total in * by lra. fold q in H1. lra. }
  split; [exact Fs|]. eapply Rle_trans; [exact (biased_error e l f g b Fs)|]. apply bound_biased_mono; [exact HS|exact HB].
Qed.

(** Products of weights [f] with inputs [g] that stand for [g']. *)
Lemma affine_near {A} (l : list A) (f g : A -> f32) (g' : A -> R) b a d w B :
  0 <= a -> 0 <= d -> 0 <= w -> (forall p, In p l -> fin (f p) = true) -> fin b = true ->
  (forall p, In p l -> fin (g p) = true /\ Rabs (real (g p) - g' p) <= d /\ Rabs (g' p) <= a) ->
  Rsum (map (fun p => Rabs (real (f p))) l) <= w -> Rabs (real b) <= B -> fits_f32 (length l) (w * (a + d)) B ->
  let z := Rsum (map (fun p => real (f p) * g' p) l) + real b in
  (let s := fadd (sum (map (fun p => fmul (f p) (g p)) l)) b in
   fin s = true /\ Rabs (real s - z) <= w * d + bound_biased (length l) (w * (a + d)) B)
  /\ (let s := fadd (sum (map (fun p => fmul (g p) (f p)) l)) b in
   fin s = true /\ Rabs (real s - z) <= w * d + bound_biased (length l) (w * (a + d)) B)
  /\ Rabs z <= w * a + B.
Proof.
  intros Ha Hd Hw Ff Fb Hg HW HB Hfit z.
  assert (Hs : forall c (h : A -> R), 0 <= c -> (forall p, In p l -> Rabs (h p) <= c) -> Rsum (map (fun p => Rabs (real (f p) * h p)) l) <= w * c).
  { intros c h Hc Hh. apply Rle_trans with (Rsum (map (fun p => Rabs (real (f p)) * c) l)).
    - clear - Hh. induction l as [|p l IH]; [cbn; lra|]. cbn [map]. rewrite !Rsum_cons. apply Rplus_le_compat; [|apply IH; intros; apply Hh; right; assumption].
      rewrite Rabs_mult. apply Rmult_le_compat_l; [apply Rabs_pos|]. apply Hh. left. reflexivity.
    - rewrite Rsum_scale_r. apply Rmult_le_compat_r; assumption. }
  assert (S1 : Rsum (map (fun p => Rabs (real (f p) * real (g p))) l) <= w * (a + d)).
  { apply Hs; [lra|]. intros p Hp. destruct (Hg p Hp) as (_ & H1 & H2). replace (real (g p)) with ((real (g p) - g' p) + g' p) by ring.
    eapply Rle_trans; [apply Rabs_triang|]. lra. }
  assert (S2 : Rsum (map (fun p => Rabs (real (g p) * real (f p))) l) <= w * (a + d)).
  { rewrite (Rsum_ext _ (fun p => Rabs (real (f p) * real (g p)))); [exact S1|]. intros p _. rewrite Rmult_comm. reflexivity. }
  assert (D : Rabs (Rsum (map (fun p => real (f p) * real (g p)) l) + real b - z) <= w * d).
  { unfold z. replace (Rsum (map (fun p => real (f p) * real (g p)) l) + real b - (Rsum (map (fun p => real (f p) * g' p) l) + real b))
      with (Rsum (map (fun p => real (f p) * (real (g p) - g' p)) l)).
    - eapply Rle_trans; [apply Rabs_Rsum|]. apply Hs; [exact Hd|]. intros p Hp. apply Hg. exact Hp.
    - rewrite (Rsum_ext _ (fun p => real (f p) * real (g p) + (-1) * (real (f p) * g' p))) by (intros p _; ring).
      rewrite Rsum_plus, Rsum_scale. ring. }
  assert (G : forall s X, Rabs (real s - (X + real b)) <= bound_biased (length l) (w * (a + d)) B -> X = Rsum (map (fun p => real (f p) * real (g p)) l) ->
     Rabs (real s - z) <= w * d + bound_biased (length l) (w * (a + d)) B).
  { intros s X H ->. set (Y := Rsum (map (fun p => real (f p) * real (g p)) l) + real b) in *.
    replace (real s - z) with ((real s - Y) + (Y - z)) by ring. eapply Rle_trans; [apply Rabs_triang|]. lra. }
  split; [|split].
  - destruct (biased_fin l f g b (w * (a + d)) B) with (2 := Fb) (3 := S1) (4 := HB) as (F & E); [intros p Hp; split; [apply Ff|apply Hg]; exact Hp|exact Hfit|].
    split; [exact F|]. eapply G; [exact E|reflexivity].
  - destruct (biased_fin l g f b (w * (a + d)) B) with (2 := Fb) (3 := S2) (4 := HB) as (F & E); [intros p Hp; split; [apply Hg|apply Ff]; exact Hp|exact Hfit|].
    split; [exact F|]. eapply G; [exact E|]. apply Rsum_ext. intros p _. apply Rmult_comm.
  - unfold z. eapply Rle_trans; [apply Rabs_triang|]. apply Rplus_le_compat; [|exact HB]. eapply Rle_trans; [apply Rabs_Rsum|].
    apply Hs; [exact Ha|]. intros p Hp. apply Hg. exact Hp.
Qed.

Lemma relu_near (s : f32) z a d : fin s = true -> Rabs (real s - z) <= d -> Rabs z <= a ->
  fin (relu s) = true /\ Rabs (real (relu s) - Rmax 0 z) <= d /\ Rabs (Rmax 0 z) <= a.
Proof.
  intros Fs H1 H2. assert (R1 : fin (relu s) = true /\ real (relu s) = Rmax 0 (real s)).
  { unfold relu. change fzero with f32_zero. change (fgtb s f32_zero) with (f32_gtb s f32_zero). destruct (f32_gtb s f32_zero) eqn:G.
    - split; [exact Fs|]. apply gtb_true in G. destruct G as (_ & _ & G). rewrite !rank_finite in G by (exact Fs || reflexivity).
      replace (B2R 24 128 f32_zero) with 0 in G by reflexivity. rewrite Rmax_right; [reflexivity|lra].
    - split; [reflexivity|]. rewrite gtb_false in G by (try reflexivity; destruct s; try discriminate Fs; reflexivity).
      rewrite !rank_finite in G by (exact Fs || reflexivity). replace (B2R 24 128 f32_zero) with 0 in G by reflexivity.
      rewrite Rmax_left by lra. reflexivity. }
  destruct R1 as (F & ->). split; [exact F|]. unfold Rmax. apply Rabs_le_inv in H1, H2.
  split; apply Rabs_le; repeat destruct (Rle_dec _ _); lra.
Qed.

(** ** Maxima *)
Lemma max_step (x m : f32) : fin x = true -> fin m = true ->
  fin (if f32_gtb x m then x else m) = true /\ real (if f32_gtb x m then x else m) = Rmax (real m) (real x).
Proof.
  intros Fx Fm. destruct (f32_gtb x m) eqn:G.
  - split; [exact Fx|]. apply gtb_true in G. destruct G as (_ & _ & G). rewrite !rank_finite in G by assumption. rewrite Rmax_right; lra.
  - split; [exact Fm|]. rewrite gtb_false in G by (destruct x, m; try discriminate; reflexivity). rewrite !rank_finite in G by assumption. rewrite Rmax_left; lra.
Qed.

Lemma running_max_near low (l : list (f32 * R)) a d : l <> [] -> low <= - a ->
  (forall p, In p l -> fin (fst p) = true /\ Rabs (real (fst p) - snd p) <= d /\ Rabs (snd p) <= a) ->
  let y := @running_max f32 (f32_arith e) (map fst l) in let z := @running_max R (R_arith low) (map snd l) in
  fin y = true /\ Rabs (real y - z) <= d /\ Rabs z <= a.
Proof.
  intros NE Hlow H. destruct l as [|(x & x') l]; [congruence|].
  assert (G : forall l m m', fin m = true -> Rabs (real m - m') <= d -> Rabs m' <= a ->
    (forall p, In p l -> fin (fst p) = true /\ Rabs (real (fst p) - snd p) <= d /\ Rabs (snd p) <= a) ->
    let y := fold_left (fun m x => if f32_gtb x m then x else m) (map fst l) m in
    let z := fold_left (fun m x => if (if Rlt_dec m x then true else false) then x else m) (map snd l) m' in
    fin y = true /\ Rabs (real y - z) <= d /\ Rabs z <= a).
  { clear. induction l as [|(x & x') l IH]; intros m m' Fm Dm Am H; cbn [map fold_left fst snd]; [auto|].
    destruct (H (x, x') (or_introl eq_refl)) as (Fx & Dx & Ax). cbn [fst snd] in *. destruct (max_step x m Fx Fm) as (F & E).
    apply IH; [exact F| | |intros p Hp; apply H; right; exact Hp].
    - match goal with |- Rabs (?r - _) <= _ => replace r with (Rmax (real m) (real x)) by (symmetry; exact E) end. apply Rabs_le_inv in Dm, Dx. apply Rabs_le. unfold Rmax. destruct (Rle_dec _ _), (Rlt_dec _ _); lra.
    - destruct (Rlt_dec _ _); assumption. }
  destruct (H (x, x') (or_introl eq_refl)) as (Fx & Dx & Ax). cbn [fst snd] in *.
  cbv zeta. unfold running_max. cbn [map fold_left fst snd]. cbn [fgtb fninf f32_arith R_arith].
  assert (E1 : f32_gtb x f32_ninf = true).
  { apply gtb_true. split; [destruct x; try discriminate; reflexivity|]. split; [reflexivity|]. rewrite (rank_finite x Fx).
    pose proof (B2R_bound x). pose proof inf_pos. change (rank f32_ninf) with (- bpow radix2 128). lra. }
  rewrite E1. apply (G l x); [exact Fx| | |intros p Hp; apply H; right; exact Hp].
  - apply Rabs_le_inv in Ax. destruct (Rlt_dec low x'); [exact Dx|]. replace low with x' by lra. exact Dx.
  - apply Rabs_le_inv in Ax. destruct (Rlt_dec low x'); [apply Rabs_le; exact Ax|]. replace low with x' by lra. apply Rabs_le. exact Ax.
Qed.
End Sums.

(** ** Sums of positive numbers, and softmax *)
Lemma sum_pos_fin e l : forall x : f32, fin x = true -> 0 <= real x -> (forall y, In y l -> fin y = true /\ 0 <= real y) ->
  (real x + Rsum (map (fun y : f32 => real y) l)) * (1 + u) ^ length l <= 2 ^ 127 ->
  let t := fold_left (f32_add e) l x in
  fin t = true /\ (1 - u) ^ length l * (real x + Rsum (map (fun y : f32 => real y) l)) <= real t
    /\ real t <= (1 + u) ^ length l * (real x + Rsum (map (fun y : f32 => real y) l)).
Proof.
  induction l as [|a l IH]; intros x Fx Px Hl Hb; cbn [map fold_left length pow] in *.
  - cbn [Rsum fold_right]. split; [exact Fx|]. change (Rsum []) with 0. lra.
  - rewrite Rsum_cons in *. destruct (Hl a (or_introl eq_refl)) as (Fa & Pa). pose proof u_pos as Pu.
    set (S := Rsum (map (fun y : f32 => real y) l)) in *. assert (PS : 0 <= S) by (apply Rsum_nonneg; intros y Hy; apply Hl; right; exact Hy).
    pose proof (pow_1u_ge (length l)) as P1. set (p := (1 + u) ^ length l) in *.
    assert (Bx : (real x + real a + S) * (1 + u) * p <= 2 ^ 127) by (eapply Rle_trans; [|exact Hb]; right; ring).
    assert (Q : (real x + real a + S) * (1 + u) <= (real x + real a + S) * (1 + u) * p).
    { rewrite <- (Rmult_1_r ((real x + real a + S) * (1 + u))) at 1. apply Rmult_le_compat_l; [|exact P1]. apply Rmult_le_pos; lra. }
    assert (0 <= u * (real x + real a + S)) by (apply Rmult_le_pos; lra).
    destruct (add_bounded e x a Fx Fa) as (Fs & Es). { rewrite Rabs_pos_eq by lra. lra. }
    destruct (plus_error x a) as (d & Hd & E2). rewrite E2 in Es. apply Rabs_le_inv in Hd.
    assert (Lo : (real x + real a) * (1 - u) <= real (f32_add e x a)) by (rewrite Es; apply Rmult_le_compat_l; lra).
    assert (Hi : real (f32_add e x a) <= (real x + real a) * (1 + u)) by (rewrite Es; apply Rmult_le_compat_l; lra).
    assert (U1 : u < 1) by (unfold u; lra).
    assert (P2 : 0 <= real (f32_add e x a)). { eapply Rle_trans; [|exact Lo]. apply Rmult_le_pos; lra. }
    assert (0 <= u * S) by (apply Rmult_le_pos; lra).
    destruct (IH (f32_add e x a) Fs P2) as (F & L & H').
    + intros y Hy. apply Hl. right. exact Hy.
    + eapply Rle_trans; [|exact Bx]. fold S. apply Rmult_le_compat_r; lra.
    + fold S in L, H'. fold p in H'. split; [exact F|].
      assert (0 <= (1 - u) ^ length l) by (apply pow_le; lra). split.
      * eapply Rle_trans; [|exact L]. rewrite (Rmult_comm (1 - u)), Rmult_assoc. apply Rmult_le_compat_l; lra.
      * eapply Rle_trans; [exact H'|]. rewrite (Rmult_comm (1 + u)), Rmult_assoc. apply Rmult_le_compat_l; lra.
Qed.

Lemma exp_mono x y : x <= y -> exp x <= exp y.
Proof. intros [H| ->]; [left; apply exp_increasing; exact H|right; reflexivity]. Qed.

Lemma unit_le c n : (1 <= n)%nat -> 0 <= c <= 1 -> c ^ n <= c.
Proof.
  intros Hn Hc. destruct n as [|n]; [lia|]. cbn [pow]. rewrite <- (Rmult_1_r c) at 3. apply Rmult_le_compat_l; [lra|].
  clear Hn. induction n as [|n IH]; cbn [pow]; [lra|]. rewrite <- (Rmult_1_l 1). apply Rmult_le_compat; try lra. apply pow_le. lra.
Qed.

Lemma Rsum_le {A} (f g : A -> R) l : (forall x, In x l -> f x <= g x) -> Rsum (map f l) <= Rsum (map g l).
Proof.
  induction l as [|a l IH]; intros H; cbn [map]; [right; reflexivity|]. rewrite !Rsum_cons.
  apply Rplus_le_compat; [apply H; left; reflexivity|apply IH; intros x Hx; apply H; right; exact Hx].
Qed.

Lemma Rsum_const {A} c (l : list A) : Rsum (map (fun _ => c) l) = INR (length l) * c.
Proof. induction l as [|a l IH]; [cbn; change (Rsum []) with 0; lra|]. cbn [map length]. rewrite Rsum_cons, IH, S_INR. ring. Qed.

(** Quotients [q] of numbers known up to the factors [lo], [hi]. *)
Lemma quotient_near (p q r lo hi n y : R) (k : nat) : (1 <= k)%nat -> 0 < lo -> lo <= hi -> 0 <= p <= 1 ->
  p * lo / (hi * (1 + u) ^ k) <= q <= p * hi / (lo * (1 - u) ^ k) ->
  Rabs r <= u -> Rabs n <= eta -> y = q * (1 + r) + n ->
  Rabs (y - p) <= hi * (1 + u) / (lo * (1 - u) ^ k) - 1 + eta.
Proof.
  intros Hk Hlo Hhi Hp (Q1 & Q2) Hr Hn ->. pose proof u_pos as Pu. assert (U1 : u < 1) by (unfold u; lra). apply Rabs_le_inv in Hr, Hn.
  assert (P1 : 1 <= (1 + u) ^ k) by apply pow_1u_ge. assert (P2 : 0 < (1 - u) ^ k) by (apply pow_lt; lra).
  assert (P3 : (1 - u) ^ k <= 1). { apply Rle_trans with (1 ^ k); [apply pow_incr; lra|rewrite pow1; lra]. }
  set (rho := hi * (1 + u) / (lo * (1 - u) ^ k)). set (sig := lo * (1 - u) / (hi * (1 + u) ^ k)).
  assert (Hq : 0 <= q). { eapply Rle_trans; [|exact Q1]. unfold Rdiv. apply Rmult_le_pos; [apply Rmult_le_pos; lra|]. left. apply Rinv_0_lt_compat. apply Rmult_lt_0_compat; lra. }
  assert (R1 : 1 <= rho).
  { unfold rho. apply Rmult_le_reg_r with (lo * (1 - u) ^ k); [apply Rmult_lt_0_compat; lra|]. unfold Rdiv. rewrite Rmult_assoc, Rinv_l, Rmult_1_l, Rmult_1_r.
    - apply Rmult_le_compat; lra.
    - apply Rgt_not_eq. apply Rmult_lt_0_compat; lra. }
  assert (Up : q * (1 + r) <= p * rho).
  { apply Rle_trans with (p * hi / (lo * (1 - u) ^ k) * (1 + u)); [apply Rmult_le_compat; lra|]. right. unfold rho. field. split; [|lra]. apply Rgt_not_eq. exact P2. }
  assert (Dn : p * sig <= q * (1 + r)).
  { apply Rle_trans with (p * lo / (hi * (1 + u) ^ k) * (1 - u)).
    - right. unfold sig. field. split; [|lra]. apply Rgt_not_eq. lra.
    - apply Rmult_le_compat; try lra. unfold Rdiv. apply Rmult_le_pos; [apply Rmult_le_pos; lra|]. left. apply Rinv_0_lt_compat. apply Rmult_lt_0_compat; lra. }
  assert (RS : 1 <= rho * sig).
  { replace (rho * sig) with (((1 - u) * (1 + u)) / (((1 - u) * (1 + u)) ^ k)).
    - apply Rmult_le_reg_r with (((1 - u) * (1 + u)) ^ k); [apply pow_lt; apply Rmult_lt_0_compat; lra|]. unfold Rdiv. rewrite Rmult_assoc, Rinv_l, Rmult_1_l, Rmult_1_r.
      + apply unit_le; [exact Hk|]. split; [apply Rmult_le_pos; lra|]. assert (0 <= u * u) by (apply Rmult_le_pos; lra). lra.
      + apply Rgt_not_eq. apply pow_lt. apply Rmult_lt_0_compat; lra.
    - unfold rho, sig. rewrite Rpow_mult_distr. field. repeat split; try lra; apply Rgt_not_eq; lra. }
  assert (S0 : 0 <= sig). { unfold sig, Rdiv. apply Rmult_le_pos; [apply Rmult_le_pos; lra|]. left. apply Rinv_0_lt_compat. apply Rmult_lt_0_compat; lra. }
  assert (S1 : 2 - rho <= sig).
  { assert ((2 - rho) * rho <= 1) by (assert (0 <= (rho - 1) * (rho - 1)) by (apply Rle_0_sqr); lra).
    apply Rmult_le_reg_r with rho; [lra|]. lra. }
  assert (T1 : p * rho - p <= rho - 1). { replace (p * rho - p) with (p * (rho - 1)) by ring. rewrite <- (Rmult_1_l (rho - 1)) at 2. apply Rmult_le_compat_r; lra. }
  assert (T2 : p - p * sig <= rho - 1). { replace (p - p * sig) with (p * (1 - sig)) by ring. apply Rle_trans with (p * (rho - 1)); [apply Rmult_le_compat_l; lra|].
    rewrite <- (Rmult_1_l (rho - 1)) at 2. apply Rmult_le_compat_r; lra. }
  apply Rabs_le. lra.
Qed.

Lemma softmax_near e (l : list (f32 * R)) a d eps : 0 <= eps < 1 -> exp_accurate e (a + d) eps -> 
  INR (length l) * (exp (a + d) * (1 + eps)) * (1 + u) ^ length l <= 2 ^ 127 ->
  (forall p, In p l -> fin (fst p) = true /\ Rabs (real (fst p) - snd p) <= d /\ Rabs (snd p) <= a) ->
  forall p, In p l ->
  let y := f32_div e (env_exp e (fst p)) (fold_left (f32_add e) (map (fun p => env_exp e (fst p)) l) f32_zero) in
  let z := exp (snd p) / Rsum (map (fun p => exp (snd p)) l) in
  fin y = true /\ Rabs (real y - z) <= softmax_factor (length l) d eps - 1 + eta /\ Rabs z <= 1.
Proof.
  intros He Acc Hb Hl p Hp y z. pose proof u_pos as Pu. assert (U1 : u < 1) by (unfold u; lra).
  assert (Hd : 0 <= d). { destruct (Hl p Hp) as (_ & H & _). eapply Rle_trans; [apply Rabs_pos|exact H]. }
  set (lo := exp (- d) * (1 - eps)). set (hi := exp d * (1 + eps)).
  assert (Lo : 0 < lo) by (apply Rmult_lt_0_compat; [apply exp_pos|lra]).
  assert (LH : lo <= hi). { apply Rmult_le_compat; try lra; [left; apply exp_pos|apply exp_mono; lra]. }
  assert (K : forall p, In p l -> fin (env_exp e (fst p)) = true /\ lo * exp (snd p) <= real (env_exp e (fst p)) <= hi * exp (snd p)
     /\ real (env_exp e (fst p)) <= exp (a + d) * (1 + eps)).
  { intros c Hc. destruct (Hl c Hc) as (F & D & A).
    assert (L : Rabs (real (fst c)) <= a + d). { replace (real (fst c)) with ((real (fst c) - snd c) + snd c) by ring. eapply Rle_trans; [apply Rabs_triang|]. lra. }
    destruct (Acc _ F L) as (Fe & B). split; [exact Fe|]. apply Rabs_le_inv in B, D, L. pose proof (exp_pos (real (fst c))) as Pe.
    assert (E1 : exp (- d) * exp (snd c) <= exp (real (fst c))) by (rewrite <- exp_plus; apply exp_mono; lra).
    assert (E2 : exp (real (fst c)) <= exp d * exp (snd c)) by (rewrite <- exp_plus; apply exp_mono; lra).
    assert (E3 : exp (real (fst c)) <= exp (a + d)) by (apply exp_mono; lra).
    assert (E4 : exp (- d) * exp (snd c) * (1 - eps) <= exp (real (fst c)) * (1 - eps)) by (apply Rmult_le_compat_r; lra).
    assert (E5 : exp (real (fst c)) * (1 + eps) <= exp d * exp (snd c) * (1 + eps)) by (apply Rmult_le_compat_r; lra).
    assert (E6 : exp (real (fst c)) * (1 + eps) <= exp (a + d) * (1 + eps)) by (apply Rmult_le_compat_r; lra).
    unfold lo, hi. lra. }
  set (n := length l) in *.
  set (ex := fun p : f32 * R => real (env_exp e (fst p))).
  assert (Sm : Rsum (map (fun y : f32 => real y) (map (fun p => env_exp e (fst p)) l)) = Rsum (map ex l)) by (rewrite map_map; reflexivity).
  assert (Pex : forall c, In c l -> 0 <= ex c).
  { intros c Hc. destruct (K c Hc) as (_ & (H & _) & _). eapply Rle_trans; [|exact H]. left. apply Rmult_lt_0_compat; [exact Lo|apply exp_pos]. }
  assert (UB : Rsum (map ex l) <= INR n * (exp (a + d) * (1 + eps))).
  { unfold n. rewrite <- Rsum_const. apply Rsum_le. intros c Hc. apply K. exact Hc. }
  destruct (sum_pos_fin e (map (fun p => env_exp e (fst p)) l) f32_zero eq_refl) as (Ft & L & H).
  - cbn. lra.
  - intros v Hv. apply in_map_iff in Hv. destruct Hv as (c & <- & Hc). split; [apply K; exact Hc|apply Pex; exact Hc].
  - rewrite Sm, map_length. fold n. replace (real f32_zero) with 0 by reflexivity. rewrite Rplus_0_l. eapply Rle_trans; [|exact Hb].
    apply Rmult_le_compat_r; [|exact UB]. pose proof (pow_1u_ge n). lra.
  - rewrite Sm, map_length in L, H. fold n in L, H. replace (real f32_zero) with 0 in L, H by reflexivity. rewrite Rplus_0_l in L, H.
    set (t := fold_left (f32_add e) (map (fun p => env_exp e (fst p)) l) f32_zero) in *. set (X := Rsum (map (fun p => exp (snd p)) l)) in *.
    assert (PX : 0 < X). { apply Rsum_pos; [destruct l; [contradiction Hp|discriminate]|]. intros c _. apply exp_pos. }
    assert (X1 : lo * X <= Rsum (map ex l)). { unfold X. rewrite <- Rsum_scale. apply Rsum_le. intros c Hc. apply K. exact Hc. }
    assert (X2 : Rsum (map ex l) <= hi * X). { unfold X. rewrite <- Rsum_scale. apply Rsum_le. intros c Hc. apply K. exact Hc. }
    assert (P1 : 1 <= (1 + u) ^ n) by apply pow_1u_ge. assert (P2 : 0 < (1 - u) ^ n) by (apply pow_lt; lra).
    assert (T1 : lo * X * (1 - u) ^ n <= real t). { eapply Rle_trans; [|exact L]. rewrite Rmult_comm. apply Rmult_le_compat_l; lra. }
    assert (T2 : real t <= hi * X * (1 + u) ^ n). { eapply Rle_trans; [exact H|]. rewrite Rmult_comm. apply Rmult_le_compat_r; lra. }
    assert (Pt : 0 < real t). { eapply Rlt_le_trans; [|exact T1]. apply Rmult_lt_0_compat; [apply Rmult_lt_0_compat|]; assumption. }
    destruct (K p Hp) as (Fp & (K1 & K2) & _). pose proof (Pex p Hp) as K3. unfold ex in K3. pose proof (exp_pos (snd p)) as Ez.
    assert (Pz : 0 <= z <= 1).
    { unfold z. split; [unfold Rdiv; apply Rmult_le_pos; [lra|]; left; apply Rinv_0_lt_compat; exact PX|].
      apply Rmult_le_reg_r with X; [exact PX|]. unfold Rdiv. rewrite Rmult_assoc, Rinv_l, Rmult_1_r, Rmult_1_l by lra. unfold X.
      destruct (in_split _ _ Hp) as (l1 & l2 & ->). rewrite map_app, Rsum_app. cbn [map]. rewrite Rsum_cons.
      assert (0 <= Rsum (map (fun p => exp (snd p)) l1)) by (apply Rsum_nonneg; intros; left; apply exp_pos).
      assert (0 <= Rsum (map (fun p => exp (snd p)) l2)) by (apply Rsum_nonneg; intros; left; apply exp_pos). lra. }
    assert (G : real (env_exp e (fst p)) <= real t).
    { destruct (sum_grows e (map (fun p => env_exp e (fst p)) l) f32_zero Ft) as (_ & G).
      - intros v Hv _. apply in_map_iff in Hv. destruct Hv as (c & <- & Hc). apply (Pex c Hc).
      - reflexivity.
      - cbn. lra.
      - apply (G (env_exp e (fst p))). apply in_map_iff. exists p. auto. }
    assert (Q0 : 0 <= real (env_exp e (fst p)) / real t <= 1).
    { split; [unfold Rdiv; apply Rmult_le_pos; [exact K3|]; left; apply Rinv_0_lt_compat; exact Pt|].
      apply Rmult_le_reg_r with (real t); [exact Pt|]. unfold Rdiv. rewrite Rmult_assoc, Rinv_l, Rmult_1_r, Rmult_1_l by lra. exact G. }
    destruct (div_bounded e (env_exp e (fst p)) t Fp Ft) as (Fy & Ey); [lra| |].
    { rewrite Rabs_pos_eq by apply Q0. apply Rle_trans with 1; [apply Q0|]. apply pow_R1_Rle. lra. }
    split; [exact Fy|]. split; [|apply Rabs_le; lra].
    destruct (mul_error (real (env_exp e (fst p))) (/ real t)) as (r & h & Hr & Hh & E). fold (real (env_exp e (fst p)) / real t) in E.
    replace (softmax_factor n d eps) with (hi * (1 + u) / (lo * (1 - u) ^ n)).
    2: { unfold softmax_factor, hi, lo. replace (2 * d) with (d + d) by ring. rewrite exp_plus, exp_Ropp. field. pose proof (exp_pos d). repeat split; try lra; apply Rgt_not_eq; lra. }
    apply (quotient_near z (real (env_exp e (fst p)) / real t) r lo hi h (real y)); try assumption.
    + unfold n. destruct l; [contradiction Hp|cbn; lia].
    + assert (N1 : hi * (1 + u) ^ n <> 0) by (apply Rgt_not_eq; apply Rmult_lt_0_compat; lra).
      assert (N2 : lo * (1 - u) ^ n <> 0) by (apply Rgt_not_eq; apply Rmult_lt_0_compat; lra).
      split.
      * replace (z * lo / (hi * (1 + u) ^ n)) with (lo * exp (snd p) * / (hi * X * (1 + u) ^ n)) by (unfold z; fold X; field; repeat split; try lra; apply Rgt_not_eq; lra).
        unfold Rdiv. apply Rmult_le_compat; [apply Rmult_le_pos; lra| |exact K1|].
        -- left. apply Rinv_0_lt_compat. apply Rmult_lt_0_compat; [apply Rmult_lt_0_compat|]; lra.
        -- apply Rinv_le_contravar; [exact Pt|exact T2].
      * replace (z * hi / (lo * (1 - u) ^ n)) with (hi * exp (snd p) * / (lo * X * (1 - u) ^ n)) by (unfold z; fold X; field; repeat split; try lra; apply Rgt_not_eq; lra).
        unfold Rdiv. apply Rmult_le_compat; [exact K3| |exact K2|].
        -- left. apply Rinv_0_lt_compat. exact Pt.
        -- apply Rinv_le_contravar; [apply Rmult_lt_0_compat; [apply Rmult_lt_0_compat|]; lra|exact T1].
    + rewrite <- E. exact Ey.
Qed.

(** ** Windows *)
Lemma tile_inside m e stride n i p : tiles m e stride n -> (i < n)%N -> (p < e)%N -> (i * stride + p < m)%N.
Proof.
  intros (S0 & L & M & ->) Hi Hp. assert (i <= (m - e) / stride)%N by lia. pose proof (N.mul_div_le (m - e) stride S0) as H1.
  assert (i * stride <= stride * ((m - e) / stride))%N by (rewrite (N.mul_comm i); apply N.mul_le_mono_l; assumption).
  set (q := ((m - e) / stride)%N) in *. clearbody q. lia.
Qed.

Lemma conv_inside ins ks stride outs ch i j p q c : conv_ok ins ks stride outs ch -> (i < di outs)%N -> (j < dj outs)%N -> in_shape ks p q c ->
  in_shape ins (i * stride + p) (j * stride + q) c.
Proof.
  intros (D & Ti & Tj & _) Hi Hj (Hp & Hq & Hc). split; [eapply tile_inside; eassumption|]. split; [eapply tile_inside; eassumption|]. rewrite D. exact Hc.
Qed.

Lemma pool_inside ins mask stride outs i j k p q c : pool_ok ins mask stride outs -> in_shape outs i j k ->
  In (p, q, c) (window_positions (di mask) (dj mask) stride i j k) -> in_shape ins p q c.
Proof.
  intros (D & Ti & Tj) (Hi & Hj & Hk) H. unfold window_positions in H. apply in_flat_map in H. destruct H as (jj & Hjj & H).
  apply in_map_iff in H. destruct H as (ii & E & Hii). injection E as <- <- <-. apply in_upto in Hii, Hjj.
  split; [eapply tile_inside; eassumption|]. split; [eapply tile_inside; eassumption|]. rewrite <- D. exact Hk.
Qed.

Lemma window_nonempty mi mj stride i j k : (0 < mi)%N -> (0 < mj)%N -> window_positions mi mj stride i j k <> [].
Proof.
  intros Hi Hj E. assert (H : In (i * stride + 0, j * stride + 0, k)%N (window_positions mi mj stride i j k)).
  { unfold window_positions. apply in_flat_map. exists 0%N. split; [apply in_upto; exact Hj|]. apply in_map_iff. exists 0%N. split; [reflexivity|]. apply in_upto. exact Hi. }
  rewrite E in H. destruct H.
Qed.

(** ** Layers *)
Section Net.
Context (e : env) (low : R) (bm : build).
Notation AF := (f32_arith e).
Notation AR := (R_arith low).

Lemma exact_holds t t' s f : exact_tensor t t' -> @holds f32 AF bm t s f ->
  @holds R AR bm t' s (fun i j k => real (f i j k)) /\ forall i j k, in_shape s i j k -> fin (f i j k) = true.
Proof.
  intros (Sh & Str & D & Fin) H. apply holds_iff in H. destruct H as (A & ->). unfold of_fun in *. cbn [tshape strides data] in *. split.
  - apply holds_iff. split; [exact A|]. destruct t' as [st sh da]. cbn [tshape strides data] in *. subst. unfold of_fun. f_equal. rewrite map_map.
    apply map_ext. intros ((i & j) & k). reflexivity.
  - intros i j k Hin. rewrite Forall_forall in Fin. apply Fin. apply in_map_iff. exists (i, j, k). split; [reflexivity|]. apply in_cells. exact Hin.
Qed.

Lemma exact_item t t' x v : exact_tensor t t' -> @get_item bm f32 AF t x = Done v ->
  @get_item bm R AR t' x = Done (real v) /\ fin v = true.
Proof.
  intros (Sh & Str & D & Fin) H. unfold get_item in *. rewrite Sh. destruct (fits_index _ _).
  - unfold get_data_index in *. rewrite Str. destruct (stride_mul _ _ _) as [id|]; [|discriminate]. cbn [bind] in *. unfold data_get, vget in *.
    rewrite D. unfold len in *. rewrite map_length. destruct (_ <? _)%N; [|discriminate].
    destruct (nth_error (data t) (N.to_nat id)) as [w|] eqn:E; [|discriminate]. injection H as <-. rewrite (map_nth_error real _ _ E). split; [reflexivity|].
    apply nth_error_In in E. rewrite Forall_forall in Fin. apply Fin. exact E.
  - injection H as <-. split; reflexivity.
Qed.

Lemma exact_nth l l' n t : Forall2 exact_tensor l l' -> nth_error l n = Some t -> exists t', nth_error l' n = Some t' /\ exact_tensor t t'.
Proof. intros H. revert n; induction H as [|a b l l' Hab H IH]; intros [|n] E; try discriminate; cbn in *; [injection E as <-; eauto|apply IH; exact E]. Qed.

Lemma near_ext a d s x x1 y y1 : near a d s x y -> (forall i j k, in_shape s i j k -> x i j k = x1 i j k) -> (forall i j k, in_shape s i j k -> y i j k = y1 i j k) -> near a d s x1 y1.
Proof. intros H E1 E2 i j k Hin. rewrite <- (E1 i j k Hin), <- (E2 i j k Hin). apply H. exact Hin. Qed.

Lemma layer_near p p' X X' Y Y' s x x' a d a1 d1 : exact_params p p' ->
  @computes f32 AF bm p X Y -> @computes R AR bm p' X' Y' -> @holds f32 AF bm X s x -> @holds R AR bm X' s x' ->
  0 <= a -> 0 <= d -> near a d s x x' -> layer_bounds e low bm p' a d a1 d1 ->
  0 <= a1 /\ 0 <= d1 /\ exists s1 y y', @holds f32 AF bm Y s1 y /\ @holds R AR bm Y' s1 y' /\ near a1 d1 s1 y y'.
Proof.
  intros EP C C' HX HX' Ha Hd Hn HB.
  destruct C as [wt bt m n w b X0 x0 Y0 Hw Hb Hx Hy|kt bt st ins outs ks h bv X0 x0 Y0 Hk Hl1 Hl2 Hb Hc Hx Hy|ins mask outs st X0 x0 Y0 Hp Hx Hy|s0 X0 x0 Y0 Hx Hy].
  - destruct p' as [wt' bt'| | |]; try contradiction EP. destruct EP as (Ew & Eb).
    inversion HB as [? ? m' n' wv' bv' W B a' d' AR' Hw' Hb' HW HBs Hw0 Hb0 Hfit| | |]; subst. clear HB. subst AR'.
    destruct (exact_holds _ _ _ _ Ew Hw) as (Kw & Fw). destruct (exact_holds _ _ _ _ Eb Hb) as (Kb & Fb).
    pose proof (holds_shape _ _ _ _ _ _ Hw' Kw) as E. injection E as -> ->.
    pose proof (holds_shape _ _ _ _ _ _ HX Hx) as ->.
    inversion C' as [? ? m2 n2 w2 b2 X2 x2 Y2 Hw2 Hb2 Hx2 Hy2| | |]; subst. clear C'.
    pose proof (holds_shape _ _ _ _ _ _ Hw2 Kw) as E. injection E as -> ->.
    pose proof (holds_fun _ _ _ _ _ Kw Hw2) as Q1. pose proof (holds_fun _ _ _ _ _ Kb Hb2) as Q2. pose proof (holds_fun _ _ _ _ _ HX' Hx2) as Q3.
    pose proof (holds_fun _ _ _ _ _ HX Hx) as Q4. pose proof (holds_fun _ _ _ _ _ Kw Hw') as Q5. pose proof (holds_fun _ _ _ _ _ Kb Hb') as Q6.
    split; [apply Rplus_le_le_0_compat; [apply Rmult_le_pos|]; assumption|].
    assert (P0 : 0 <= bound_biased (N.to_nat n) (W * (a + d)) B).
    { unfold bound_biased. pose proof (pow_1u_ge (N.to_nat n + 1)). pose proof eta_pos. pose proof (pos_INR (N.to_nat n)).
      assert (0 <= W * (a + d)) by (apply Rmult_le_pos; lra). apply Rplus_le_le_0_compat; repeat apply Rmult_le_pos; lra. }
    split; [apply Rplus_le_le_0_compat; [apply Rmult_le_pos|]; assumption|].
    do 3 eexists. split; [exact Hy|]. split; [exact Hy2|]. intros i j k (Hi & Hj & Hk). cbn [di dj dk] in *. cbv beta.
    rewrite relu_R. cbn [fadd fmul R_arith]. rewrite sum_Rsum.
    destruct (affine_near e (upto n) (fun p => w i p 0%N) (fun p => x0 p 0%N 0%N) (fun p => x2 p 0%N 0%N) (b i 0%N 0%N) a d W B) as ((F1 & E1) & _ & E2); try assumption.
    + intros p Hp. apply in_upto in Hp. apply Fw. repeat split; cbn [di dj dk]; lia.
    + apply Fb. repeat split; cbn [di dj dk]; lia.
    + intros p Hp. apply in_upto in Hp. rewrite <- Q3, <- Q4 by (repeat split; cbn [di dj dk]; lia). apply Hn. repeat split; cbn [di dj dk]; lia.
    + rewrite (Rsum_ext _ (fun p => Rabs (wv' i p 0%N))); [apply HW; exact Hi|]. intros p Hp. apply in_upto in Hp.
      rewrite <- Q5 by (repeat split; cbn [di dj dk]; lia). reflexivity.
    + pose proof (HBs i Hi) as H. rewrite <- Q6 in H by (repeat split; cbn [di dj dk]; lia). exact H.
    + rewrite length_upto. exact Hfit.
    + rewrite length_upto in E1. cbv beta in *.
      assert (Z : Rsum (map (fun p => w2 i p 0%N * x2 p 0%N 0%N) (upto n)) + b2 i 0%N 0%N
                  = Rsum (map (fun p => real (w i p 0%N) * x2 p 0%N 0%N) (upto n)) + real (b i 0%N 0%N)).
      { f_equal; [apply Rsum_ext; intros p Hp; apply in_upto in Hp|]; [rewrite <- Q1|rewrite <- Q2]; try reflexivity; repeat split; cbn [di dj dk]; lia. }
      rewrite Z. apply relu_near; assumption.
  - destruct p' as [|kt' bt' st' ins' outs'| |]; try contradiction EP. destruct EP as (Ek & Eb & -> & -> & ->).
    inversion HB as [|? ? ? ? ? ks' h' bv' W B a' d' AR' Hk' Hb' HW HBs Hw0 Hb0 Hfit| |]; subst. clear HB. subst AR'.
    pose proof (holds_shape _ _ _ _ _ _ HX Hx) as ->.
    inversion C' as [|? ? ? ? ? ks2 h2 bv2 X2 x2 Y2 Hk2 Hl12 Hl22 Hb2 Hc2 Hx2 Hy2| |]; subst. clear C'.
    assert (W0 : 0 <= W * (a + d)) by (apply Rmult_le_pos; lra).
    split; [apply Rplus_le_le_0_compat; [apply Rmult_le_pos|]; assumption|].
    assert (P0 : 0 <= bound_biased (N.to_nat (di ks' * dj ks' * dk ks')) (W * (a + d)) B).
    { unfold bound_biased. set (q := N.to_nat _). pose proof (pow_1u_ge (q + 1)). pose proof eta_pos. pose proof (pos_INR q).
      apply Rplus_le_le_0_compat; repeat apply Rmult_le_pos; lra. }
    split; [apply Rplus_le_le_0_compat; [apply Rmult_le_pos|]; assumption|].
    do 3 eexists. split; [exact Hy|]. split; [exact Hy2|]. intros i j k Hin. pose proof Hin as (Hi & Hj & Hkk). cbv beta.
    rewrite relu_R. cbn [fadd R_arith]. rewrite sum_Rsum.
    assert (Lt : (N.to_nat k < length kt)%nat) by (unfold len in Hl1; lia).
    destruct (nth_error kt (N.to_nat k)) as [tk|] eqn:Nk; [|apply nth_error_None in Nk; lia].
    destruct (exact_nth _ _ _ _ Ek Nk) as (tk' & Nk' & Etk).
    destruct (exact_holds _ _ _ _ Etk (Hk k tk Nk)) as (Kk & Fk).
    pose proof (holds_shape _ _ _ _ _ _ (Hk2 k tk' Nk') Kk) as ->. pose proof (holds_shape _ _ _ _ _ _ (Hk' k tk' Nk') Kk) as ->.
    pose proof (holds_fun _ _ _ _ _ Kk (Hk2 k tk' Nk')) as Q1. pose proof (holds_fun _ _ _ _ _ Kk (Hk' k tk' Nk')) as Q5.
    destruct (nth_error bt (N.to_nat k)) as [tb|] eqn:Nb; [|apply nth_error_None in Nb; unfold len in Hl2; lia].
    destruct (exact_nth _ _ _ _ Eb Nb) as (tb' & Nb' & Etb). destruct (exact_item _ _ _ _ Etb (Hb k tb Nb)) as (Kb & Fb).
    pose proof (Hb2 k tb' Nb') as Q2. rewrite Kb in Q2. injection Q2 as Q2. pose proof (Hb' k tb' Nb') as Q6. rewrite Kb in Q6. injection Q6 as Q6.
    pose proof (holds_fun _ _ _ _ _ HX' Hx2) as Q3. pose proof (holds_fun _ _ _ _ _ HX Hx) as Q4.
    destruct (affine_near e (cells ks) (fun '(p, q, c) => h k p q c) (fun '(p, q, c) => x0 (i * st + p)%N (j * st + q)%N c)
      (fun '(p, q, c) => x2 (i * st + p)%N (j * st + q)%N c) (bv k) a d W B) as (_ & (F1 & E1) & E2); try assumption.
    + intros ((p & q) & c) Hp. apply in_cells in Hp. apply Fk. exact Hp.
    + intros ((p & q) & c) Hp. apply in_cells in Hp.
      assert (Hpos : in_shape ins (i * st + p) (j * st + q) c).
      { pose proof (Hc k Hkk) as Hck. apply (conv_inside _ _ _ _ _ _ _ _ _ _ Hck Hi Hj Hp). }
      rewrite <- Q3, <- Q4 by exact Hpos. apply Hn. exact Hpos.
    + rewrite (Rsum_ext _ (fun '(p, q, c) => Rabs (h' k p q c))); [apply HW; exact Hkk|]. intros ((p & q) & c) Hp. apply in_cells in Hp.
      rewrite <- Q5 by exact Hp. reflexivity.
    + rewrite Q6. apply HBs. exact Hkk.
    + rewrite length_cells. exact Hfit.
    + rewrite length_cells in E1. cbv beta in *. unfold window_products.
      assert (Z : Rsum (map (fun '(p, q, c) => @fmul R AR (x2 (i * st + p)%N (j * st + q)%N c) (h2 k p q c)) (cells ks)) + bv2 k
                  = Rsum (map (fun t : N * N * N => real (let '(p, q, c) := t in h k p q c) * (let '(p, q, c) := t in x2 (i * st + p)%N (j * st + q)%N c)) (cells ks)) + real (bv k)).
      { f_equal; [|symmetry; exact Q2]. apply Rsum_ext. intros ((p & q) & c) Hp. apply in_cells in Hp. cbn [fmul R_arith]. rewrite <- Q1 by exact Hp. ring. }
      rewrite Z. rewrite (map_ext (fun '(p, q, c) => @fmul f32 AF (x0 (i * st + p)%N (j * st + q)%N c) (h k p q c))
        (fun t => @fmul f32 AF (let '(p, q, c) := t in x0 (i * st + p)%N (j * st + q)%N c) (let '(p, q, c) := t in h k p q c))) by (intros ((p & q) & c); reflexivity).
      apply relu_near; assumption.
  - destruct p' as [| |ins' mask' outs' st'|]; try contradiction EP. destruct EP as (-> & -> & -> & ->).
    inversion HB as [| |? ? ? ? a' d' M1 M2 Hlow|]; subst. clear HB. pose proof (holds_shape _ _ _ _ _ _ HX Hx) as ->.
    inversion C' as [| |? ? ? ? X2 x2 Y2 Hp2 Hx2 Hy2|]; subst. clear C'. split; [exact Ha|]. split; [exact Hd|].
    pose proof (holds_fun _ _ _ _ _ HX' Hx2) as Q3. pose proof (holds_fun _ _ _ _ _ HX Hx) as Q4.
    do 3 eexists. split; [exact Hy|]. split; [exact Hy2|]. intros i j k Hin. cbv beta. unfold window_values.
    set (ps := window_positions (di mask) (dj mask) st i j k).
    pose proof (running_max_near e low (map (fun '(p, q, c) => (x0 p q c, x2 p q c)) ps) a1 d1) as G. rewrite !map_map in G.
    rewrite (map_ext (fun x => fst (let '(p, q, c) := x in (x0 p q c, x2 p q c))) (fun '(p, q, c) => x0 p q c)) in G by (intros ((? & ?) & ?); reflexivity).
    rewrite (map_ext (fun x => snd (let '(p, q, c) := x in (x0 p q c, x2 p q c))) (fun '(p, q, c) => x2 p q c)) in G by (intros ((? & ?) & ?); reflexivity).
    apply G; [|exact Hlow|].
    + intros E. apply map_eq_nil in E. revert E. apply window_nonempty; assumption.
    + intros c Hc. apply in_map_iff in Hc. destruct Hc as (((p & q) & r) & <- & Hc). cbn [fst snd].
      assert (Hpos : in_shape ins p q r) by (eapply pool_inside; eassumption). rewrite <- Q3, <- Q4 by exact Hpos. apply Hn. exact Hpos.
  - destruct p' as [| | |s']; try contradiction EP. cbn in EP. subst s'.
    inversion HB as [| | |? a' d' eps n He Acc Hfit]; subst. clear HB. subst n. pose proof (holds_shape _ _ _ _ _ _ HX Hx) as ->.
    inversion C' as [| | |? X2 x2 Y2 Hx2 Hy2]; subst. clear C'. split; [lra|].
    pose proof (holds_fun _ _ _ _ _ HX' Hx2) as Q3. pose proof (holds_fun _ _ _ _ _ HX Hx) as Q4. set (n := N.to_nat (di s0 * dj s0 * dk s0)) in *.
    assert (R1 : 1 <= softmax_factor n d eps).
    { unfold softmax_factor. pose proof u_pos. assert (U1 : u < 1) by (unfold u; lra). assert (P2 : 0 < (1 - u) ^ n) by (apply pow_lt; lra).
      assert (P3 : (1 - u) ^ n <= 1). { apply Rle_trans with (1 ^ n); [apply pow_incr; lra|rewrite pow1; lra]. }
      assert (1 <= exp (2 * d)). { rewrite <- exp_0. apply exp_mono. lra. }
      apply Rmult_le_reg_r with ((1 - eps) * (1 - u) ^ n); [apply Rmult_lt_0_compat; lra|]. unfold Rdiv. rewrite Rmult_assoc, Rinv_l, Rmult_1_l, Rmult_1_r.
      - apply Rle_trans with (1 * 1); [apply Rmult_le_compat; lra|]. apply Rmult_le_compat; try lra. apply Rle_trans with (1 * 1); [lra|]. apply Rmult_le_compat; lra.
      - apply Rgt_not_eq. apply Rmult_lt_0_compat; lra. }
    pose proof eta_pos. split; [lra|].
    do 3 eexists. split; [exact Hy|]. split; [exact Hy2|]. intros i j k Hin. cbv beta. rewrite sum_Rsum. cbn [fdiv fexp R_arith].
    set (l := map (fun '(p, q, c) => (x0 p q c, x2 p q c)) (cells s0)).
    assert (Ll : length l = n) by (unfold l; rewrite map_length, length_cells; reflexivity).
    destruct (softmax_near e l a d eps He Acc) with (p := (x0 i j k, x2 i j k)) as (F1 & E1 & E2).
    + rewrite Ll. exact Hfit.
    + intros p Hp. unfold l in Hp. apply in_map_iff in Hp. destruct Hp as (((p1 & q) & c) & <- & Hp). apply in_cells in Hp. cbn [fst snd].
      rewrite <- Q3, <- Q4 by exact Hp. apply Hn. exact Hp.
    + unfold l. apply in_map_iff. exists (i, j, k). split; [reflexivity|]. apply in_cells. exact Hin.
    + rewrite Ll in E1. unfold l in *. rewrite !map_map in *. cbn [fst snd] in *.
      rewrite (map_ext (fun x => env_exp e (fst (let '(p, q, c) := x in (x0 p q c, x2 p q c)))) (fun '(i, j, k) => @fexp f32 AF (x0 i j k))) in * by (intros ((? & ?) & ?); reflexivity).
      rewrite (map_ext (fun x => exp (snd (let '(p, q, c) := x in (x0 p q c, x2 p q c)))) (fun '(i, j, k) => exp (x2 i j k))) in * by (intros ((? & ?) & ?); reflexivity).
      split; [exact F1|]. split; [exact E1|exact E2].
Qed.

(** ** Networks *)
Lemma composes_near ps ps' : forall X X' Y Y' s x x' a d a1 d1, Forall2 exact_params ps ps' ->
  @composes f32 AF bm ps X Y -> @composes R AR bm ps' X' Y' -> @holds f32 AF bm X s x -> @holds R AR bm X' s x' ->
  0 <= a -> 0 <= d -> near a d s x x' -> net_bounds e low bm ps' a d a1 d1 ->
  exists s1 y y', @holds f32 AF bm Y s1 y /\ @holds R AR bm Y' s1 y' /\ near a1 d1 s1 y y'.
Proof.
  intros X X' Y Y' s x x' a d a1 d1 H. revert X X' s x x' a d. induction H as [|p p' ps ps' Hp H IH]; intros X X' s x x' a d C C' HX HX' Ha Hd Hn HB.
  - cbn [composes] in C, C'. subst. inversion HB; subst. eauto 6.
  - cbn [composes] in C, C'. destruct C as (Z & C1 & C2), C' as (Z' & C1' & C2'). inversion HB; subst.
    destruct (layer_near _ _ _ _ _ _ _ _ _ _ _ _ _ Hp C1 C1' HX HX' Ha Hd Hn ltac:(eassumption)) as (Ha1 & Hd1 & s1 & y & y' & Hy & Hy' & Hn1).
    eapply IH; [exact C2|exact C2'|exact Hy|exact Hy'|exact Ha1|exact Hd1|exact Hn1|eassumption].
Qed.
End Net.

Lemma network_error e (BT : Bits R) low bm (n : network f32) (n' : network R) X X' x x' a d a1 d1 :
  @well_built f32 (f32_arith e) f32_bits bm n -> @well_built R (R_arith low) BT bm n' -> layers n <> [] ->
  Forall2 exact_params (map params_of (layers n)) (map params_of (layers n')) -> net_input_shape n' = net_input_shape n ->
  @holds f32 (f32_arith e) bm X (net_input_shape n) x -> @holds R (R_arith low) bm X' (net_input_shape n) x' ->
  0 <= a -> 0 <= d -> near a d (net_input_shape n) x x' -> net_bounds e low bm (map params_of (layers n')) a d a1 d1 ->
  exists n1 n1' Y Y' s y y',
    @infer bm f32 (f32_arith e) n X = Done (n1, Ok tt) /\ get_output n1 = Done (Ok Y)
    /\ @infer bm R (R_arith low) n' X' = Done (n1', Ok tt) /\ get_output n1' = Done (Ok Y')
    /\ @holds f32 (f32_arith e) bm Y s y /\ @holds R (R_arith low) bm Y' s y' /\ near a1 d1 s y y'.
Proof.
  intros B B' NE EP Si HX HX' Ha Hd Hn HB.
  pose proof (@built_ok f32 (f32_arith e) f32_bits bm n (f32_relu_agrees e) B) as Ok.
  pose proof (@built_ok R (R_arith low) BT bm n' (relu_agrees_R low) B') as Ok'.
  assert (NE' : layers n' <> []). { intros E. rewrite E in EP. inversion EP as [E2|]. symmetry in E2. apply map_eq_nil in E2. contradiction. }
  destruct (@infer_ok f32 (f32_arith e) bm n X (f32_relu_agrees e) Ok NE (proj1 (holds_shaped _ _ _ _ HX)) (proj2 (holds_shaped _ _ _ _ HX))) as (n1 & Y & E & _ & _ & G & C).
  destruct (@infer_ok R (R_arith low) bm n' X' (relu_agrees_R low) Ok' NE' (proj1 (holds_shaped _ _ _ _ HX'))) as (n1' & Y' & E' & _ & _ & G' & C').
  { rewrite Si. apply (holds_shaped _ _ _ _ HX'). }
  destruct (composes_near e low bm _ _ X X' Y Y' _ x x' a d a1 d1 EP C C' HX HX' Ha Hd Hn HB) as (s & y & y' & Hy & Hy' & N1).
  exists n1, n1', Y, Y', s, y, y'. auto 10.
Qed.
