(** * C71: proofs *)
From Coq Require Import Reals Lra ZifyBool ZifyNat ZifyN.
From Flocq Require Import Core IEEE754.Binary.
From Verif Require Import Base Arith Helper Tensor Network Bincode Serial Spec SpecLayer SpecNet SpecReal SpecTrain Loops TensorFacts OpsFacts ProofsTensor LayerFacts NetFacts NetRun ProofsNet.
From Verif Require Import Float32 Float32Facts RealArith RealSums SpecError FloatError ProofsFloat SpecNetError ProofsNetError ProofsStates SpecMono.
Local Open Scope R_scope.

Notation top := (bpow radix2 128).

Lemma rank_bound x : - top <= rank x <= top.
Proof. pose proof inf_pos. pose proof (B2R_bound x). destruct x as [s|s|s p H'|s m ex H']; cbn [rank] in *; try lra. destruct s; lra. Qed.

Lemma rank_fin x : isnan x = false -> fin x = true <-> - top < rank x < top.
Proof.
  intros N. split.
  - intros F. rewrite rank_finite by exact F. apply B2R_bound.
  - intros H. destruct x as [s|s|s p H'|s m ex H']; try reflexivity; try discriminate N. cbn [rank] in H. destruct s; lra.
Qed.

Lemma fin_nan x : fin x = true -> isnan x = false.
Proof. destruct x; try discriminate; reflexivity. Qed.

Definition sat (r : R) : R := Rmax (- top) (Rmin top r).

Lemma sat_mono r q : r <= q -> sat r <= sat q.
Proof. intros H. unfold sat, Rmax, Rmin. repeat destruct (Rle_dec _ _); lra. Qed.

Lemma sat_id r : Rabs r < top -> sat r = r.
Proof. intros H. apply Rabs_def2 in H. unfold sat, Rmax, Rmin. repeat destruct (Rle_dec _ _); lra. Qed.

Lemma sign_real (x : f32) : if Bsign 24 128 x then real x <= 0 else 0 <= real x.
Proof.
  destruct x as [s|s|s p H'|s m ex H']; cbn; try (destruct s; lra).
  destruct s; cbn [cond_Zopp]; [apply F2R_le_0|apply F2R_ge_0]; cbn [Fnum]; lia.
Qed.

Lemma overflow_rank (z : f32) s r : B2FF 24 128 z = Binary.binary_overflow 24 128 BinarySingleNaN.mode_NE s ->
  (if s then r <= - top else top <= r) -> isnan z = false /\ rank z = sat r.
Proof.
  intros H Hr. pose proof inf_pos. assert (E : z = B754_infinity 24 128 s).
  { destruct z as [s'|s'|s' p H'|s' m ex H']; cbn in H; try discriminate H; injection H as ->; reflexivity. }
  subst z. split; [reflexivity|]. cbn [rank]. unfold sat, Rmax, Rmin. destruct s; repeat destruct (Rle_dec _ _); lra.
Qed.

Lemma add_rank_fin e x y : fin x = true -> fin y = true -> isnan (f32_add e x y) = false /\ rank (f32_add e x y) = sat (rnd (real x + real y)).
Proof.
  intros Fx Fy. pose proof (Binary.Bplus_correct 24 128 f32_prec f32_emax (nan_add e) BinarySingleNaN.mode_NE x y Fx Fy) as C.
  change (round radix2 _ _ (real x + real y)) with (rnd (real x + real y)) in C.
  change (Bplus _ _ _ _ _ _ x y) with (f32_add e x y) in C.
  destruct (Rlt_bool_spec (Rabs (rnd (real x + real y))) top) as [L|L].
  - destruct C as (C1 & C2 & _). split; [apply fin_nan; exact C2|]. rewrite rank_finite, C1, sat_id; auto.
  - destruct C as (C1 & C2). apply (overflow_rank _ _ _ C1). pose proof (sign_real x) as Sx. pose proof (sign_real y) as Sy. rewrite <- C2 in Sy.
    destruct (Bsign 24 128 x).
    + assert (rnd (real x + real y) <= 0) by (rewrite <- rnd_0; apply rnd_mono; lra). rewrite Rabs_left1 in L by lra. lra.
    + assert (0 <= rnd (real x + real y)) by (rewrite <- rnd_0; apply rnd_mono; lra). rewrite Rabs_pos_eq in L by lra. lra.
Qed.

Lemma add_rank e x y : isnan x = false -> isnan y = false -> - top < rank x -> - top < rank y ->
  isnan (f32_add e x y) = false /\ rank (f32_add e x y) = if (fin x && fin y)%bool then sat (rnd (rank x + rank y)) else top.
Proof.
  intros Nx Ny Rx Ry. destruct (fin x) eqn:Fx, (fin y) eqn:Fy; cbn [andb].
  - rewrite (rank_finite x), (rank_finite y) by assumption. apply add_rank_fin; assumption.
  - destruct y as [s|s|s p H'|s m ex H']; try discriminate. cbn [rank] in Ry. destruct s; [lra|]. destruct x; try discriminate; split; reflexivity.
  - destruct x as [s|s|s p H'|s m ex H']; try discriminate. cbn [rank] in Rx. destruct s; [lra|]. destruct y; try discriminate; split; reflexivity.
  - destruct x as [s|s|s p H'|s m ex H']; try discriminate. destruct y as [t|t|t q K|t n ey K]; try discriminate. cbn [rank] in *.
    destruct s, t; try lra. split; reflexivity.
Qed.

(** ** Ordered pairs of values that are not negative *)
Definition leq (x y : f32) : Prop := isnan x = false /\ isnan y = false /\ 0 <= rank x <= rank y.

Lemma leq_fin x y : leq x y -> fin y = true -> fin x = true.
Proof. intros (Nx & Ny & H) F. pose proof inf_pos. apply (rank_fin y Ny) in F. apply (rank_fin x Nx). lra. Qed.

Lemma add_mono e x x' y y' : isnan x = false -> isnan x' = false -> isnan y = false -> isnan y' = false ->
  - top < rank x <= rank x' -> - top < rank y <= rank y' ->
  isnan (f32_add e x y) = false /\ isnan (f32_add e x' y') = false /\ rank (f32_add e x y) <= rank (f32_add e x' y').
Proof.
  intros Nx Nx' Ny Ny' Hx Hy. pose proof (rank_bound x). pose proof (rank_bound y).
  destruct (add_rank e x y Nx Ny) as (N1 & E1); try lra. destruct (add_rank e x' y' Nx' Ny') as (N2 & E2); try lra.
  split; [exact N1|]. split; [exact N2|]. rewrite E2.
  destruct (fin x' && fin y')%bool eqn:F; [|apply rank_bound]. apply andb_true_iff in F. destruct F as (F1 & F2).
  apply (rank_fin x' Nx') in F1. apply (rank_fin y' Ny') in F2. rewrite E1.
  assert (G1 : fin x = true) by (apply (rank_fin x Nx); lra). assert (G2 : fin y = true) by (apply (rank_fin y Ny); lra). rewrite G1, G2. cbn [andb].
  apply sat_mono, rnd_mono. lra.
Qed.

Lemma sat_pos r : 0 <= r -> 0 <= sat r.
Proof. intros H. pose proof inf_pos. unfold sat, Rmax, Rmin. repeat destruct (Rle_dec _ _); lra. Qed.

Lemma add_leq e x x' y y' : leq x x' -> leq y y' -> leq (f32_add e x y) (f32_add e x' y').
Proof.
  intros (Nx & Nx' & Hx) (Ny & Ny' & Hy). pose proof inf_pos. destruct (add_mono e x x' y y' Nx Nx' Ny Ny') as (N1 & N2 & L); try lra.
  split; [exact N1|]. split; [exact N2|]. split; [|exact L]. destruct (add_rank e x y Nx Ny) as (_ & ->); try lra.
  destruct (fin x && fin y)%bool; [|lra]. apply sat_pos. rewrite <- rnd_0. apply rnd_mono. lra.
Qed.

Lemma mul_rank e x y : positive x -> positive y -> isnan (f32_mul e x y) = false /\ rank (f32_mul e x y) = sat (rnd (real x * real y)).
Proof.
  intros (Fx & Px) (Fy & Py). pose proof (Binary.Bmult_correct 24 128 f32_prec f32_emax (nan_mul e) BinarySingleNaN.mode_NE x y) as C.
  change (round radix2 _ _ (real x * real y)) with (rnd (real x * real y)) in C.
  change (Bmult _ _ _ _ _ _ x y) with (f32_mul e x y) in C.
  assert (P : 0 <= rnd (real x * real y)) by (rewrite <- rnd_0; apply rnd_mono, Rmult_le_pos; assumption).
  destruct (Rlt_bool_spec (Rabs (rnd (real x * real y))) top) as [L|L].
  - destruct C as (C1 & C2 & _). rewrite Fx, Fy in C2. cbn [andb] in C2. split; [apply fin_nan; exact C2|]. rewrite rank_finite, C1, sat_id; auto.
  - rewrite Rabs_pos_eq in L by exact P. pose proof inf_pos. apply (overflow_rank _ _ _ C).
    assert (Nz : real x <> 0 /\ real y <> 0). { split; intros Z; rewrite Z, ?Rmult_0_l, ?Rmult_0_r, rnd_0 in L; lra. }
    pose proof (sign_real x) as Sx. pose proof (sign_real y) as Sy. destruct (Bsign 24 128 x); [lra|]. destruct (Bsign 24 128 y); [lra|]. exact L.
Qed.

Lemma mul_leq_r e w x x' : positive w -> positive x -> positive x' -> real x <= real x' -> leq (f32_mul e x w) (f32_mul e x' w).
Proof.
  intros Pw Px Px' L. destruct (mul_rank e x w Px Pw) as (N1 & E1). destruct (mul_rank e x' w Px' Pw) as (N2 & E2).
  split; [exact N1|]. split; [exact N2|]. destruct Pw, Px, Px'. rewrite E1, E2. split.
  - apply sat_pos. rewrite <- rnd_0. apply rnd_mono, Rmult_le_pos; assumption.
  - apply sat_mono, rnd_mono, Rmult_le_compat_r; assumption.
Qed.

Lemma mul_leq_l e w x x' : positive w -> positive x -> positive x' -> real x <= real x' -> leq (f32_mul e w x) (f32_mul e w x').
Proof.
  intros Pw Px Px' L. destruct (mul_rank e w x Pw Px) as (N1 & E1). destruct (mul_rank e w x' Pw Px') as (N2 & E2).
  split; [exact N1|]. split; [exact N2|]. destruct Pw, Px, Px'. rewrite E1, E2. split.
  - apply sat_pos. rewrite <- rnd_0. apply rnd_mono, Rmult_le_pos; assumption.
  - apply sat_mono, rnd_mono, Rmult_le_compat_l; assumption.
Qed.

Lemma fold_leq e {A} (l : list A) f g : (forall p, In p l -> leq (f p) (g p)) -> forall x x', leq x x' ->
  leq (fold_left (f32_add e) (map f l) x) (fold_left (f32_add e) (map g l) x').
Proof.
  induction l as [|a l IH]; intros H x x' Hx; cbn [map fold_left]; [exact Hx|].
  apply IH; [intros p Hp; apply H; right; exact Hp|]. apply add_leq; [exact Hx|]. apply H. left. reflexivity.
Qed.

Lemma relu_rank x : isnan x = false -> isnan (Float32Facts.relu x) = false /\ rank (Float32Facts.relu x) = Rmax 0 (rank x).
Proof.
  intros N. unfold Float32Facts.relu. change (rank f32_zero) with 0. destruct (f32_gtb x f32_zero) eqn:G.
  - split; [exact N|]. apply gtb_true in G. destruct G as (_ & _ & G). change (rank f32_zero) with 0 in G. rewrite Rmax_right; lra.
  - split; [reflexivity|]. apply gtb_false in G; [|exact N|reflexivity]. change (rank f32_zero) with 0 in *. rewrite Rmax_left; lra.
Qed.

Lemma affine_leq e {A} (l : list A) f g b : (forall p, In p l -> leq (f p) (g p)) -> fin b = true ->
  leq (@Spec.relu f32 (f32_arith e) (f32_add e (fold_left (f32_add e) (map f l) f32_zero) b))
      (@Spec.relu f32 (f32_arith e) (f32_add e (fold_left (f32_add e) (map g l) f32_zero) b)).
Proof.
  intros H Fb. rewrite !relu_f32. pose proof (fin_nan b Fb) as Nb. pose proof inf_pos.
  assert (Z : leq f32_zero f32_zero) by (repeat split; cbn; lra).
  destruct (fold_leq e l f g H _ _ Z) as (N1 & N2 & L). apply (rank_fin b Nb) in Fb.
  destruct (add_mono e _ _ b b N1 N2 Nb Nb) as (M1 & M2 & K); try lra.
  destruct (relu_rank _ M1) as (R1 & E1). destruct (relu_rank _ M2) as (R2 & E2). split; [exact R1|]. split; [exact R2|]. rewrite E1, E2.
  unfold Rmax. repeat destruct (Rle_dec _ _); lra.
Qed.

Lemma max_leq e {A} (l : list A) f g : l <> [] -> (forall p, In p l -> leq (f p) (g p)) ->
  leq (@running_max f32 (f32_arith e) (map f l)) (@running_max f32 (f32_arith e) (map g l)).
Proof.
  assert (S : forall x x' m m', leq x x' -> isnan m = false -> isnan m' = false -> rank m <= rank m' ->
    leq (if f32_gtb x m then x else m) (if f32_gtb x' m' then x' else m')).
  { intros x x' m m' (Nx & Nx' & Hx) Nm Nm' Hm.
    destruct (f32_gtb x m) eqn:G, (f32_gtb x' m') eqn:G'.
    all: try (apply gtb_true in G; destruct G as (_ & _ & G)); try (apply gtb_true in G'; destruct G' as (_ & _ & G')).
    all: try (apply gtb_false in G; [|assumption|assumption]); try (apply gtb_false in G'; [|assumption|assumption]).
    all: (split; [assumption|]; split; [assumption|]); lra. }
  intros NE H. destruct l as [|a l]; [congruence|]. unfold running_max. cbn [map fold_left fgtb fninf f32_arith].
  assert (G : forall m m', leq m m' -> leq (fold_left (fun m x => if f32_gtb x m then x else m) (map f l) m) (fold_left (fun m x => if f32_gtb x m then x else m) (map g l) m')).
  { assert (H' : forall p, In p l -> leq (f p) (g p)) by (intros p Hp; apply H; right; exact Hp). clear - H' S.
    induction l as [|b l IH]; intros m m' Hm; cbn [map fold_left]; [exact Hm|]. apply IH; [intros p Hp; apply H'; right; exact Hp|].
    destruct Hm as (N1 & N2 & Hm). apply S; [apply H'; left; reflexivity|assumption|assumption|lra]. }
  apply G. apply S; [apply H; left; reflexivity|reflexivity|reflexivity|lra].
Qed.

(** ** Layers *)
Lemma Forall2_maps {A B C} (R : B -> C -> Prop) (f : A -> B) (g : A -> C) l : Forall2 R (map f l) (map g l) <-> forall a, In a l -> R (f a) (g a).
Proof.
  induction l as [|a l IH]; cbn [map]; split; intros H.
  - intros a [].
  - constructor.
  - inversion H; subst. intros b [<-|Hb]; [assumption|]. apply IH; assumption.
  - constructor; [apply H; left; reflexivity|]. apply IH. intros b Hb. apply H. right. exact Hb.
Qed.

Lemma Forall2_weaken {A B} (P Q : A -> B -> Prop) l l' : (forall a b, P a b -> Q a b) -> Forall2 P l l' -> Forall2 Q l l'.
Proof. intros H. induction 1; constructor; auto. Qed.

Section Layers.
Context (e : env) (bm : build).
#[local] Hint Extern 0 (Arith f32) => exact (f32_arith e) : typeclass_instances.
Notation T := (tensor f32).

Lemma holds_leq (P : f32 -> f32 -> Prop) (t t' : T) s f f' : holds bm t s f -> holds bm t' s f' ->
  (Forall2 P (data t) (data t') <-> forall i j k, in_shape s i j k -> P (f i j k) (f' i j k)).
Proof.
  intros H H'. apply holds_iff in H, H'. destruct H as (_ & ->), H' as (_ & ->). cbn [data of_fun].
  rewrite Forall2_maps. split.
  - intros G i j k Hin. apply in_cells in Hin. exact (G (i, j, k) Hin).
  - intros G ((i & j) & k) Hin. apply in_cells in Hin. apply G. exact Hin.
Qed.

Definition inputs (a b : f32) : Prop := positive a /\ positive b /\ real a <= real b.

Lemma layer_mono p (X X' Y Y' : T) : computes bm p X Y -> computes bm p X' Y' -> Forall2 inputs (data X) (data X') ->
  positive_layer e bm p -> tshape Y = tshape Y' /\ Forall2 leq (data Y) (data Y').
Proof.
  intros C C' H HB.
  destruct C as [wt bt m n w b X0 x0 Y0 Hw Hb Hx Hy|kt bt st ins outs ks h bv X0 x0 Y0 Hk Hl1 Hl2 Hb Hc Hx Hy|ins mask outs st X0 x0 Y0 Hp Hx Hy|s0 X0 x0 Y0 Hx Hy].
  - inversion HB as [? ? m' n' wv' b' AR' Hw' Hb' Pw Pb| |]; subst. clear HB. subst AR'.
    pose proof (holds_shape _ _ _ _ _ _ Hw' Hw) as E. injection E as -> ->.
    inversion C' as [? ? m2 n2 w2 b2 X2 x2 Y2 Hw2 Hb2 Hx2 Hy2| | |]; subst. clear C'.
    pose proof (holds_shape _ _ _ _ _ _ Hw2 Hw) as E. injection E as -> ->.
    pose proof (holds_fun _ _ _ _ _ Hw Hw2) as Q1. pose proof (holds_fun _ _ _ _ _ Hb Hb2) as Q2.
    pose proof (holds_fun _ _ _ _ _ Hw Hw') as Q5. pose proof (holds_fun _ _ _ _ _ Hb Hb') as Q6.
    split; [rewrite (proj2 (holds_shaped _ _ _ _ Hy)), (proj2 (holds_shaped _ _ _ _ Hy2)); reflexivity|].
    apply (holds_leq _ _ _ _ _ _ Hy Hy2). intros i j k (Hi & Hj & Hk). cbn [di dj dk] in *. cbv beta. cbn [fadd fmul f32_arith].
    assert (H0 : forall p, (p < n)%N -> inputs (x0 p 0%N 0%N) (x2 p 0%N 0%N)).
    { intros p Hp. rewrite (holds_leq _ _ _ _ _ _ Hx Hx2) in H. apply H. repeat split; cbn [di dj dk]; lia. }
    rewrite <- Q2 by (repeat split; cbn [di dj dk]; lia).
    apply (affine_leq e (upto n) (fun p => f32_mul e (w i p 0%N) (x0 p 0%N 0%N)) (fun p => f32_mul e (w2 i p 0%N) (x2 p 0%N 0%N))).
    + intros p Hp. apply in_upto in Hp. rewrite <- Q1 by (repeat split; cbn [di dj dk]; lia). destruct (H0 p Hp) as (P1 & P2 & L).
      apply mul_leq_l; try assumption. rewrite Q5 by (repeat split; cbn [di dj dk]; lia). apply Pw; assumption.
    + rewrite Q6 by (repeat split; cbn [di dj dk]; lia). apply Pb. exact Hi.
  - inversion HB as [|? ? ? ? ? ks' h' b' AR' Hk' Hb' Pw Pb|]; subst. clear HB. subst AR'.
    inversion C' as [|? ? ? ? ? ks2 h2 bv2 X2 x2 Y2 Hk2 Hl12 Hl22 Hb2 Hc2 Hx2 Hy2| |]; subst. clear C'.
    split; [rewrite (proj2 (holds_shaped _ _ _ _ Hy)), (proj2 (holds_shaped _ _ _ _ Hy2)); reflexivity|].
    apply (holds_leq _ _ _ _ _ _ Hy Hy2). intros i j k Hin. pose proof Hin as (Hi & Hj & Hkk). cbv beta.
    assert (Lt : (N.to_nat k < length kt)%nat) by (unfold len in Hl1; lia).
    destruct (nth_error kt (N.to_nat k)) as [tk|] eqn:Nk; [|apply nth_error_None in Nk; lia].
    pose proof (Hk k tk Nk) as Kk. pose proof (holds_shape _ _ _ _ _ _ (Hk2 k tk Nk) Kk) as ->. pose proof (holds_shape _ _ _ _ _ _ (Hk' k tk Nk) Kk) as ->.
    pose proof (holds_fun _ _ _ _ _ Kk (Hk2 k tk Nk)) as Q1. pose proof (holds_fun _ _ _ _ _ Kk (Hk' k tk Nk)) as Q5.
    destruct (nth_error bt (N.to_nat k)) as [tb|] eqn:Nb; [|apply nth_error_None in Nb; unfold len in Hl2; lia].
    pose proof (Hb k tb Nb) as B1. pose proof (Hb2 k tb Nb) as B2. pose proof (Hb' k tb Nb) as B3. rewrite B1 in B2. injection B2 as <-. pose proof (eq_trans (eq_sym B1) B3) as E3. injection E3 as E3.
    rewrite (holds_leq _ _ _ _ _ _ Hx Hx2) in H. unfold window_products. cbn [fadd f32_arith].
    apply (affine_leq e (cells ks) (fun '(p, q, c) => f32_mul e (x0 (i * st + p)%N (j * st + q)%N c) (h k p q c))
      (fun '(p, q, c) => f32_mul e (x2 (i * st + p)%N (j * st + q)%N c) (h2 k p q c))).
    + intros ((p & q) & c) Hp. apply in_cells in Hp. rewrite <- Q1 by exact Hp.
      assert (Hpos : in_shape ins (i * st + p) (j * st + q) c) by (exact (conv_inside _ _ _ _ _ _ _ _ _ _ (Hc k Hkk) Hi Hj Hp)).
      destruct (H _ _ _ Hpos) as (P1 & P2 & L). apply mul_leq_r; try assumption. rewrite Q5 by exact Hp. apply Pw; assumption.
    + rewrite E3. apply Pb. exact Hkk.
  - inversion HB as [| |? ? ? ? M1 M2]; subst. clear HB.
    inversion C' as [| |? ? ? ? X2 x2 Y2 Hp2 Hx2 Hy2|]; subst. clear C'.
    split; [rewrite (proj2 (holds_shaped _ _ _ _ Hy)), (proj2 (holds_shaped _ _ _ _ Hy2)); reflexivity|].
    apply (holds_leq _ _ _ _ _ _ Hy Hy2). intros i j k Hin. cbv beta. unfold window_values. rewrite (holds_leq _ _ _ _ _ _ Hx Hx2) in H.
    apply max_leq; [apply window_nonempty; assumption|]. intros ((p & q) & r) Hc.
    assert (Hpos : in_shape ins p q r) by (eapply pool_inside; eassumption). destruct (H _ _ _ Hpos) as (P1 & P2 & L).
    destruct P1 as (F1 & P1), P2 as (F2 & P2). split; [apply fin_nan; exact F1|]. split; [apply fin_nan; exact F2|]. rewrite !rank_finite by assumption. lra.
  - inversion HB.
Qed.
End Layers.

(** ** Networks *)
Lemma network_mono e bm (n : network f32) (X X' : tensor f32) :
  @well_built f32 (f32_arith e) f32_bits bm n -> layers n <> [] -> shaped X (net_input_shape n) -> shaped X' (net_input_shape n) ->
  Forall (positive_layer e bm) (map params_of (layers n)) ->
  Forall2 (fun a b => fin a = true /\ fin b = true /\ 0 <= real a <= real b) (data X) (data X') ->
  exists n1 n1', @infer bm f32 (f32_arith e) n X = Done (n1, Ok tt) /\ @infer bm f32 (f32_arith e) n X' = Done (n1', Ok tt)
    /\ ((forall i t, (i < len (layers n))%N -> get_intermediate_state n1' i = Done (Ok t) -> Forall (fun v => fin v = true) (data t)) ->
        forall i, (i <= len (layers n))%N -> exists t t', get_intermediate_state n1 i = Done (Ok t) /\ get_intermediate_state n1' i = Done (Ok t')
          /\ tshape t = tshape t' /\ Forall2 (fun a b => isnan a = false /\ isnan b = false /\ f32_gtb a b = false) (data t) (data t')).
Proof.
  intros B NE SX SX' HP HX. pose proof (@built_ok f32 (f32_arith e) f32_bits bm n (f32_relu_agrees e) B) as Ok.
  destruct (@state_step f32 (f32_arith e) (f32_relu_agrees e) bm n X Ok NE SX) as (n1 & E1 & _ & Z1 & T1).
  destruct (@state_step f32 (f32_arith e) (f32_relu_agrees e) bm n X' Ok NE SX') as (n1' & E1' & _ & Z1' & T1').
  exists n1, n1'. split; [exact E1|]. split; [exact E1'|]. intros Fi.
  assert (G : forall i, (i <= length (layers n))%nat -> exists t t', nth_error (intermediate_states n1) i = Some t /\ nth_error (intermediate_states n1') i = Some t'
    /\ tshape t = tshape t' /\ Forall2 leq (data t) (data t')).
  { induction i as [|i IH]; intros Hi.
    - exists X, X'. split; [exact Z1|]. split; [exact Z1'|]. split; [rewrite (proj2 SX), (proj2 SX'); reflexivity|].
      eapply Forall2_weaken; [|exact HX]. intros a b (Fa & Fb & H). split; [apply fin_nan; exact Fa|]. split; [apply fin_nan; exact Fb|].
      rewrite !rank_finite by assumption. exact H.
    - destruct IH as (t & t' & Nt & Nt' & _ & L); [lia|].
      destruct (nth_error (layers n) i) as [l|] eqn:Nl; [|apply nth_error_None in Nl; lia].
      destruct (T1 i l Nl) as (x & y & Nx & Ny & C). destruct (T1' i l Nl) as (x' & y' & Nx' & Ny' & C').
      rewrite Nt in Nx. injection Nx as <-. rewrite Nt' in Nx'. injection Nx' as <-.
      assert (Ft : Forall (fun v => fin v = true) (data t')).
      { apply (Fi (N.of_nat i)); [unfold len; lia|]. apply exposed_state. rewrite Nnat.Nat2N.id. exact Nt'. }
      exists y, y'. split; [exact Ny|]. split; [exact Ny'|]. apply (layer_mono e bm (params_of l) t t' y y' C C').
      + clear - L Ft. induction L as [|a b l l' H L IH]; [constructor|]. inversion Ft; subst. constructor; [|apply IH; assumption].
        pose proof (leq_fin _ _ H H2) as Fa. destruct H as (_ & _ & H). rewrite !rank_finite in H by assumption. repeat split; try assumption; lra.
      + rewrite Forall_forall in HP. apply HP. apply in_map. eapply nth_error_In; exact Nl. }
  intros i Hi. destruct (G (N.to_nat i)) as (t & t' & N1 & N2 & S & L); [unfold len in Hi; lia|].
  exists t, t'. split; [apply exposed_state; exact N1|]. split; [apply exposed_state; exact N2|]. split; [exact S|].
  eapply Forall2_weaken; [|exact L]. intros a b (Na & Nb & H). split; [exact Na|]. split; [exact Nb|]. apply gtb_false; [exact Na|exact Nb|lra].
Qed.
