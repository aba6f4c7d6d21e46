(** * Fixed-point networks are computed without rounding *)
From Coq Require Import Reals Lra ZifyBool ZifyNat ZifyN.
From Flocq Require Import Core IEEE754.Binary.
From Verif Require Import Base Arith Helper Tensor Network Bincode Serial Spec SpecLayer SpecNet SpecReal Loops TensorFacts OpsFacts ProofsTensor LayerFacts NetFacts NetRun RealArith RealSums Float32 Float32Facts.
From Verif Require Import SpecError FloatError SpecNetError SpecGrid ProofsFloat ProofsGrad ProofsNetError.
Local Open Scope R_scope.

Lemma grid_bpow g x : on_grid g x <-> exists z, x = IZR z * bpow radix2 g.
Proof. unfold on_grid. setoid_rewrite bpow_powerRZ. reflexivity. Qed.

Lemma grid_zero g : on_grid g 0.
Proof. exists 0%Z. lra. Qed.

Lemma grid_add g x y : on_grid g x -> on_grid g y -> on_grid g (x + y).
Proof. intros (a & ->) (b & ->). exists (a + b)%Z. rewrite plus_IZR. ring. Qed.

Lemma grid_mul g h x y : on_grid g x -> on_grid h y -> on_grid (g + h) (x * y).
Proof. rewrite !grid_bpow. intros (a & ->) (b & ->). exists (a * b)%Z. rewrite mult_IZR, bpow_plus. ring. Qed.

(** Such numbers are f32 values. *)
Lemma grid_format g a x : fits_grid g a -> on_grid g x -> Rabs x <= a -> rnd x = x /\ Rabs x < bpow radix2 128.
Proof.
  intros ((G1 & G2) & Ha) Hx L. apply grid_bpow in Hx. destruct Hx as (z & ->). change 2 with (IZR (radix_val radix2)) in Ha at 2. rewrite <- bpow_powerRZ in Ha.
  assert (P : 0 < bpow radix2 g) by apply bpow_gt_0.
  assert (Lz : Rabs (IZR z) <= 2 ^ 24).
  { rewrite Rabs_mult, (Rabs_pos_eq (bpow radix2 g)) in L by lra. apply Rmult_le_reg_r with (bpow radix2 g); [exact P|]. lra. }
  rewrite <- abs_IZR in Lz. replace (2 ^ 24) with (IZR 16777216) in Lz by (cbn; lra). apply le_IZR in Lz. split.
  - apply round_generic; [typeclasses eauto|]. destruct (Z.eq_dec (Z.abs z) 16777216) as [E|E].
    + apply generic_format_FLT. exists (Float radix2 (Z.sgn z) (g + 24)); [|cbn; lia|cbn; lia].
      unfold F2R. cbn [Fnum Fexp]. rewrite bpow_plus. replace z with (Z.sgn z * 16777216)%Z at 1 by lia. rewrite mult_IZR. change (bpow radix2 24) with (IZR 16777216). ring.
    + apply generic_format_FLT. exists (Float radix2 z g); [reflexivity|cbn; lia|cbn; lia].
  - rewrite Rabs_mult, (Rabs_pos_eq (bpow radix2 g)), <- abs_IZR by lra. apply Rle_lt_trans with (IZR 16777216 * bpow radix2 g).
    + apply Rmult_le_compat_r; [lra|]. apply IZR_le. exact Lz.
    + change (IZR 16777216) with (bpow radix2 24). rewrite <- bpow_plus. apply bpow_lt. lia.
Qed.

Lemma Rsum_term {A} (f : A -> R) l p : (forall x, In x l -> 0 <= f x) -> In p l -> f p <= Rsum (map f l).
Proof.
  induction l as [|q l IH]; intros H I; [destruct I|]. cbn [map]. rewrite Rsum_cons.
  assert (P : 0 <= Rsum (map f l)) by (apply Rsum_nonneg; intros; apply H; right; assumption). pose proof (H q (or_introl eq_refl)) as Q. destruct I as [->|I]; [lra|].
  specialize (IH (fun x Hx => H x (or_intror Hx)) I). lra.
Qed.

Lemma Rsum_abs {A} (f : A -> R) l : Rabs (Rsum (map f l)) <= Rsum (map (fun x => Rabs (f x)) l).
Proof.
  induction l as [|q l IH]; [cbn; rewrite Rabs_R0; lra|]. cbn [map]. rewrite !Rsum_cons. eapply Rle_trans; [apply Rabs_triang|]. lra.
Qed.

Section Sums.
Context (e : env).
#[local] Hint Extern 0 (Arith f32) => exact (f32_arith e) : typeclass_instances.

Lemma add_exact g a (x y : f32) : fits_grid g a -> fin x = true -> fin y = true -> on_grid g (real x + real y) -> Rabs (real x + real y) <= a ->
  fin (f32_add e x y) = true /\ real (f32_add e x y) = real x + real y.
Proof.
  intros Ft Fx Fy G L. destruct (grid_format g a _ Ft G L) as (R1 & R2).
  pose proof (Binary.Bplus_correct 24 128 f32_prec f32_emax (nan_add e) BinarySingleNaN.mode_NE x y Fx Fy) as C.
  change (round radix2 _ _ (real x + real y)) with (rnd (real x + real y)) in C. rewrite R1, Rlt_bool_true in C by exact R2. destruct C as (C1 & C2 & _). auto.
Qed.

Lemma mul_exact g a (x y : f32) : fits_grid g a -> fin x = true -> fin y = true -> on_grid g (real x * real y) -> Rabs (real x * real y) <= a ->
  fin (f32_mul e x y) = true /\ real (f32_mul e x y) = real x * real y.
Proof.
  intros Ft Fx Fy G L. destruct (grid_format g a _ Ft G L) as (R1 & R2).
  pose proof (Binary.Bmult_correct 24 128 f32_prec f32_emax (nan_mul e) BinarySingleNaN.mode_NE x y) as C.
  change (round radix2 _ _ (real x * real y)) with (rnd (real x * real y)) in C. rewrite R1, Rlt_bool_true in C by exact R2. destruct C as (C1 & C2 & _).
  rewrite Fx, Fy in C2. auto.
Qed.

Lemma sum_exact {A} g a (t : A -> f32) (l : list A) : fits_grid g a -> (forall p, In p l -> fin (t p) = true /\ on_grid g (real (t p))) ->
  forall acc, fin acc = true -> on_grid g (real acc) -> Rabs (real acc) + Rsum (map (fun p => Rabs (real (t p))) l) <= a ->
  let s := fold_left (f32_add e) (map t l) acc in fin s = true /\ on_grid g (real s) /\ real s = real acc + Rsum (map (fun p => real (t p)) l).
Proof.
  intros Ft. induction l as [|p l IH]; intros H acc Fa Ga L; cbn [map fold_left]; [cbn; rewrite Rplus_0_r; auto|].
  cbn [map] in L. rewrite Rsum_cons in L |- *. destruct (H p (or_introl eq_refl)) as (Fp & Gp).
  assert (P : 0 <= Rsum (map (fun p => Rabs (real (t p))) l)) by (apply Rsum_nonneg; intros; apply Rabs_pos).
  pose proof (Rabs_triang (real acc) (real (t p))) as Tr.
  destruct (add_exact g a acc (t p) Ft Fa Fp) as (Fs & Es); [apply grid_add; assumption|lra|].
  destruct (IH (fun q Hq => H q (or_intror Hq)) (f32_add e acc (t p)) Fs) as (F1 & G1 & E1).
  - rewrite Es. apply grid_add; assumption.
  - rewrite Es. lra.
  - split; [exact F1|]. split; [exact G1|]. rewrite E1, Es. ring.
Qed.

Lemma affine_exact {A} (l : list A) (f x : A -> f32) (x' : A -> R) b g h a w B :
  0 <= a -> (forall p, In p l -> fin (f p) = true /\ on_grid h (real (f p))) -> fin b = true -> on_grid (h + g) (real b) ->
  (forall p, In p l -> fin (x p) = true /\ real (x p) = x' p /\ on_grid g (x' p) /\ Rabs (x' p) <= a) ->
  Rsum (map (fun p => Rabs (real (f p))) l) <= w -> Rabs (real b) <= B -> fits_grid (h + g) (w * a + B) ->
  let z := Rsum (map (fun p => real (f p) * x' p) l) + real b in
  (let s := fadd (sum (map (fun p => fmul (f p) (x p)) l)) b in fin s = true /\ real s = z)
  /\ (let s := fadd (sum (map (fun p => fmul (x p) (f p)) l)) b in fin s = true /\ real s = z)
  /\ on_grid (h + g) z /\ Rabs z <= w * a + B.
Proof.
  intros Ha Hf Fb Gb Hx HW HB Ft z.
  assert (Ab : Rsum (map (fun p => Rabs (real (f p) * x' p)) l) <= w * a).
  { apply Rle_trans with (Rsum (map (fun p => Rabs (real (f p)) * a) l)).
    - apply Rsum_le. intros p Hp. rewrite Rabs_mult. apply Rmult_le_compat_l; [apply Rabs_pos|]. apply Hx. exact Hp.
    - rewrite Rsum_scale_r. apply Rmult_le_compat_r; assumption. }
  assert (Ps : forall p, In p l -> Rabs (real (f p) * x' p) <= w * a).
  { intros p Hp. eapply Rle_trans; [|exact Ab]. apply (Rsum_term (fun p => Rabs (real (f p) * x' p))); [|exact Hp]. intros; apply Rabs_pos. }
  assert (PB : 0 <= B) by (pose proof (Rabs_pos (real b)); lra).
  assert (Gen : forall t : A -> f32, (forall p, In p l -> fin (t p) = true /\ real (t p) = real (f p) * x' p) ->
    let s := f32_add e (fold_left (f32_add e) (map t l) f32_zero) b in fin s = true /\ real s = z /\ on_grid (h + g) z /\ Rabs z <= w * a + B).
  { intros t Ht.
    assert (Gt : forall p, In p l -> on_grid (h + g) (real (f p) * x' p)) by (intros p Hp; apply grid_mul; [apply Hf|apply Hx]; exact Hp).
    assert (E0 : Rsum (map (fun p => Rabs (real (t p))) l) = Rsum (map (fun p => Rabs (real (f p) * x' p)) l)).
    { apply Rsum_ext. intros p Hp. rewrite (proj2 (Ht p Hp)). reflexivity. }
    destruct (sum_exact (h + g) (w * a + B) t l Ft) with (acc := f32_zero) as (F1 & G1 & E1).
    - intros p Hp. destruct (Ht p Hp) as (Fp & Ep). split; [exact Fp|]. rewrite Ep. apply Gt. exact Hp.
    - reflexivity.
    - apply grid_zero.
    - change (real f32_zero) with 0. rewrite Rabs_R0, E0. lra.
    - assert (E2 : real (fold_left (f32_add e) (map t l) f32_zero) = Rsum (map (fun p => real (f p) * x' p) l)).
      { rewrite E1. change (real f32_zero) with 0. rewrite Rplus_0_l. apply Rsum_ext. intros p Hp. apply Ht. exact Hp. }
      assert (Gz : on_grid (h + g) z) by (unfold z; apply grid_add; [rewrite <- E2|]; assumption).
      assert (Lz : Rabs z <= w * a + B).
      { unfold z. eapply Rle_trans; [apply Rabs_triang|]. apply Rplus_le_compat; [|exact HB]. eapply Rle_trans; [apply Rsum_abs|exact Ab]. }
      destruct (add_exact (h + g) (w * a + B) (fold_left (f32_add e) (map t l) f32_zero) b Ft F1 Fb) as (F2 & E3); [rewrite E2; exact Gz|rewrite E2; exact Lz|].
      split; [exact F2|]. rewrite E3, E2. auto. }
  assert (Q : forall p, In p l -> real (f p) * real (x p) = real (f p) * x' p) by (intros p Hp; destruct (Hx p Hp) as (_ & -> & _); reflexivity).
  destruct (Gen (fun p => f32_mul e (f p) (x p))) as (A1 & A2 & A3 & A4).
  { intros p Hp. destruct (Hf p Hp) as (F1 & _), (Hx p Hp) as (F2 & _). rewrite <- (Q p Hp).
    apply (mul_exact (h + g) (w * a + B)); try assumption; rewrite (Q p Hp); [|pose proof (Ps p Hp); lra]. apply grid_mul; [apply Hf|apply Hx]; exact Hp. }
  destruct (Gen (fun p => f32_mul e (x p) (f p))) as (B1 & B2 & _).
  { intros p Hp. destruct (Hf p Hp) as (F1 & _), (Hx p Hp) as (F2 & _). rewrite <- (Q p Hp), Rmult_comm.
    apply (mul_exact (h + g) (w * a + B)); try assumption; rewrite Rmult_comm, (Q p Hp); [|pose proof (Ps p Hp); lra]. apply grid_mul; [apply Hf|apply Hx]; exact Hp. }
  repeat split; assumption.
Qed.

Lemma relu_exact (s : f32) z a g : fin s = true -> real s = z -> on_grid g z -> Rabs z <= a ->
  fin (relu s) = true /\ real (relu s) = Rmax 0 z /\ on_grid g (Rmax 0 z) /\ Rabs (Rmax 0 z) <= a.
Proof.
  intros Fs E G L. destruct (relu_near s z a 0 Fs) as (F & D & A); [rewrite E, Rminus_diag_eq, Rabs_R0 by reflexivity; lra|exact L|].
  split; [exact F|]. split; [apply Rabs_le_inv in D; lra|]. split; [|exact A]. unfold Rmax. destruct (Rle_dec 0 z); [exact G|apply grid_zero].
Qed.

Lemma running_max_in low (l : list R) a : l <> [] -> low <= - a -> (forall x, In x l -> Rabs x <= a) -> In (@running_max R (R_arith low) l) l.
Proof.
  intros NE Hl H. destruct l as [|x l]; [congruence|]. unfold running_max. cbn [fold_left]. cbn [fgtb fninf R_arith].
  assert (Ax := H x (or_introl eq_refl)). apply Rabs_le_inv in Ax.
  replace (if (if Rlt_dec low x then true else false) then x else low) with x by (destruct (Rlt_dec low x); [reflexivity|lra]).
  clear. revert x. induction l as [|y l IH]; intros x; cbn [fold_left]; [left; reflexivity|]. destruct (Rlt_dec x y).
  - right. apply IH.
  - destruct (IH x) as [E|I]; [left; exact E|right; right; exact I].
Qed.
End Sums.

Section Net.
Context (e : env) (low : R) (bm : build).
Notation AF := (f32_arith e).
Notation AR := (R_arith low).

Lemma layer_exact p p' X X' Y Y' s x x' g a g1 a1 : exact_params p p' ->
  @computes f32 AF bm p X Y -> @computes R AR bm p' X' Y' -> @holds f32 AF bm X s x -> @holds R AR bm X' s x' ->
  0 <= a -> exact_on g a s x x' -> layer_grid low bm p' g a g1 a1 ->
  exists s1 y y', @holds f32 AF bm Y s1 y /\ @holds R AR bm Y' s1 y' /\ exact_on g1 a1 s1 y y'.
Proof.
  intros EP C C' HX HX' Ha Hn HB.
  destruct C as [wt bt m n w b X0 x0 Y0 Hw Hb Hx Hy|kt bt st ins outs ks h bv X0 x0 Y0 Hk Hl1 Hl2 Hb Hc Hx Hy|ins mask outs st X0 x0 Y0 Hp Hx Hy|s0 X0 x0 Y0 Hx Hy].
  - destruct p' as [wt' bt'| | |]; try contradiction EP. destruct EP as (Ew & Eb).
    inversion HB as [? ? m' n' wv' bv' W B g' gw a' AR' Hw' Hb' GW GB HW HBs W0 B0 Hfit| |]; subst. clear HB. subst AR'.
    destruct (exact_holds e low bm _ _ _ _ Ew Hw) as (Kw & Fw). destruct (exact_holds e low bm _ _ _ _ Eb Hb) as (Kb & Fb).
    pose proof (holds_shape _ _ _ _ _ _ Hw' Kw) as E. injection E as -> ->.
    pose proof (holds_shape _ _ _ _ _ _ HX Hx) as ->.
    inversion C' as [? ? m2 n2 w2 b2 X2 x2 Y2 Hw2 Hb2 Hx2 Hy2| | |]; subst. clear C'.
    pose proof (holds_shape _ _ _ _ _ _ Hw2 Kw) as E. injection E as -> ->.
    pose proof (holds_fun _ _ _ _ _ Kw Hw2) as Q1. pose proof (holds_fun _ _ _ _ _ Kb Hb2) as Q2. pose proof (holds_fun _ _ _ _ _ HX' Hx2) as Q3.
    pose proof (holds_fun _ _ _ _ _ HX Hx) as Q4. pose proof (holds_fun _ _ _ _ _ Kw Hw') as Q5. pose proof (holds_fun _ _ _ _ _ Kb Hb') as Q6.
    do 3 eexists. split; [exact Hy|]. split; [exact Hy2|]. intros i j k (Hi & Hj & Hk). cbn [di dj dk] in *. cbv beta.
    rewrite relu_R. cbn [fadd fmul R_arith]. rewrite sum_Rsum.
    destruct (affine_exact e (upto n) (fun p => w i p 0%N) (fun p => x0 p 0%N 0%N) (fun p => x2 p 0%N 0%N) (b i 0%N 0%N) g gw a W B) as ((F1 & E1) & _ & E2 & E3); try assumption.
    + intros p Hp. apply in_upto in Hp. split; [apply Fw; repeat split; cbn [di dj dk]; lia|]. pose proof (GW i p Hi Hp) as H. rewrite <- Q5 in H by (repeat split; cbn [di dj dk]; lia). exact H.
    + apply Fb. repeat split; cbn [di dj dk]; lia.
    + pose proof (GB i Hi) as H. rewrite <- Q6 in H by (repeat split; cbn [di dj dk]; lia). exact H.
    + intros p Hp. apply in_upto in Hp. rewrite <- Q3, <- Q4 by (repeat split; cbn [di dj dk]; lia). apply Hn. repeat split; cbn [di dj dk]; lia.
    + rewrite (Rsum_ext _ (fun p => Rabs (wv' i p 0%N))); [apply HW; exact Hi|]. intros p Hp. apply in_upto in Hp.
      rewrite <- Q5 by (repeat split; cbn [di dj dk]; lia). reflexivity.
    + pose proof (HBs i Hi) as H. rewrite <- Q6 in H by (repeat split; cbn [di dj dk]; lia). exact H.
    + cbv beta in *.
      assert (Z : Rsum (map (fun p => w2 i p 0%N * x2 p 0%N 0%N) (upto n)) + b2 i 0%N 0%N
                  = Rsum (map (fun p => real (w i p 0%N) * x2 p 0%N 0%N) (upto n)) + real (b i 0%N 0%N)).
      { f_equal; [apply Rsum_ext; intros p Hp; apply in_upto in Hp|]; [rewrite <- Q1|rewrite <- Q2]; try reflexivity; repeat split; cbn [di dj dk]; lia. }
      rewrite Z. apply relu_exact; assumption.
  - destruct p' as [|kt' bt' st' ins' outs'| |]; try contradiction EP. destruct EP as (Ek & Eb & -> & -> & ->).
    inversion HB as [|? ? ? ? ? ks' h' bv' W B g' gw a' AR' Hk' Hb' GW GB HW HBs W0 B0 Hfit|]; subst. clear HB. subst AR'.
    pose proof (holds_shape _ _ _ _ _ _ HX Hx) as ->.
    inversion C' as [|? ? ? ? ? ks2 h2 bv2 X2 x2 Y2 Hk2 Hl12 Hl22 Hb2 Hc2 Hx2 Hy2| |]; subst. clear C'.
    do 3 eexists. split; [exact Hy|]. split; [exact Hy2|]. intros i j k Hin. pose proof Hin as (Hi & Hj & Hkk). cbv beta.
    rewrite relu_R. cbn [fadd R_arith]. rewrite sum_Rsum.
    assert (Lt : (N.to_nat k < length kt)%nat) by (unfold len in Hl1; lia).
    destruct (nth_error kt (N.to_nat k)) as [tk|] eqn:Nk; [|apply nth_error_None in Nk; lia].
    destruct (exact_nth _ _ _ _ Ek Nk) as (tk' & Nk' & Etk).
    destruct (exact_holds e low bm _ _ _ _ Etk (Hk k tk Nk)) as (Kk & Fk).
    pose proof (holds_shape _ _ _ _ _ _ (Hk2 k tk' Nk') Kk) as ->. pose proof (holds_shape _ _ _ _ _ _ (Hk' k tk' Nk') Kk) as ->.
    pose proof (holds_fun _ _ _ _ _ Kk (Hk2 k tk' Nk')) as Q1. pose proof (holds_fun _ _ _ _ _ Kk (Hk' k tk' Nk')) as Q5.
    destruct (nth_error bt (N.to_nat k)) as [tb|] eqn:Nb; [|apply nth_error_None in Nb; unfold len in Hl2; lia].
    destruct (exact_nth _ _ _ _ Eb Nb) as (tb' & Nb' & Etb). destruct (exact_item e low bm _ _ _ _ Etb (Hb k tb Nb)) as (Kb & Fb).
    pose proof (Hb2 k tb' Nb') as Q2. rewrite Kb in Q2. injection Q2 as Q2. pose proof (Hb' k tb' Nb') as Q6. rewrite Kb in Q6. injection Q6 as Q6.
    pose proof (holds_fun _ _ _ _ _ HX' Hx2) as Q3. pose proof (holds_fun _ _ _ _ _ HX Hx) as Q4.
    destruct (affine_exact e (cells ks) (fun '(p, q, c) => h k p q c) (fun '(p, q, c) => x0 (i * st + p)%N (j * st + q)%N c)
      (fun '(p, q, c) => x2 (i * st + p)%N (j * st + q)%N c) (bv k) g gw a W B) as (_ & (F1 & E1) & E2 & E3); try assumption.
    + intros ((p & q) & c) Hp. apply in_cells in Hp. split; [apply Fk; exact Hp|]. rewrite (Q5 _ _ _ Hp). apply GW; assumption.
    + rewrite Q6. apply GB. exact Hkk.
    + intros ((p & q) & c) Hp. apply in_cells in Hp.
      assert (Hpos : in_shape ins (i * st + p) (j * st + q) c).
      { pose proof (Hc k Hkk) as Hck. apply (conv_inside _ _ _ _ _ _ _ _ _ _ Hck Hi Hj Hp). }
      rewrite <- Q3, <- Q4 by exact Hpos. apply Hn. exact Hpos.
    + rewrite (Rsum_ext _ (fun '(p, q, c) => Rabs (h' k p q c))); [apply HW; exact Hkk|]. intros ((p & q) & c) Hp. apply in_cells in Hp.
      rewrite <- Q5 by exact Hp. reflexivity.
    + rewrite Q6. apply HBs. exact Hkk.
    + cbv beta in *. unfold window_products.
      assert (Z : Rsum (map (fun '(p, q, c) => @fmul R AR (x2 (i * st + p)%N (j * st + q)%N c) (h2 k p q c)) (cells ks)) + bv2 k
                  = Rsum (map (fun t : N * N * N => real (let '(p, q, c) := t in h k p q c) * (let '(p, q, c) := t in x2 (i * st + p)%N (j * st + q)%N c)) (cells ks)) + real (bv k)).
      { f_equal; [|symmetry; exact Q2]. apply Rsum_ext. intros ((p & q) & c) Hp. apply in_cells in Hp. cbn [fmul R_arith]. rewrite <- Q1 by exact Hp. ring. }
      rewrite Z. rewrite (map_ext (fun '(p, q, c) => @fmul f32 AF (x0 (i * st + p)%N (j * st + q)%N c) (h k p q c))
        (fun t => @fmul f32 AF (let '(p, q, c) := t in x0 (i * st + p)%N (j * st + q)%N c) (let '(p, q, c) := t in h k p q c))) by (intros ((p & q) & c); reflexivity).
      apply relu_exact; assumption.
  - destruct p' as [| |ins' mask' outs' st'|]; try contradiction EP. destruct EP as (-> & -> & -> & ->).
    inversion HB as [| |? ? ? ? g' a' M1 M2 Hlow]; subst. clear HB. pose proof (holds_shape _ _ _ _ _ _ HX Hx) as ->.
    inversion C' as [| |? ? ? ? X2 x2 Y2 Hp2 Hx2 Hy2|]; subst. clear C'.
    pose proof (holds_fun _ _ _ _ _ HX' Hx2) as Q3. pose proof (holds_fun _ _ _ _ _ HX Hx) as Q4.
    do 3 eexists. split; [exact Hy|]. split; [exact Hy2|]. intros i j k Hin. cbv beta. unfold window_values.
    set (ps := window_positions (di mask) (dj mask) st i j k).
    assert (Pos : forall p q r, In (p, q, r) ps -> in_shape ins p q r) by (intros; eapply pool_inside; eassumption).
    assert (NE : ps <> []) by (apply window_nonempty; assumption).
    pose proof (running_max_near e low (map (fun '(p, q, c) => (x0 p q c, x2 p q c)) ps) a1 0) as G. rewrite !map_map in G.
    rewrite (map_ext (fun x => fst (let '(p, q, c) := x in (x0 p q c, x2 p q c))) (fun '(p, q, c) => x0 p q c)) in G by (intros ((? & ?) & ?); reflexivity).
    rewrite (map_ext (fun x => snd (let '(p, q, c) := x in (x0 p q c, x2 p q c))) (fun '(p, q, c) => x2 p q c)) in G by (intros ((? & ?) & ?); reflexivity).
    destruct G as (F1 & D1 & A1); [intros E; apply map_eq_nil in E; contradiction|exact Hlow| |].
    + intros c Hc. apply in_map_iff in Hc. destruct Hc as (((p & q) & r) & <- & Hc). cbn [fst snd].
      pose proof (Pos _ _ _ Hc) as Hpos. rewrite <- Q3, <- Q4 by exact Hpos. destruct (Hn _ _ _ Hpos) as (F & -> & _ & A). rewrite Rminus_diag_eq, Rabs_R0 by reflexivity. split; [exact F|]. split; [lra|exact A].
    + split; [exact F1|]. split; [apply Rabs_le_inv in D1; lra|]. split; [|exact A1].
      assert (I : In (@running_max R AR (map (fun '(p, q, c) => x2 p q c) ps)) (map (fun '(p, q, c) => x2 p q c) ps)).
      { apply running_max_in with a1; [intros E; apply map_eq_nil in E; contradiction|exact Hlow|].
        intros v Hv. apply in_map_iff in Hv. destruct Hv as (((p & q) & r) & <- & Hc). pose proof (Pos _ _ _ Hc) as Hpos. rewrite <- Q3 by exact Hpos. apply (Hn _ _ _ Hpos). }
      apply in_map_iff in I. destruct I as (((p & q) & r) & <- & Hc). pose proof (Pos _ _ _ Hc) as Hpos. rewrite <- Q3 by exact Hpos. apply (Hn _ _ _ Hpos).
  - destruct p' as [| | |s']; try contradiction EP. inversion HB.
Qed.

Lemma layer_grid_pos p g a g1 a1 : layer_grid low bm p g a g1 a1 -> 0 <= a -> 0 <= a1.
Proof. intros H Ha. destruct H; [| |exact Ha]; (apply Rplus_le_le_0_compat; [apply Rmult_le_pos|]; assumption). Qed.

Lemma composes_exact ps ps' : forall X X' Y Y' s x x' g a g1 a1, Forall2 exact_params ps ps' ->
  @composes f32 AF bm ps X Y -> @composes R AR bm ps' X' Y' -> @holds f32 AF bm X s x -> @holds R AR bm X' s x' ->
  0 <= a -> exact_on g a s x x' -> net_grid low bm ps' g a g1 a1 ->
  exists s1 y y', @holds f32 AF bm Y s1 y /\ @holds R AR bm Y' s1 y' /\ exact_on g1 a1 s1 y y'.
Proof.
  intros X X' Y Y' s x x' g a g1 a1 H. revert X X' s x x' g a. induction H as [|p p' ps ps' Hp H IH]; intros X X' s x x' g a C C' HX HX' Ha Hn HB.
  - cbn [composes] in C, C'. subst. inversion HB; subst. eauto 6.
  - cbn [composes] in C, C'. destruct C as (Z & C1 & C2), C' as (Z' & C1' & C2'). inversion HB; subst.
    destruct (layer_exact _ _ _ _ _ _ _ _ _ _ _ _ _ Hp C1 C1' HX HX' Ha Hn ltac:(eassumption)) as (s1 & y & y' & Hy & Hy' & Hn1).
    eapply IH; [exact C2|exact C2'|exact Hy|exact Hy'| |exact Hn1|eassumption]. eapply layer_grid_pos; eassumption.
Qed.
End Net.

Lemma network_exact e (BT : Bits R) low bm (n : network f32) (n' : network R) X X' x x' g a g1 a1 :
  @well_built f32 (f32_arith e) f32_bits bm n -> @well_built R (R_arith low) BT bm n' -> layers n <> [] ->
  Forall2 exact_params (map params_of (layers n)) (map params_of (layers n')) -> net_input_shape n' = net_input_shape n ->
  @holds f32 (f32_arith e) bm X (net_input_shape n) x -> @holds R (R_arith low) bm X' (net_input_shape n) x' ->
  0 <= a -> exact_on g a (net_input_shape n) x x' -> net_grid low bm (map params_of (layers n')) g a g1 a1 ->
  exists n1 n1' Y Y' s y y',
    @infer bm f32 (f32_arith e) n X = Done (n1, Ok tt) /\ get_output n1 = Done (Ok Y)
    /\ @infer bm R (R_arith low) n' X' = Done (n1', Ok tt) /\ get_output n1' = Done (Ok Y')
    /\ @holds f32 (f32_arith e) bm Y s y /\ @holds R (R_arith low) bm Y' s y' /\ exact_on g1 a1 s y y'.
Proof.
  intros B B' NE EP Si HX HX' Ha Hn HB.
  pose proof (@built_ok f32 (f32_arith e) f32_bits bm n (f32_relu_agrees e) B) as Ok.
  pose proof (@built_ok R (R_arith low) BT bm n' (relu_agrees_R low) B') as Ok'.
  assert (NE' : layers n' <> []). { intros E. rewrite E in EP. inversion EP as [E2|]. symmetry in E2. apply map_eq_nil in E2. contradiction. }
  destruct (@infer_ok f32 (f32_arith e) bm n X (f32_relu_agrees e) Ok NE (proj1 (holds_shaped _ _ _ _ HX)) (proj2 (holds_shaped _ _ _ _ HX))) as (n1 & Y & E & _ & _ & G & C).
  destruct (@infer_ok R (R_arith low) bm n' X' (relu_agrees_R low) Ok' NE' (proj1 (holds_shaped _ _ _ _ HX'))) as (n1' & Y' & E' & _ & _ & G' & C').
  { rewrite Si. apply (holds_shaped _ _ _ _ HX'). }
  destruct (composes_exact e low bm _ _ X X' Y Y' _ x x' g a g1 a1 EP C C' HX HX' Ha Hn HB) as (s & y & y' & Hy & Hy' & N1).
  exists n1, n1', Y, Y', s, y, y'. auto 10.
Qed.
