(** * C93: proofs *)
From Coq Require Import Reals Lra ZifyBool ZifyNat ZifyN.
From Flocq Require Import Core.
From Verif Require Import Base Arith Helper Tensor Network Bincode Serial Spec SpecLayer SpecNet SpecReal SpecTrain Loops TensorFacts OpsFacts ProofsTensor LayerFacts NetFacts NetRun ProofsNet.
From Verif Require Import Float32 Float32Facts RealArith RealSums SpecError FloatError ProofsFloat ProofsGrad SpecNetError ProofsNetError SpecGain ProofsGain SpecDrift.
Local Open Scope R_scope.

Lemma Rsum_abs_prod {A} (l : list A) (w x : A -> R) g a : 0 <= a -> (forall p, In p l -> Rabs (x p) <= a) ->
  Rsum (map (fun p => Rabs (w p)) l) <= g -> Rabs (Rsum (map (fun p => w p * x p) l)) <= g * a.
Proof.
  intros Ha H Hg. apply Rle_trans with (Rsum (map (fun p => Rabs (w p)) l) * a); [|apply Rmult_le_compat_r; assumption].
  rewrite <- Rsum_scale_r. clear Hg. induction l as [|q l IH]; cbn [map]; [change (Rsum []) with 0; rewrite Rabs_R0; lra|]. rewrite !Rsum_cons.
  eapply Rle_trans; [apply Rabs_triang|]. apply Rplus_le_compat; [|apply IH; intros p Hp; apply H; right; exact Hp].
  rewrite Rabs_mult. apply Rmult_le_compat_l; [apply Rabs_pos|]. apply H. left. reflexivity.
Qed.

Lemma affine_drift {A} (l : list A) (w w' x x' : A -> R) b b' g c f a d : 0 <= a -> 0 <= d ->
  (forall p, In p l -> Rabs (x p - x' p) <= d) -> (forall p, In p l -> Rabs (x' p) <= a) ->
  Rsum (map (fun p => Rabs (w p)) l) <= g -> Rsum (map (fun p => Rabs (w p - w' p)) l) <= c -> Rabs (b - b') <= f ->
  Rabs ((Rsum (map (fun p => w p * x p) l) + b) - (Rsum (map (fun p => w' p * x' p) l) + b')) <= g * d + (c * a + f).
Proof.
  intros Ha Hd Hx Hx' Hg Hc Hf.
  replace (_ - _) with (Rsum (map (fun p => w p * (x p - x' p)) l) + (Rsum (map (fun p => (w p - w' p) * x' p) l) + (b - b'))).
  2: { assert (E : Rsum (map (fun p => w p * (x p - x' p)) l) + Rsum (map (fun p => (w p - w' p) * x' p) l) = Rsum (map (fun p => w p * x p) l) - Rsum (map (fun p => w' p * x' p) l)).
       { induction l as [|q l IH]; cbn [map]; [unfold Rsum; cbn; lra|]. rewrite !Rsum_cons.
         assert (E := IH (fun p Hp => Hx p (or_intror Hp)) (fun p Hp => Hx' p (or_intror Hp))).
         assert (0 <= Rabs (w q)) by apply Rabs_pos. assert (0 <= Rabs (w q - w' q)) by apply Rabs_pos. cbn [map] in Hg, Hc. rewrite Rsum_cons in Hg, Hc.
         rewrite <- (Rplus_0_l (_ - _)). specialize (E ltac:(lra) ltac:(lra)). lra. }
       lra. }
  eapply Rle_trans; [apply Rabs_triang|]. apply Rplus_le_compat; [apply Rsum_abs_prod; assumption|].
  eapply Rle_trans; [apply Rabs_triang|]. apply Rplus_le_compat; [|exact Hf]. apply (Rsum_abs_prod l (fun p => w p - w' p) x'); assumption.
Qed.

Lemma relu_within z a : Rabs z <= a -> Rabs (Rmax 0 z) <= a.
Proof. intros H. apply Rabs_le_inv in H. apply Rabs_le. unfold Rmax. destruct (Rle_dec 0 z); lra. Qed.

Lemma affine_within {A} (l : list A) (w x : A -> R) b g a c : 0 <= a -> (forall p, In p l -> Rabs (x p) <= a) ->
  Rsum (map (fun p => Rabs (w p)) l) <= g -> Rabs b <= c -> Rabs (Rsum (map (fun p => w p * x p) l) + b) <= g * a + c.
Proof. intros Ha Hx Hg Hb. eapply Rle_trans; [apply Rabs_triang|]. apply Rplus_le_compat; [apply Rsum_abs_prod; assumption|exact Hb]. Qed.

Lemma max_within {A} low (l : list A) (x : A -> R) a : low <= - a -> l <> [] -> (forall p, In p l -> Rabs (x p) <= a) -> Rabs (fold_right Rmax low (map x l)) <= a.
Proof.
  intros Hl NE H. assert (M : forall l, (forall p, In p l -> Rabs (x p) <= a) -> fold_right Rmax low (map x l) <= a \/ l = []).
  { clear l NE H. induction l as [|q l IH]; intros H; [right; reflexivity|]. left. cbn [map fold_right]. pose proof (H q (or_introl eq_refl)) as Q. apply Rabs_le_inv in Q.
    destruct (IH (fun p Hp => H p (or_intror Hp))) as [I| ->]; cbn [map fold_right]; (apply Rmax_lub; [lra|lra]). }
  destruct (M l H) as [U|]; [|contradiction]. apply Rabs_le. split; [|exact U]. destruct l as [|q l]; [contradiction|]. cbn [map fold_right].
  pose proof (H q (or_introl eq_refl)) as Q. apply Rabs_le_inv in Q. pose proof (Rmax_l (x q) (fold_right Rmax low (map x l))). lra.
Qed.

Section Net.
Context (low : R) (bm : build).
Notation AR := (R_arith low).
#[local] Hint Extern 0 (Arith R) => exact (R_arith low) : typeclass_instances.

Lemma layer_drift_apart p p' X X' Y Y' s x x' a d a1 d1 : computes bm p X Y -> computes bm p' X' Y' -> holds bm X s x -> holds bm X' s x' ->
  0 <= a -> 0 <= d -> apart d s x x' -> within a s x' -> layer_drift low bm p p' a d a1 d1 ->
  exists s1 y y', holds bm Y s1 y /\ holds bm Y' s1 y' /\ apart d1 s1 y y' /\ within a1 s1 y' /\ 0 <= a1 /\ 0 <= d1.
Proof.
  intros C C' HX HX' Ha Hd Hn Hw0 HB.
  destruct C as [wt bt m n w b X0 x0 Y0 Hw Hb Hx Hy|kt bt st ins outs ks h bv X0 x0 Y0 Hk Hl1 Hl2 Hb Hc Hx Hy|ins mask outs st X0 x0 Y0 Hp Hx Hy|s0 X0 x0 Y0 Hx Hy].
  - inversion HB as [? ? wt' bt' m1 n1 w1 w1' b1 b1' g g' c f1 f ? ? AR' Dw Dw' Db Db' HW G1 G2 G3 G4 G5| | |]; subst. clear HB. subst AR'.
    pose proof (holds_shape _ _ _ _ _ _ Dw Hw) as E. injection E as -> ->. pose proof (holds_shape _ _ _ _ _ _ HX Hx) as ->.
    inversion C' as [? ? m2 n2 w2 b2 X2 x2 Y2 Hw2 Hb2 Hx2 Hy2| | |]; subst. clear C'.
    pose proof (holds_shape _ _ _ _ _ _ Hw2 Dw') as E. injection E as -> ->.
    pose proof (holds_fun _ _ _ _ _ Dw' Hw2) as Q1. pose proof (holds_fun _ _ _ _ _ Db' Hb2) as Q2. pose proof (holds_fun _ _ _ _ _ HX' Hx2) as Q3.
    pose proof (holds_fun _ _ _ _ _ HX Hx) as Q4. pose proof (holds_fun _ _ _ _ _ Hw Dw) as Q5. pose proof (holds_fun _ _ _ _ _ Hb Db) as Q6.
    do 3 eexists. split; [exact Hy|]. split; [exact Hy2|]. split; [|split; [|split]].
    + intros i j k (Hi & Hj & Hk). cbn [di dj dk] in *. cbv beta. destruct (HW i Hi) as (B1 & B2 & B3 & B4 & B5).
      rewrite !relu_R. cbn [fadd fmul R_arith]. rewrite !sum_Rsum. apply relu_lipschitz.
      rewrite <- Q2, Q6 by (repeat split; cbn [di dj dk]; lia).
      rewrite (Rsum_ext (fun p => w2 i p 0%N * x2 p 0%N 0%N) (fun p => w1' i p 0%N * x' p 0%N 0%N)).
      2: { intros p Hp. apply in_upto in Hp. rewrite <- Q1, <- Q3 by (repeat split; cbn [di dj dk]; lia). reflexivity. }
      rewrite (Rsum_ext (fun p => w i p 0%N * x0 p 0%N 0%N) (fun p => w1 i p 0%N * x p 0%N 0%N)).
      2: { intros p Hp. apply in_upto in Hp. rewrite <- Q5, <- Q4 by (repeat split; cbn [di dj dk]; lia). reflexivity. }
      apply (affine_drift (upto n) (fun p => w1 i p 0%N) (fun p => w1' i p 0%N) (fun p => x p 0%N 0%N) (fun p => x' p 0%N 0%N)); try assumption.
      * intros p Hp. apply in_upto in Hp. apply Hn. repeat split; cbn [di dj dk]; lia.
      * intros p Hp. apply in_upto in Hp. apply Hw0. repeat split; cbn [di dj dk]; lia.
    + intros i j k (Hi & Hj & Hk). cbn [di dj dk] in *. cbv beta. destruct (HW i Hi) as (B1 & B2 & B3 & B4 & B5).
      rewrite relu_R. cbn [fadd fmul R_arith]. rewrite sum_Rsum. apply relu_within. rewrite <- Q2 by (repeat split; cbn [di dj dk]; lia).
      rewrite (Rsum_ext (fun p => w2 i p 0%N * x2 p 0%N 0%N) (fun p => w1' i p 0%N * x' p 0%N 0%N)).
      2: { intros p Hp. apply in_upto in Hp. rewrite <- Q1, <- Q3 by (repeat split; cbn [di dj dk]; lia). reflexivity. }
      apply (affine_within (upto n) (fun p => w1' i p 0%N) (fun p => x' p 0%N 0%N)); try assumption.
      intros p Hp. apply in_upto in Hp. apply Hw0. repeat split; cbn [di dj dk]; lia.
    + assert (0 <= g' * a) by (apply Rmult_le_pos; assumption). lra.
    + assert (0 <= g * d) by (apply Rmult_le_pos; assumption). assert (0 <= c * a) by (apply Rmult_le_pos; assumption). lra.
  - inversion HB as [|? ? kt' bt' ? ? ? ks1 h1 h1' bv1 bv1' g g' c f1 f ? ? AR' Dw Dw' Db Db' HW G1 G2 G3 G4 G5| |]; subst. clear HB. subst AR'.
    pose proof (holds_shape _ _ _ _ _ _ HX Hx) as ->.
    inversion C' as [|? ? ? ? ? ks2 h2 bv2 X2 x2 Y2 Hk2 Hl12 Hl22 Hb2 Hc2 Hx2 Hy2| |]; subst. clear C'.
    pose proof (holds_fun _ _ _ _ _ HX' Hx2) as Q3. pose proof (holds_fun _ _ _ _ _ HX Hx) as Q4.
    assert (G : forall k, (k < dk outs)%N -> ks1 = ks /\ ks2 = ks /\ bv k = bv1 k /\ bv2 k = bv1' k
      /\ (forall i j l, in_shape ks i j l -> h k i j l = h1 k i j l) /\ (forall i j l, in_shape ks i j l -> h2 k i j l = h1' k i j l)).
    { intros k Hkk.
      destruct (nth_error kt (N.to_nat k)) as [tk|] eqn:Nk; [|apply nth_error_None in Nk; unfold len in Hl1; lia].
      destruct (nth_error kt' (N.to_nat k)) as [tk'|] eqn:Nk'; [|apply nth_error_None in Nk'; unfold len in Hl12; lia].
      pose proof (holds_shape _ _ _ _ _ _ (Dw k tk Nk) (Hk k tk Nk)) as ->. pose proof (holds_shape _ _ _ _ _ _ (Hk2 k tk' Nk') (Dw' k tk' Nk')) as ->.
      pose proof (holds_fun _ _ _ _ _ (Hk k tk Nk) (Dw k tk Nk)) as P1. pose proof (holds_fun _ _ _ _ _ (Hk2 k tk' Nk') (Dw' k tk' Nk')) as P2.
      destruct (nth_error bt (N.to_nat k)) as [tb|] eqn:Nb; [|apply nth_error_None in Nb; unfold len in Hl2; lia].
      destruct (nth_error bt' (N.to_nat k)) as [tb'|] eqn:Nb'; [|apply nth_error_None in Nb'; unfold len in Hl22; lia].
      pose proof (Hb k tb Nb) as B1. rewrite (Db k tb Nb) in B1. injection B1 as B1. pose proof (Hb2 k tb' Nb') as B2. rewrite (Db' k tb' Nb') in B2. injection B2 as B2. auto 7. }
    do 3 eexists. split; [exact Hy|]. split; [exact Hy2|]. split; [|split; [|split]].
    + intros i j k Hin. pose proof Hin as (Hi & Hj & Hkk). cbv beta. destruct (HW k Hkk) as (B1 & B2 & B3 & B4 & B5).
      destruct (G k Hkk) as (-> & -> & E1 & E2 & P1 & P2). rewrite !relu_R. cbn [fadd R_arith]. rewrite !sum_Rsum. apply relu_lipschitz. rewrite E1, E2. unfold window_products.
      assert (Pos : forall p q l, in_shape ks p q l -> in_shape ins (i * st + p) (j * st + q) l) by (intros p q l Hp; exact (conv_inside _ _ _ _ _ _ _ _ _ _ (Hc k Hkk) Hi Hj Hp)).
      rewrite (Rsum_ext (fun '(p, q, l) => @fmul R AR (x0 (i * st + p)%N (j * st + q)%N l) (h k p q l))
        (fun t => (let '(p, q, l) := t in h1 k p q l) * (let '(p, q, l) := t in x (i * st + p)%N (j * st + q)%N l)))
        by (intros ((p & q) & l) Hp; apply in_cells in Hp; cbn [fmul R_arith]; rewrite P1, <- Q4 by auto; ring).
      rewrite (Rsum_ext (fun '(p, q, l) => @fmul R AR (x2 (i * st + p)%N (j * st + q)%N l) (h2 k p q l))
        (fun t => (let '(p, q, l) := t in h1' k p q l) * (let '(p, q, l) := t in x' (i * st + p)%N (j * st + q)%N l)))
        by (intros ((p & q) & l) Hp; apply in_cells in Hp; cbn [fmul R_arith]; rewrite P2, <- Q3 by auto; ring).
      apply affine_drift; try assumption.
      * intros ((p & q) & l) Hp. apply in_cells in Hp. apply Hn. auto.
      * intros ((p & q) & l) Hp. apply in_cells in Hp. apply Hw0. auto.
      * rewrite (Rsum_ext _ (fun '(p, q, l) => Rabs (h1 k p q l))); [exact B1|]. intros ((p & q) & l) _. reflexivity.
      * rewrite (Rsum_ext _ (fun '(p, q, l) => Rabs (h1 k p q l - h1' k p q l))); [exact B3|]. intros ((p & q) & l) _. reflexivity.
    + intros i j k Hin. pose proof Hin as (Hi & Hj & Hkk). cbv beta. destruct (HW k Hkk) as (B1 & B2 & B3 & B4 & B5).
      destruct (G k Hkk) as (-> & -> & E1 & E2 & P1 & P2). rewrite !relu_R. cbn [fadd R_arith]. rewrite !sum_Rsum. apply relu_within. rewrite E2. unfold window_products.
      assert (Pos : forall p q l, in_shape ks p q l -> in_shape ins (i * st + p) (j * st + q) l) by (intros p q l Hp; exact (conv_inside _ _ _ _ _ _ _ _ _ _ (Hc k Hkk) Hi Hj Hp)).
      rewrite (Rsum_ext (fun '(p, q, l) => @fmul R AR (x2 (i * st + p)%N (j * st + q)%N l) (h2 k p q l))
        (fun t => (let '(p, q, l) := t in h1' k p q l) * (let '(p, q, l) := t in x' (i * st + p)%N (j * st + q)%N l)))
        by (intros ((p & q) & l) Hp; apply in_cells in Hp; cbn [fmul R_arith]; rewrite P2, <- Q3 by auto; ring).
      apply affine_within; try assumption.
      * intros ((p & q) & l) Hp. apply in_cells in Hp. apply Hw0. auto.
      * rewrite (Rsum_ext _ (fun '(p, q, l) => Rabs (h1' k p q l))); [exact B2|]. intros ((p & q) & l) _. reflexivity.
    + assert (0 <= g' * a) by (apply Rmult_le_pos; assumption). lra.
    + assert (0 <= g * d) by (apply Rmult_le_pos; assumption). assert (0 <= c * a) by (apply Rmult_le_pos; assumption). lra.
  - inversion HB as [| |? ? ? ? ? ? M1 M2 Lo|]; subst. clear HB. pose proof (holds_shape _ _ _ _ _ _ HX Hx) as ->.
    inversion C' as [| |? ? ? ? X2 x2 Y2 Hp2 Hx2 Hy2|]; subst. clear C'.
    pose proof (holds_fun _ _ _ _ _ HX' Hx2) as Q3. pose proof (holds_fun _ _ _ _ _ HX Hx) as Q4.
    do 3 eexists. split; [exact Hy|]. split; [exact Hy2|]. split; [|split; [|split; assumption]]; intros i j k Hin; cbv beta; unfold window_values; rewrite !running_max_R.
    + apply max_lipschitz; [exact Hd|]. intros ((p & q) & r) Hc.
      assert (Hpos : in_shape ins p q r) by (eapply pool_inside; eassumption). rewrite <- Q3, <- Q4 by exact Hpos. apply Hn. exact Hpos.
    + apply max_within; [exact Lo|apply window_nonempty; assumption|]. intros ((p & q) & r) Hc.
      assert (Hpos : in_shape ins p q r) by (eapply pool_inside; eassumption). rewrite <- Q3 by exact Hpos. apply Hw0. exact Hpos.
  - inversion HB; subst. clear HB. pose proof (holds_shape _ _ _ _ _ _ HX Hx) as ->.
    inversion C' as [| | |? X2 x2 Y2 Hx2 Hy2]; subst. clear C'.
    pose proof (holds_fun _ _ _ _ _ HX' Hx2) as Q3. pose proof (holds_fun _ _ _ _ _ HX Hx) as Q4.
    do 3 eexists. split; [exact Hy|]. split; [exact Hy2|]. split; [|split; [|split; lra]]; intros i j k Hin; cbv beta; rewrite !sum_Rsum; cbn [fdiv fexp R_arith].
    + pose proof (softmax_lipschitz (cells s0) (fun '(i, j, k) => x0 i j k) (fun '(i, j, k) => x2 i j k) d (i, j, k) Hd) as G.
      rewrite (map_ext (fun '(i, j, k) => exp (x0 i j k)) (fun c : N * N * N => exp (let '(i, j, k) := c in x0 i j k))) by (intros ((? & ?) & ?); reflexivity).
      rewrite (map_ext (fun '(i, j, k) => exp (x2 i j k)) (fun c : N * N * N => exp (let '(i, j, k) := c in x2 i j k))) by (intros ((? & ?) & ?); reflexivity).
      apply G; [apply in_cells; exact Hin|]. intros ((p & q) & c) Hp. apply in_cells in Hp. rewrite <- Q3, <- Q4 by exact Hp. apply Hn. exact Hp.
    + set (f := fun '(i, j, k) => exp (x2 i j k)).
      assert (Ge : f (i, j, k) <= Rsum (map f (cells s0))).
      { assert (Hc : In (i, j, k) (cells s0)) by (apply in_cells; exact Hin). destruct (in_split _ _ Hc) as (l1 & l2 & ->).
        rewrite map_app, Rsum_app. cbn [map]. rewrite Rsum_cons.
        assert (P : forall l, 0 <= Rsum (map f l)) by (intros l; apply Rsum_nonneg; intros ((? & ?) & ?); left; apply exp_pos).
        pose proof (P l1). pose proof (P l2). lra. }
      assert (Pf : 0 < f (i, j, k)) by apply exp_pos. change (exp (x2 i j k)) with (f (i, j, k)).
      apply Rabs_le. split; [apply Rle_trans with 0; [lra|]; apply Rmult_le_pos; [lra|left; apply Rinv_0_lt_compat; lra]|].
      apply Rmult_le_reg_r with (Rsum (map f (cells s0))); [lra|]. unfold Rdiv. rewrite Rmult_assoc, Rinv_l by lra. lra.
Qed.

Lemma composes_drift ps ps' a d a1 d1 : net_drift low bm ps ps' a d a1 d1 -> forall X X' Y Y' s x x',
  composes bm ps X Y -> composes bm ps' X' Y' -> holds bm X s x -> holds bm X' s x' -> 0 <= a -> 0 <= d -> apart d s x x' -> within a s x' ->
  exists s1 y y', holds bm Y s1 y /\ holds bm Y' s1 y' /\ apart d1 s1 y y' /\ within a1 s1 y'.
Proof.
  induction 1 as [|p p' ps ps' a d a1 d1 a2 d2 Hp H IH]; intros X X' Y Y' s x x' C C' HX HX' Ha Hd Hn Hw; cbn [composes] in C, C'.
  - subst. exists s, x, x'. auto.
  - destruct C as (Z & C1 & C2), C' as (Z' & C1' & C2').
    destruct (layer_drift_apart _ _ _ _ _ _ _ _ _ _ _ _ _ C1 C1' HX HX' Ha Hd Hn Hw Hp) as (s1 & y & y' & Hy & Hy' & Hn1 & Hw1 & P1 & P2).
    eapply IH; eassumption.
Qed.

(** Every parameter changed by at most [eps]. *)
Lemma Rsum_near {A} (l : list A) (w w' : A -> R) eps : (forall p, In p l -> Rabs (w p - w' p) <= eps) ->
  Rsum (map (fun p => Rabs (w p - w' p)) l) <= INR (length l) * eps.
Proof. intros H. rewrite <- Rsum_const. apply Rsum_le. exact H. Qed.

Lemma Rsum_near_abs {A} (l : list A) (w w' : A -> R) eps : (forall p, In p l -> Rabs (w p - w' p) <= eps) ->
  Rsum (map (fun p => Rabs (w' p)) l) <= Rsum (map (fun p => Rabs (w p)) l) + INR (length l) * eps.
Proof.
  intros H. rewrite <- Rsum_const, <- Rsum_plus. apply Rsum_le. intros p Hp. pose proof (H p Hp) as Q. rewrite Rabs_minus_sym in Q.
  pose proof (Rabs_triang (w p) (w' p - w p)). replace (w p + (w' p - w p)) with (w' p) in * by ring. lra.
Qed.

Lemma fc_changed weights bias weights' bias' m n w w' b b' g bb eps a d :
  holds bm weights (mkShape m n 1) w -> holds bm weights' (mkShape m n 1) w' -> holds bm bias (mkShape m 1 1) b -> holds bm bias' (mkShape m 1 1) b' ->
  (forall i p, (i < m)%N -> (p < n)%N -> Rabs (w i p 0%N - w' i p 0%N) <= eps) -> (forall i, (i < m)%N -> Rabs (b i 0%N 0%N - b' i 0%N 0%N) <= eps) ->
  (forall i, (i < m)%N -> Rsum (map (fun p => Rabs (w i p 0%N)) (upto n)) <= g) -> (forall i, (i < m)%N -> Rabs (b i 0%N 0%N) <= bb) ->
  0 <= g -> 0 <= bb -> 0 <= eps ->
  layer_drift low bm (PFC weights bias) (PFC weights' bias') a d ((g + INR (N.to_nat n) * eps) * a + (bb + eps)) (g * d + (INR (N.to_nat n) * eps * a + eps)).
Proof.
  intros Hw Hw' Hb Hb' Dw Db Gw Gb Pg Pb Pe. assert (0 <= INR (N.to_nat n) * eps) by (apply Rmult_le_pos; [apply pos_INR|exact Pe]).
  assert (Ln : length (upto n) = N.to_nat n) by (unfold upto; rewrite map_length, seq_length; reflexivity).
  apply (DFC low bm weights bias weights' bias' m n w w' b b' g (g + INR (N.to_nat n) * eps) (INR (N.to_nat n) * eps) (bb + eps) eps a d Hw Hw' Hb Hb'); try lra.
  intros i Hi. assert (D : forall p, In p (upto n) -> Rabs (w i p 0%N - w' i p 0%N) <= eps) by (intros p Hp; apply in_upto in Hp; apply Dw; assumption).
  split; [apply Gw; exact Hi|]. split.
  { eapply Rle_trans; [apply (Rsum_near_abs (upto n) (fun p => w i p 0%N) (fun p => w' i p 0%N) eps D)|]. rewrite Ln. pose proof (Gw i Hi). lra. }
  split; [rewrite <- Ln; apply (Rsum_near (upto n) (fun p => w i p 0%N) (fun p => w' i p 0%N)); exact D|].
  split; [|apply Db; exact Hi]. pose proof (Db i Hi) as Q. pose proof (Gb i Hi) as Q'. apply Rabs_le_inv in Q, Q'. apply Rabs_le. lra.
Qed.
Lemma conv_changed kernels biases kernels' biases' stride ins outs ks h h' bv bv' g bb eps a d :
  all_hold bm kernels ks h -> all_hold bm kernels' ks h' ->
  (forall n t, nth_error biases (N.to_nat n) = Some t -> get_item bm t (mkIndex 0 0 0) = Done (bv n)) ->
  (forall n t, nth_error biases' (N.to_nat n) = Some t -> get_item bm t (mkIndex 0 0 0) = Done (bv' n)) ->
  (forall k i j l, (k < dk outs)%N -> in_shape ks i j l -> Rabs (h k i j l - h' k i j l) <= eps) -> (forall k, (k < dk outs)%N -> Rabs (bv k - bv' k) <= eps) ->
  (forall k, (k < dk outs)%N -> Rsum (map (fun '(i, j, l) => Rabs (h k i j l)) (cells ks)) <= g) -> (forall k, (k < dk outs)%N -> Rabs (bv k) <= bb) ->
  0 <= g -> 0 <= bb -> 0 <= eps ->
  let n := INR (N.to_nat (di ks * dj ks * dk ks)) in
  layer_drift low bm (PConv kernels biases stride ins outs) (PConv kernels' biases' stride ins outs) a d ((g + n * eps) * a + (bb + eps)) (g * d + (n * eps * a + eps)).
Proof.
  intros Hw Hw' Hb Hb' Dw Db Gw Gb Pg Pb Pe n. assert (0 <= n * eps) by (apply Rmult_le_pos; [apply pos_INR|exact Pe]).
  apply (DConv low bm kernels biases kernels' biases' stride ins outs ks h h' bv bv' g (g + n * eps) (n * eps) (bb + eps) eps a d Hw Hw' Hb Hb'); try lra.
  intros k Hk. unfold n. rewrite <- length_cells.
  assert (D : forall t, In t (cells ks) -> Rabs ((let '(i, j, l) := t in h k i j l) - (let '(i, j, l) := t in h' k i j l)) <= eps)
    by (intros ((i & j) & l) Ht; apply in_cells in Ht; apply Dw; assumption).
  split; [apply Gw; exact Hk|]. split.
  { pose proof (Rsum_near_abs _ _ _ eps D) as Q. rewrite (Rsum_ext _ (fun '(i, j, l) => Rabs (h' k i j l))) in Q by (intros ((i & j) & l) _; reflexivity).
    rewrite (Rsum_ext (fun p => Rabs (let '(i, j, l) := p in h k i j l)) (fun '(i, j, l) => Rabs (h k i j l))) in Q by (intros ((i & j) & l) _; reflexivity).
    pose proof (Gw k Hk). lra. }
  split. { pose proof (Rsum_near _ _ _ eps D) as Q. rewrite (Rsum_ext _ (fun '(i, j, l) => Rabs (h k i j l - h' k i j l))) in Q by (intros ((i & j) & l) _; reflexivity). exact Q. }
  split; [|apply Db; exact Hk]. pose proof (Db k Hk) as Q. pose proof (Gb k Hk) as Q'. apply Rabs_le_inv in Q, Q'. apply Rabs_le. lra.
Qed.
End Net.

Lemma network_drift (BT : Bits R) low bm (n n' : network R) X X' x x' a d a1 d1 :
  let AR := R_arith low in
  well_built bm n -> well_built bm n' -> layers n <> [] -> net_input_shape n' = net_input_shape n ->
  net_drift low bm (map params_of (layers n)) (map params_of (layers n')) a d a1 d1 ->
  holds bm X (net_input_shape n) x -> holds bm X' (net_input_shape n) x' ->
  0 <= a -> 0 <= d -> apart d (net_input_shape n) x x' -> within a (net_input_shape n) x' ->
  exists n1 n1' Y Y' s y y', infer bm n X = Done (n1, Ok tt) /\ get_output n1 = Done (Ok Y)
    /\ infer bm n' X' = Done (n1', Ok tt) /\ get_output n1' = Done (Ok Y')
    /\ holds bm Y s y /\ holds bm Y' s y' /\ apart d1 s y y' /\ within a1 s y'.
Proof.
  intros AR B B' NE Si HB HX HX' Ha Hd Hn Hw.
  pose proof (built_ok bm n (relu_agrees_R low) B) as Ok. pose proof (built_ok bm n' (relu_agrees_R low) B') as Ok'.
  assert (NE' : layers n' <> []). { intros E. rewrite E in HB. inversion HB as [a0 d0 E1|]; subst. symmetry in E1. apply map_eq_nil in E1. contradiction. }
  destruct (infer_ok bm n X (relu_agrees_R low) Ok NE (proj1 (holds_shaped _ _ _ _ HX)) (proj2 (holds_shaped _ _ _ _ HX))) as (n1 & Y & E & _ & _ & G & C).
  destruct (infer_ok bm n' X' (relu_agrees_R low) Ok' NE' (proj1 (holds_shaped _ _ _ _ HX'))) as (n1' & Y' & E' & _ & _ & G' & C').
  { rewrite Si. apply (holds_shaped _ _ _ _ HX'). }
  destruct (composes_drift low bm _ _ _ _ _ _ HB X X' Y Y' _ x x' C C' HX HX' Ha Hd Hn Hw) as (s & y & y' & Hy & Hy' & N1 & N2).
  exists n1, n1', Y, Y', s, y, y'. auto 10.
Qed.

(** ** In f32: the exact drift and the rounding errors of the two networks *)
Lemma network_drift_float e (BT : Bits R) low bm (n m : network f32) (n' m' : network R) X x a a1 d1 b1 c1 b2 c2 :
  @well_built f32 (f32_arith e) f32_bits bm n -> @well_built f32 (f32_arith e) f32_bits bm m -> @well_built R (R_arith low) BT bm n' -> @well_built R (R_arith low) BT bm m' ->
  layers n <> [] -> layers m <> [] ->
  Forall2 exact_params (map params_of (layers n)) (map params_of (layers n')) -> Forall2 exact_params (map params_of (layers m)) (map params_of (layers m')) ->
  net_input_shape n' = net_input_shape n -> net_input_shape m' = net_input_shape m -> net_input_shape m = net_input_shape n ->
  @holds f32 (f32_arith e) bm X (net_input_shape n) x ->
  (forall i j k, in_shape (net_input_shape n) i j k -> fin (x i j k) = true /\ Rabs (real (x i j k)) <= a) -> 0 <= a ->
  net_drift low bm (map params_of (layers n')) (map params_of (layers m')) a 0 a1 d1 ->
  net_bounds e low bm (map params_of (layers n')) a 0 b1 c1 -> net_bounds e low bm (map params_of (layers m')) a 0 b2 c2 ->
  exists n1 m1 Y Z s y z,
    @infer bm f32 (f32_arith e) n X = Done (n1, Ok tt) /\ get_output n1 = Done (Ok Y)
    /\ @infer bm f32 (f32_arith e) m X = Done (m1, Ok tt) /\ get_output m1 = Done (Ok Z)
    /\ @holds f32 (f32_arith e) bm Y s y /\ @holds f32 (f32_arith e) bm Z s z
    /\ forall i j k, in_shape s i j k -> fin (y i j k) = true /\ fin (z i j k) = true /\ Rabs (real (y i j k) - real (z i j k)) <= d1 + c1 + c2.
Proof.
  intros Bn Bm Bn' Bm' NE NEm EP EPm Si Sm Snm HX Hin Ha HD HB1 HB2.
  assert (A : allocatable (net_input_shape n)) by (apply holds_iff in HX; apply HX).
  set (xr := fun i j k => real (x i j k)).
  assert (HR : @holds R (R_arith low) bm (of_fun (net_input_shape n) xr) (net_input_shape n) xr) by (apply holds_of_fun; exact A).
  assert (Hnear : near a 0 (net_input_shape n) x xr).
  { intros i j k H. destruct (Hin i j k H) as (P1 & P2). unfold xr. rewrite Rminus_diag_eq, Rabs_R0 by reflexivity. auto using Rle_refl. }
  destruct (network_error e BT low bm n n' X _ x xr a 0 b1 c1 Bn Bn' NE EP Si HX HR Ha (Rle_refl 0) Hnear HB1) as (n1 & r1 & Y & V & s & y & v & E1 & G1 & F1 & K1 & Hy & Hv & N1).
  rewrite <- Snm in HX, HR, Hnear.
  destruct (network_error e BT low bm m m' X _ x xr a 0 b2 c2 Bm Bm' NEm EPm Sm HX HR Ha (Rle_refl 0) Hnear HB2) as (m1 & r2 & Z & V' & s' & z & v' & E1' & G1' & F1' & K1' & Hz & Hv' & N1').
  assert (NE' : layers n' <> []). { intros E. rewrite E in EP. inversion EP as [E2|]. symmetry in E2. apply map_eq_nil in E2. contradiction. }
  rewrite Snm in HR.
  destruct (network_drift BT low bm n' m' (of_fun (net_input_shape n) xr) (of_fun (net_input_shape n) xr) xr xr a 0 a1 d1 Bn' Bm' NE') as (k1 & k1' & W & W' & t & wv & wv' & L1 & L2 & L3 & L4 & L5 & L6 & L7 & _).
  { congruence. } { exact HD. } { rewrite Si. exact HR. } { rewrite Si. exact HR. } { exact Ha. } { lra. }
  { intros i j k H. rewrite Rminus_diag_eq, Rabs_R0 by reflexivity. lra. } { rewrite Si. intros i j k H. apply Hin. exact H. }
  rewrite F1 in L1. injection L1 as <-. rewrite K1 in L2. injection L2 as <-. rewrite Snm in F1'. rewrite F1' in L3. injection L3 as <-. rewrite K1' in L4. injection L4 as <-.
  pose proof (holds_shape _ _ _ _ _ _ L5 Hv) as ->. pose proof (holds_shape _ _ _ _ _ _ L6 Hv') as <-.
  pose proof (holds_fun _ _ _ _ _ L5 Hv) as Q1. pose proof (holds_fun _ _ _ _ _ L6 Hv') as Q2.
  exists n1, m1, Y, Z, s, y, z. split; [exact E1|]. split; [exact G1|]. split; [exact E1'|]. split; [exact G1'|]. split; [exact Hy|]. split; [exact Hz|].
  intros i j k H. destruct (N1 i j k H) as (A1 & A2 & _). destruct (N1' i j k H) as (A3 & A4 & _). split; [exact A1|]. split; [exact A3|].
  pose proof (L7 i j k H) as A5. rewrite Q1, Q2 in A5 by exact H. apply Rabs_le_inv in A2, A4, A5. apply Rabs_le. lra.
Qed.
