(** * Batches in another order *)
From Coq Require Import Reals Lra Permutation ZifyBool ZifyNat ZifyN.
From Verif Require Import Base Arith Helper Tensor Network Float32 RealArith Spec SpecLayer SpecTrain SpecReal SpecError SpecRound.
From Verif Require Import Loops TensorFacts ProofsTensor LayerFacts ProofsLayer RealSums ProofsRound.
Local Open Scope R_scope.

Lemma Rsum_perm (l l' : list R) : Permutation l l' -> Rsum l = Rsum l'.
Proof. induction 1; rewrite ?Rsum_cons; [reflexivity|lra|lra|congruence]. Qed.

Lemma Rsum_perm_map {A} (f : A -> R) (l l' : list A) : Permutation l l' -> Rsum (map f l) = Rsum (map f l').
Proof. intros H. apply Rsum_perm, Permutation_map, H. Qed.

Section Exact.
Variable low : R.
#[local] Hint Extern 0 (Arith R) => exact (R_arith low) : typeclass_instances.

Lemma accumulated_sum c v0 (hist : list ((N -> N -> N -> R) * (N -> N -> N -> R))) :
  accumulated c v0 (map Some hist) = v0 + Rsum (map (fun p => c (fst p) (snd p)) hist).
Proof.
  unfold accumulated. revert v0; induction hist as [|(x & g) h IH]; intros v0; cbn [map fold_left].
  - cbn. ring.
  - rewrite IH, Rsum_cons. cbn. ring.
Qed.

Lemma order_exact bm m n (ops ops' : list (train_op R)) hist hist' (l : fc_layer R) :
  fc_ok m n l -> fc_run_state l = Training ->
  Forall2 (fun op p => pair_holds bm m n op (Some p)) ops hist -> Forall2 (fun op p => pair_holds bm m n op (Some p)) ops' hist' ->
  Permutation hist hist' ->
  exists l1 l2, train_all bm (LFC l) ops = Done (LFC l1, Ok tt) /\ train_all bm (LFC l) ops' = Done (LFC l2, Ok tt)
    /\ fc_weights_gradients l1 = fc_weights_gradients l2 /\ fc_bias_gradients l1 = fc_bias_gradients l2.
Proof.
  intros O Tr H H' P. pose proof O as (Ow & Ob & Ot). destruct (Ot Tr) as (S1 & _ & S3 & _).
  assert (F : forall (ops : list (train_op R)) hist, Forall2 (fun op p => pair_holds bm m n op (Some p)) ops hist -> Forall2 (pair_holds bm m n) ops (map Some hist))
    by (clear; induction 1; constructor; assumption).
  pose proof (fun ops hist => fc_accumulates bm m n ops hist l _ _ _ _ O Tr (shaped_holds bm _ _ Ow) (shaped_holds bm _ _ Ob) (shaped_holds bm _ _ S1) (shaped_holds bm _ _ S3)) as A.
  destruct (A _ _ (F _ _ H)) as (l1 & E1 & _ & _ & W1 & B1). destruct (A _ _ (F _ _ H')) as (l2 & E2 & _ & _ & W2 & B2).
  exists l1, l2. split; [exact E1|]. split; [exact E2|]. apply holds_iff in W1, W2, B1, B2. destruct W1 as (_ & ->), W2 as (_ & ->), B1 as (_ & ->), B2 as (_ & ->).
  split; apply of_fun_ext; intros i j k _; rewrite !accumulated_sum; f_equal; apply Rsum_perm_map, P.
Qed.
End Exact.

Lemma order_rounded e bm m n (ops ops' : list (train_op f32)) (hist hist' : list (values * values)) (l : fc_layer f32) w b wg bg :
  let AR := f32_arith e in
  fc_ok m n l -> fc_run_state l = Training ->
  holds bm (fc_weights l) (mkShape m n 1) w -> holds bm (fc_bias l) (mkShape m 1 1) b ->
  holds bm (fc_weights_gradients l) (mkShape m n 1) wg -> holds bm (fc_bias_gradients l) (mkShape m 1 1) bg ->
  Forall2 (fun op p => pair_holds bm m n op (Some p)) ops hist -> Forall2 (fun op p => pair_holds bm m n op (Some p)) ops' hist' ->
  Permutation hist hist' ->
  exists l1 l2 w1 w2 b1 b2, train_all bm (LFC l) ops = Done (LFC l1, Ok tt) /\ train_all bm (LFC l) ops' = Done (LFC l2, Ok tt)
    /\ holds bm (fc_weights_gradients l1) (mkShape m n 1) w1 /\ holds bm (fc_weights_gradients l2) (mkShape m n 1) w2
    /\ holds bm (fc_bias_gradients l1) (mkShape m 1 1) b1 /\ holds bm (fc_bias_gradients l2) (mkShape m 1 1) b2
    /\ (forall i j, (i < m)%N -> (j < n)%N -> fin (w1 i j 0%N) = true -> fin (w2 i j 0%N) = true ->
          Rabs (real (w1 i j 0%N) - real (w2 i j 0%N))
          <= 2 * bound (1 + length hist) (Rabs (real (wg i j 0%N)) + Rsum (map (fun p => Rabs (passed e n w b i p * real (fst p j 0%N 0%N))) hist)))
    /\ (forall i, (i < m)%N -> fin (b1 i 0%N 0%N) = true -> fin (b2 i 0%N 0%N) = true ->
          Rabs (real (b1 i 0%N 0%N) - real (b2 i 0%N 0%N))
          <= 2 * (((1 + u) ^ length hist - 1) * (Rabs (real (bg i 0%N 0%N)) + Rsum (map (fun p => Rabs (passed e n w b i p)) hist)))).
Proof.
  intros AR O Tr Hw Hb Hwg Hbg H H' P.
  destruct (fc_gradient_errors e bm m n ops hist l w b wg bg O Tr Hw Hb Hwg Hbg H) as (l1 & w1 & b1 & E1 & W1 & B1 & X1 & Y1).
  destruct (fc_gradient_errors e bm m n ops' hist' l w b wg bg O Tr Hw Hb Hwg Hbg H') as (l2 & w2 & b2 & E2 & W2 & B2 & X2 & Y2).
  exists l1, l2, w1, w2, b1, b2. do 6 (split; [assumption|]). unfold within in *. cbv zeta in X1, X2.
  rewrite <- (Permutation_length P) in X2, Y2. split.
  - intros i j Hi Hj F1 F2. specialize (X1 i j Hi Hj F1). specialize (X2 i j Hi Hj F2).
    rewrite <- !(Rsum_perm_map _ _ _ P) in X2. set (r := real (wg i j 0%N) + _) in *. set (B := bound _ _) in *.
    replace (real (w1 i j 0%N) - real (w2 i j 0%N)) with ((real (w1 i j 0%N) - r) - (real (w2 i j 0%N) - r)) by ring.
    eapply Rle_trans; [apply Rabs_triang|]. rewrite Rabs_Ropp. lra.
  - intros i Hi F1 F2. specialize (Y1 i Hi F1). specialize (Y2 i Hi F2).
    rewrite <- !(Rsum_perm_map _ _ _ P) in Y2. set (r := real (bg i 0%N 0%N) + _) in *. set (B := ((1 + u) ^ length hist - 1) * _) in *.
    replace (real (b1 i 0%N 0%N) - real (b2 i 0%N 0%N)) with ((real (b1 i 0%N 0%N) - r) - (real (b2 i 0%N 0%N) - r)) by ring.
    eapply Rle_trans; [apply Rabs_triang|]. rewrite Rabs_Ropp. lra.
Qed.
