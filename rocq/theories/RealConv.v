(** * Derivatives of a convolutional layer, as a function *)
From Coq Require Import Reals Lra ZifyBool ZifyNat ZifyN.
From Verif Require Import Base Arith Helper Tensor Spec SpecReal Loops TensorFacts RealArith RealSums RealGrad.
Local Open Scope R_scope.

(** ** Sums over shapes, axis by axis *)
Lemma Rsum_cells (f : N * N * N -> R) s :
  Rsum (map f (cells s)) = Rsum (map (fun k => Rsum (map (fun j => Rsum (map (fun i => f (i, j, k)) (upto (di s)))) (upto (dj s)))) (upto (dk s))).
Proof.
  unfold cells. rewrite Rsum_flat_map. apply Rsum_ext. intros k _. rewrite Rsum_flat_map. apply Rsum_ext. intros j _.
  rewrite map_map. reflexivity.
Qed.

Lemma Rsum_upto_split a b (f : N -> R) : Rsum (map f (upto (a + b))) = Rsum (map f (upto a)) + Rsum (map (fun i => f (a + i)%N) (upto b)).
Proof.
  induction b as [|b IH] using N.peano_ind.
  - rewrite N.add_0_r, upto_0. cbn. ring.
  - rewrite N.add_succ_r, !upto_succ, !map_app, !Rsum_app, IH. cbn [map Rsum fold_right]. ring.
Qed.

(** Of [n] positions, those of the window of extent [e] at [o]. *)
Lemma Rsum_window n e o (f : N -> R) : (o + e <= n)%N ->
  Rsum (map (fun p => if ((o <=? p) && (p <? o + e))%N then f p else 0) (upto n)) = Rsum (map (fun a => f (o + a)%N) (upto e)).
Proof.
  intros L. replace n with (o + (e + (n - (o + e))))%N by lia. rewrite !Rsum_upto_split.
  rewrite (Rsum_zero _ (upto o)). 2: { intros x Hx. apply in_upto in Hx. replace (o <=? x)%N with false by lia. reflexivity. }
  rewrite (Rsum_zero _ (upto (n - (o + e)))). 2: { intros x Hx. replace (o + (e + x) <? o + e)%N with false by lia. rewrite andb_false_r. reflexivity. }
  rewrite (Rsum_ext _ (fun a => f (o + a)%N) (upto e)); [ring|]. intros x Hx. apply in_upto in Hx.
  replace (o <=? o + x)%N with true by lia. replace (o + x <? o + e)%N with true by lia. reflexivity.
Qed.

(** ** The adjoint of a convolution *)
Definition covers (ks : shape) (stride i j p q : N) : bool :=
  ((stride * i <=? p) && (p <? stride * i + di ks) && ((stride * j <=? q) && (q <? stride * j + dj ks)))%N.

Lemma covering_sum m rs ks stride h g a b c :
  @sum R (R_arith m) (@covering_products R (R_arith m) rs ks stride h g a b c)
  = Rsum (map (fun '(i, j, k) => if covers ks stride i j a b then h k (a - stride * i)%N (b - stride * j)%N c * g i j k else 0) (cells rs)).
Proof.
  rewrite sum_Rsum, Rsum_cells. unfold covering_products. rewrite <- (map_id (flat_map _ _)), Rsum_flat_map. apply Rsum_ext. intros k _.
  rewrite Rsum_flat_map. unfold covering. rewrite Rsum_filter. apply Rsum_ext. intros j _. rewrite map_map, Rsum_filter.
  destruct ((stride * j <=? b) && (b <? stride * j + dj ks))%N eqn:E.
  - apply Rsum_ext. intros i _. unfold covers. rewrite E, andb_true_r. reflexivity.
  - symmetry. apply Rsum_zero. intros i _. unfold covers. rewrite E, andb_false_r. reflexivity.
Qed.

(** One window of [v] against the kernel [u], read off the positions of [v]. *)
Lemma window_sum s ks stride i j (u v : N -> N -> N -> R) : dk s = dk ks ->
  (i * stride + di ks <= di s)%N -> (j * stride + dj ks <= dj s)%N ->
  Rsum (map (fun '(p, q, c) => if covers ks stride i j p q then u (p - stride * i)%N (q - stride * j)%N c * v p q c else 0) (cells s))
  = Rsum (map (fun '(a, e, c) => u a e c * v (i * stride + a)%N (j * stride + e)%N c) (cells ks)).
Proof.
  intros D Hi Hj. rewrite !Rsum_cells, D. apply Rsum_ext. intros c _.
  transitivity (Rsum (map (fun q => if ((stride * j <=? q) && (q <? stride * j + dj ks))%N
    then Rsum (map (fun a => u a (q - stride * j)%N c * v (i * stride + a)%N q c) (upto (di ks))) else 0) (upto (dj s)))).
  - apply Rsum_ext. intros q _. destruct ((stride * j <=? q) && (q <? stride * j + dj ks))%N eqn:E.
    + transitivity (Rsum (map (fun p => if ((stride * i <=? p) && (p <? stride * i + di ks))%N then u (p - stride * i)%N (q - stride * j)%N c * v p q c else 0) (upto (di s)))).
      { apply Rsum_ext. intros p _. unfold covers. rewrite E, andb_true_r. reflexivity. }
      rewrite Rsum_window by lia. apply Rsum_ext. intros a _. replace (stride * i + a - stride * i)%N with a by lia.
      replace (stride * i + a)%N with (i * stride + a)%N by lia. reflexivity.
    + apply Rsum_zero. intros p _. unfold covers. rewrite E, andb_false_r. reflexivity.
  - rewrite Rsum_window by lia. apply Rsum_ext. intros e _. replace (stride * j + e - stride * j)%N with e by lia.
    replace (stride * j + e)%N with (j * stride + e)%N by lia. reflexivity.
Qed.

Lemma conv_ok_windows s ks stride rs k i j : (k < dk rs)%N -> conv_ok s ks stride rs k -> (i < di rs)%N -> (j < dj rs)%N ->
  dk s = dk ks /\ (i * stride + di ks <= di s)%N /\ (j * stride + dj ks <= dj s)%N.
Proof.
  intros Hk (D & (S0 & Fi & Mi & Ei) & (_ & Fj & Mj & Ej) & _) Hi Hj. split; [exact D|].
  assert (A : forall m e n x, (e <= m)%N -> n = ((m - e) / stride + 1)%N -> (x < n)%N -> (x * stride + e <= m)%N).
  { intros m e n x L -> Hx. assert (x * stride <= (m - e) / stride * stride)%N by (apply N.mul_le_mono_r; lia).
    pose proof (N.mul_div_le (m - e) stride S0). lia. }
  split; eapply A; eassumption.
Qed.

Lemma conv_adjoint m s ks stride rs h g v : (forall k, (k < dk rs)%N -> conv_ok s ks stride rs k) ->
  pairing rs g (conv_linear ks stride h v)
  = pairing s (fun a b c => @sum R (R_arith m) (@covering_products R (R_arith m) rs ks stride h g a b c)) v.
Proof.
  intros P. unfold pairing.
  transitivity (Rsum (map (fun x => Rsum (map (fun y : N * N * N => let '(i, j, k) := x in let '(p, q, c) := y in
     if covers ks stride i j p q then h k (p - stride * i)%N (q - stride * j)%N c * (g i j k * v p q c) else 0) (cells s))) (cells rs))).
  - apply Rsum_ext. intros ((i & j) & k) Hin. apply in_cells in Hin. destruct Hin as (Hi & Hj & Hk).
    destruct (conv_ok_windows s ks stride rs k i j Hk (P k Hk) Hi Hj) as (D & Wi & Wj).
    pose proof (window_sum s ks stride i j (h k) (fun p q c => g i j k * v p q c) D Wi Wj) as W. cbv beta in W.
    transitivity (Rsum (map (fun '(a, e, c) => h k a e c * (g i j k * v (i * stride + a)%N (j * stride + e)%N c)) (cells ks))).
    + unfold conv_linear. rewrite <- Rsum_scale. apply Rsum_ext. intros ((a & e) & c) _. ring.
    + rewrite <- W. apply Rsum_ext. intros ((p & q) & c) _. reflexivity.
  - rewrite Rsum_swap. apply Rsum_ext. intros ((p & q) & c) _. rewrite covering_sum, <- Rsum_scale_r. apply Rsum_ext.
    intros ((i & j) & k) _. destruct (covers ks stride i j p q); ring.
Qed.

(** Moving a kernel instead of the image. *)
Lemma conv_kernel_adjoint ks stride rs g x (u : N -> N -> N -> N -> R) :
  pairing rs g (conv_linear ks stride u x)
  = Rsum (map (fun k => pairing ks (fun a e c => Rsum (map (fun '(i, j) => x (a + i * stride)%N (e + j * stride)%N c * g i j k)
      (channel_cells rs))) (u k)) (upto (dk rs))).
Proof.
  unfold pairing at 1. rewrite Rsum_cells. unfold conv_linear. apply Rsum_ext. intros k _. unfold pairing.
  transitivity (Rsum (map (fun '(i, j) => g i j k * Rsum (map (fun '(a, e, c) => x (i * stride + a)%N (j * stride + e)%N c * u k a e c) (cells ks))) (channel_cells rs))).
  { unfold channel_cells. rewrite Rsum_flat_map. apply Rsum_ext. intros j _. rewrite map_map. reflexivity. }
  transitivity (Rsum (map (fun y => Rsum (map (fun z : N * N * N => let '(i, j) := y in let '(a, e, c) := z in
     x (a + i * stride)%N (e + j * stride)%N c * g i j k * u k a e c) (cells ks))) (channel_cells rs))).
  - apply Rsum_ext. intros (i & j) _. rewrite <- Rsum_scale. apply Rsum_ext. intros ((a & e) & c) _.
    rewrite (N.add_comm a), (N.add_comm e). ring.
  - rewrite Rsum_swap. apply Rsum_ext. intros ((a & e) & c) _. rewrite <- Rsum_scale_r. apply Rsum_ext. intros (i & j) _. reflexivity.
Qed.

(** ** Derivatives where nothing is clipped *)
Lemma conv_pre_ext s ks stride rs h b x h' b' x' i j k : (k < dk rs)%N -> conv_ok s ks stride rs k -> (i < di rs)%N -> (j < dj rs)%N ->
  (forall a e c, in_shape ks a e c -> h k a e c = h' k a e c) -> b k = b' k -> (forall p q c, in_shape s p q c -> x p q c = x' p q c) ->
  conv_pre ks stride h b x i j k = conv_pre ks stride h' b' x' i j k.
Proof.
  intros Hk P Hi Hj Eh Eb Ex. destruct (conv_ok_windows s ks stride rs k i j Hk P Hi Hj) as (D & Wi & Wj).
  unfold conv_pre, conv_linear. rewrite Eb. f_equal. apply Rsum_ext. intros ((a & e) & c) Hin. apply in_cells in Hin.
  rewrite Eh by exact Hin. rewrite Ex; [reflexivity|]. destruct Hin as (Ha & He & Hc). repeat split; lia.
Qed.

Definition conv_velocity (ks : shape) (stride : N) (h hv : N -> N -> N -> N -> R) (bv : N -> R) (x xv : N -> N -> N -> R) (i j k : N) : R :=
  Rsum (map (fun '(a, e, c) => xv (i * stride + a)%N (j * stride + e)%N c * h k a e c + x (i * stride + a)%N (j * stride + e)%N c * hv k a e c) (cells ks)) + bv k.

Lemma conv_curve s ks stride rs H B X h hv b bv x xv :
  (forall k, (k < dk rs)%N -> conv_ok s ks stride rs k) ->
  (forall k, (k < dk rs)%N -> curve ks (fun t => H t k) (h k) (hv k)) ->
  (forall k, (k < dk rs)%N -> B 0 k = b k /\ derivable_pt_lim (fun t => B t k) 0 (bv k)) -> curve s X x xv ->
  (forall i j k, in_shape rs i j k -> 0 < conv_pre ks stride h b x i j k) ->
  curve rs (fun t => conv_map ks stride (H t) (B t) (X t)) (conv_map ks stride h b x) (conv_velocity ks stride h hv bv x xv).
Proof.
  intros P HH HB HX Pos i j k Hin. pose proof Hin as (Hi & Hj & Hk).
  assert (E0 : conv_pre ks stride (H 0) (B 0) (X 0) i j k = conv_pre ks stride h b x i j k).
  { apply (conv_pre_ext s ks stride rs); auto; [|apply HB; exact Hk|].
    - intros a e c Hc. apply (HH k Hk a e c Hc).
    - intros p q c Hc. apply (HX p q c Hc). }
  split; [unfold conv_map; rewrite E0; reflexivity|]. unfold conv_map.
  apply (deriv_eq _ _ (step (conv_pre ks stride (H 0) (B 0) (X 0) i j k) * conv_velocity ks stride h hv bv x xv i j k)).
  { specialize (Pos i j k Hin). rewrite E0. unfold step. destruct (Rlt_dec 0 (conv_pre ks stride h b x i j k)); [ring|lra]. }
  apply (relu_deriv (fun t => conv_pre ks stride (H t) (B t) (X t) i j k)).
  2: { rewrite E0. specialize (Pos i j k Hin). lra. }
  unfold conv_pre, conv_linear, conv_velocity.
  apply (deriv_plus (fun t => Rsum (map (fun '(a, e, c) => X t (i * stride + a)%N (j * stride + e)%N c * H t k a e c) (cells ks))) (fun t => B t k));
    [|apply HB; exact Hk].
  destruct (conv_ok_windows s ks stride rs k i j Hk (P k Hk) Hi Hj) as (D & Wi & Wj).
  pose proof (deriv_sum (cells ks) (fun '(a, e, c) t => X t (i * stride + a)%N (j * stride + e)%N c * H t k a e c)
    (fun '(a, e, c) => xv (i * stride + a)%N (j * stride + e)%N c * h k a e c + x (i * stride + a)%N (j * stride + e)%N c * hv k a e c) 0) as DS.
  eapply deriv_ext; [|apply DS].
  - intros t. apply Rsum_ext. intros ((a & e) & c) _. reflexivity.
  - intros ((a & e) & c) Hc. apply in_cells in Hc.
    assert (Hin' : in_shape s (i * stride + a) (j * stride + e) c) by (destruct Hc as (Ha & He & Hc); repeat split; lia).
    destruct (HX _ _ _ Hin') as (X0 & DX). destruct (HH k Hk a e c Hc) as (H0 & DH). rewrite <- X0, <- H0. apply deriv_mult; assumption.
Qed.
