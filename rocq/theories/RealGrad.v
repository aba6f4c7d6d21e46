(** * Derivatives of the layers, as functions *)
From Coq Require Import Reals Lra ZifyBool ZifyNat ZifyN.
From Verif Require Import Base Arith Helper Tensor Spec SpecReal Loops TensorFacts RealSums.
Local Open Scope R_scope.

(** ** Pairings *)
Lemma pairing_ext s f f' g g' : (forall i j k, in_shape s i j k -> f i j k = f' i j k) -> (forall i j k, in_shape s i j k -> g i j k = g' i j k) ->
  pairing s f g = pairing s f' g'.
Proof.
  intros H1 H2. unfold pairing. apply Rsum_ext. intros ((i & j) & k) Hin. apply in_cells in Hin. rewrite H1, H2 by exact Hin. reflexivity.
Qed.

Lemma upto_1 : upto 1 = [0%N].
Proof. reflexivity. Qed.

Lemma cells_column {A} (f : N * N * N -> A) n : map f (cells (mkShape n 1 1)) = map (fun i => f (i, 0%N, 0%N)) (upto n).
Proof. unfold cells. cbn [di dj dk]. rewrite upto_1. cbn [flat_map]. rewrite !app_nil_r, map_map. reflexivity. Qed.

Lemma pairing_column n f g : pairing (mkShape n 1 1) f g = Rsum (map (fun i => f i 0%N 0%N * g i 0%N 0%N) (upto n)).
Proof. unfold pairing. rewrite cells_column. reflexivity. Qed.

Lemma pairing_matrix m n f g : pairing (mkShape m n 1) f g = Rsum (map (fun j => Rsum (map (fun i => f i j 0%N * g i j 0%N) (upto m))) (upto n)).
Proof.
  unfold pairing, cells. cbn [di dj dk]. rewrite upto_1. cbn [flat_map]. rewrite app_nil_r, Rsum_flat_map. apply Rsum_ext. intros j _.
  rewrite map_map. reflexivity.
Qed.

Lemma in_column n i : (i < n)%N -> in_shape (mkShape n 1 1) i 0 0.
Proof. intros H. repeat split; cbn; lia. Qed.

Lemma column_in n i j k : in_shape (mkShape n 1 1) i j k -> (i < n)%N /\ j = 0%N /\ k = 0%N.
Proof. intros (H1 & H2 & H3). cbn in *. lia. Qed.

(** ** Curves *)
Lemma curve_const s x : curve s (fun _ => x) x (fun _ _ _ => 0).
Proof. intros i j k _. split; [reflexivity|apply deriv_const]. Qed.

Lemma curve_pairing s X x v g : curve s X x v -> derivable_pt_lim (fun t => pairing s g (X t)) 0 (pairing s g v).
Proof.
  intros H. unfold pairing.
  apply (deriv_ext (fun t => Rsum (map (fun c => (fun c t => let '(i, j, k) := c in g i j k * X t i j k) c t) (cells s)))).
  { intros t. apply Rsum_ext. intros ((i & j) & k) _. reflexivity. }
  apply (deriv_sum (cells s) (fun c t => let '(i, j, k) := c in g i j k * X t i j k) (fun '(i, j, k) => g i j k * v i j k)).
  intros ((i & j) & k) Hin. apply in_cells in Hin. apply deriv_scale. apply H. exact Hin.
Qed.

(** ** Fully connected *)
Definition step (z : R) : R := if Rlt_dec 0 z then 1 else 0.

Lemma relu_deriv f l : derivable_pt_lim f 0 l -> f 0 <> 0 -> derivable_pt_lim (fun t => Rmax 0 (f t)) 0 (step (f 0) * l).
Proof.
  intros D H. unfold step. destruct (Rlt_dec 0 (f 0)) as [L|L].
  - destruct (deriv_above f 0 l 0 D L) as (d & Hd & E). apply deriv_eq with (l := l); [ring|].
    apply (deriv_near f _ 0 l d Hd); [|exact D]. intros t Ht. symmetry. apply Rmax_right. left. apply E. exact Ht.
  - destruct (deriv_below f 0 l 0 D) as (d & Hd & E); [lra|]. apply deriv_eq with (l := 0); [ring|].
    apply (deriv_near (fun _ => 0) _ 0 0 d Hd); [|apply deriv_const]. intros t Ht. symmetry. apply Rmax_left. left. apply E. exact Ht.
Qed.

Definition fc_velocity (n : N) (w b x wv bv xv : N -> N -> N -> R) : N -> N -> N -> R := fun i _ _ =>
  step (fc_pre n w b x i) * (Rsum (map (fun p => wv i p 0%N * x p 0%N 0%N + w i p 0%N * xv p 0%N 0%N) (upto n)) + bv i 0%N 0%N).

Lemma fc_pre_ext n w b x w' b' x' i : (forall p, (p < n)%N -> w i p 0%N = w' i p 0%N) -> b i 0%N 0%N = b' i 0%N 0%N ->
  (forall p, (p < n)%N -> x p 0%N 0%N = x' p 0%N 0%N) -> fc_pre n w b x i = fc_pre n w' b' x' i.
Proof.
  intros Hw Hb Hx. unfold fc_pre. rewrite Hb. f_equal. apply Rsum_ext. intros p Hp. apply in_upto in Hp. rewrite Hw, Hx by exact Hp. reflexivity.
Qed.

Lemma fc_curve m n W B X w b x wv bv xv :
  curve (mkShape m n 1) W w wv -> curve (mkShape m 1 1) B b bv -> curve (mkShape n 1 1) X x xv ->
  (forall i, (i < m)%N -> fc_pre n w b x i <> 0) ->
  curve (mkShape m 1 1) (fun t => fc_map n (W t) (B t) (X t)) (fc_map n w b x) (fc_velocity n w b x wv bv xv).
Proof.
  intros HW HB HX NZ i j k Hin. apply column_in in Hin. destruct Hin as (Hi & -> & ->).
  assert (Iw : forall p, (p < n)%N -> in_shape (mkShape m n 1) i p 0) by (intros p Hp; repeat split; cbn; lia).
  assert (E0 : fc_pre n (W 0) (B 0) (X 0) i = fc_pre n w b x i).
  { apply fc_pre_ext; [intros; apply HW, Iw; assumption|apply HB, in_column; exact Hi|intros; apply HX, in_column; assumption]. }
  split; [unfold fc_map; rewrite E0; reflexivity|]. unfold fc_map, fc_velocity. rewrite <- E0.
  apply (relu_deriv (fun t => fc_pre n (W t) (B t) (X t) i)); [|rewrite E0; apply NZ; exact Hi].
  unfold fc_pre. apply (deriv_plus (fun t => Rsum (map (fun p => W t i p 0%N * X t p 0%N 0%N) (upto n))) (fun t => B t i 0%N 0%N));
    [|apply HB, in_column; exact Hi].
  apply (deriv_sum (upto n) (fun p t => W t i p 0%N * X t p 0%N 0%N)). intros p Hp. apply in_upto in Hp.
  destruct (HW i p 0%N (Iw p Hp)) as (W0 & DW). destruct (HX p 0%N 0%N (in_column n p Hp)) as (X0 & DX).
  rewrite <- W0, <- X0. apply deriv_mult; assumption.
Qed.

(** Moving the sum to the other side: inputs, weights, biases. *)
Definition fc_back (m n : N) (w b x g : N -> N -> N -> R) : N -> N -> N -> R := fun p _ _ =>
  Rsum (map (fun i => w i p 0%N * (step (fc_pre n w b x i) * g i 0%N 0%N)) (upto m)).
Definition fc_back_weights (n : N) (w b x g : N -> N -> N -> R) : N -> N -> N -> R := fun i p _ =>
  step (fc_pre n w b x i) * g i 0%N 0%N * x p 0%N 0%N.
Definition fc_back_bias (n : N) (w b x g : N -> N -> N -> R) : N -> N -> N -> R := fun i _ _ =>
  step (fc_pre n w b x i) * g i 0%N 0%N.

Lemma fc_adjoint m n w b x wv bv xv g :
  pairing (mkShape m 1 1) g (fc_velocity n w b x wv bv xv)
  = pairing (mkShape m n 1) (fc_back_weights n w b x g) wv + pairing (mkShape m 1 1) (fc_back_bias n w b x g) bv
    + pairing (mkShape n 1 1) (fc_back m n w b x g) xv.
Proof.
  rewrite !pairing_column, pairing_matrix. unfold fc_velocity, fc_back, fc_back_weights, fc_back_bias.
  set (s := fun i => step (fc_pre n w b x i)).
  transitivity (Rsum (map (fun i => Rsum (map (fun p => s i * g i 0%N 0%N * x p 0%N 0%N * wv i p 0%N) (upto n))) (upto m))
    + Rsum (map (fun i => s i * g i 0%N 0%N * bv i 0%N 0%N) (upto m))
    + Rsum (map (fun i => Rsum (map (fun p => w i p 0%N * (s i * g i 0%N 0%N) * xv p 0%N 0%N) (upto n))) (upto m))).
  - rewrite <- !Rsum_plus. apply Rsum_ext. intros i _. fold (s i).
    rewrite Rsum_plus. rewrite (Rsum_ext (fun p => s i * g i 0%N 0%N * x p 0%N 0%N * wv i p 0%N) (fun p => s i * g i 0%N 0%N * (wv i p 0%N * x p 0%N 0%N))) by (intros; ring).
    rewrite (Rsum_ext (fun p => w i p 0%N * (s i * g i 0%N 0%N) * xv p 0%N 0%N) (fun p => s i * g i 0%N 0%N * (w i p 0%N * xv p 0%N 0%N))) by (intros; ring).
    rewrite !Rsum_scale. ring.
  - f_equal; [f_equal|].
    + rewrite Rsum_swap. reflexivity.
    + rewrite Rsum_swap. apply Rsum_ext. intros p _. rewrite Rsum_scale_r. reflexivity.
Qed.

Lemma pairing_zero s f : pairing s f (fun _ _ _ => 0) = 0.
Proof. unfold pairing. apply Rsum_zero. intros ((i & j) & k) _. ring. Qed.

(** ** Softmax *)
Definition softmax_velocity (s : shape) (x v : N -> N -> N -> R) : N -> N -> N -> R := fun i j k =>
  let y := softmax_map s x in y i j k * v i j k - y i j k * pairing s y v.

Definition softmax_back (s : shape) (y g : N -> N -> N -> R) : N -> N -> N -> R := fun i j k =>
  y i j k * g i j k - y i j k * pairing s y g.

Lemma softmax_total s (x : N -> N -> N -> R) i j k : in_shape s i j k -> 0 < Rsum (map (fun '(i, j, k) => exp (x i j k)) (cells s)).
Proof.
  intros H. apply Rsum_pos; [|intros ((a & b) & c) _; apply exp_pos]. apply in_cells in H. intros E. rewrite E in H. destruct H.
Qed.

Lemma exp_deriv f l : derivable_pt_lim f 0 l -> derivable_pt_lim (fun t => exp (f t)) 0 (exp (f 0) * l).
Proof. intros D. exact (derivable_pt_lim_comp f exp 0 l (exp (f 0)) D (derivable_pt_lim_exp (f 0))). Qed.

Lemma softmax_curve s X x v : curve s X x v -> curve s (fun t => softmax_map s (X t)) (softmax_map s x) (softmax_velocity s x v).
Proof.
  intros H i j k Hin.
  assert (E0 : Rsum (map (fun '(i, j, k) => exp (X 0 i j k)) (cells s)) = Rsum (map (fun '(i, j, k) => exp (x i j k)) (cells s))).
  { apply Rsum_ext. intros ((a & b) & c) Hc. apply in_cells in Hc. rewrite (proj1 (H _ _ _ Hc)). reflexivity. }
  destruct (H i j k Hin) as (X0 & DX). split; [unfold softmax_map; rewrite E0, X0; reflexivity|].
  pose proof (softmax_total s x i j k Hin) as HS. unfold softmax_velocity, softmax_map. set (S := Rsum (map (fun '(i, j, k) => exp (x i j k)) (cells s))) in *.
  assert (DS : derivable_pt_lim (fun t => Rsum (map (fun '(i, j, k) => exp (X t i j k)) (cells s))) 0
                 (Rsum (map (fun '(i, j, k) => exp (x i j k) * v i j k) (cells s)))).
  { apply (deriv_ext (fun t => Rsum (map (fun c => (fun c t => let '(i, j, k) := c in exp (X t i j k)) c t) (cells s)))).
    { intros t. apply Rsum_ext. intros ((a & b) & c) _. reflexivity. }
    apply (deriv_sum (cells s) (fun c t => let '(i, j, k) := c in exp (X t i j k))). intros ((a & b) & c) Hc. apply in_cells in Hc.
    destruct (H a b c Hc) as (Xc & Dc). rewrite <- Xc. apply (exp_deriv (fun t => X t a b c)). exact Dc. }
  pose proof (derivable_pt_lim_div (fun t => exp (X t i j k)) (fun t => Rsum (map (fun '(i, j, k) => exp (X t i j k)) (cells s))) 0 _ _
    (exp_deriv _ _ DX) DS) as D. cbv beta in D. rewrite E0 in D. specialize (D ltac:(fold S; lra)).
  eapply deriv_eq; [|exact D]. rewrite X0. fold S. unfold pairing.
  rewrite (Rsum_ext (fun '(i, j, k) => exp (x i j k) / S * v i j k) (fun c => / S * (fun '(i, j, k) => exp (x i j k) * v i j k) c))
    by (intros ((a & b) & c) _; unfold Rdiv; ring).
  rewrite Rsum_scale. unfold Rsqr. field. lra.
Qed.

Lemma softmax_adjoint s x v g : pairing s g (softmax_velocity s x v) = pairing s (softmax_back s (softmax_map s x) g) v.
Proof.
  set (y := softmax_map s x).
  assert (E1 : pairing s g (softmax_velocity s x v) = Rsum (map (fun '(i, j, k) => g i j k * y i j k * v i j k) (cells s)) - pairing s y g * pairing s y v).
  { unfold pairing at 1, softmax_velocity. fold y.
    rewrite (Rsum_ext _ (fun c => (fun '(i, j, k) => g i j k * y i j k * v i j k) c + (fun '(i, j, k) => y i j k * g i j k) c * - pairing s y v))
      by (intros ((i & j) & k) _; ring).
    rewrite Rsum_plus, Rsum_scale_r. unfold pairing. ring. }
  assert (E2 : pairing s (softmax_back s y g) v = Rsum (map (fun '(i, j, k) => g i j k * y i j k * v i j k) (cells s)) - pairing s y g * pairing s y v).
  { unfold pairing at 1, softmax_back.
    rewrite (Rsum_ext _ (fun c => (fun '(i, j, k) => g i j k * y i j k * v i j k) c + (fun '(i, j, k) => y i j k * v i j k) c * - pairing s y g))
      by (intros ((i & j) & k) _; ring).
    rewrite Rsum_plus, Rsum_scale_r. unfold pairing. ring. }
  rewrite E1, E2. reflexivity.
Qed.

(** ** Max pooling *)
Lemma fold_max_unique low l (x : N -> N -> N -> R) c : unique_max low l x c -> fold_right Rmax low (map (value_at x) l) = value_at x c.
Proof.
  intros (Hc & Hl & Hu).
  assert (U : forall l, (forall c', In c' l -> value_at x c' <= value_at x c) -> fold_right Rmax low (map (value_at x) l) <= value_at x c).
  { induction l0 as [|a l0 IH]; intros H; cbn; [lra|]. apply Rmax_lub; [apply H; left; reflexivity|]. apply IH. intros; apply H; right; assumption. }
  assert (L : forall l, In c l -> value_at x c <= fold_right Rmax low (map (value_at x) l)).
  { induction l0 as [|a l0 IH]; intros H; [destruct H|]. cbn. destruct H as [->|H]; [apply Rmax_l|].
    eapply Rle_trans; [apply IH; exact H|apply Rmax_r]. }
  apply Rle_antisym; [|apply L; exact Hc]. apply U. intros c' H'.
  assert (D : {c' = c} + {c' <> c}) by (repeat decide equality). destruct D as [->|D]; [lra|]. left. apply Hu; assumption.
Qed.

Lemma in_window mi mj stride i j k a b c : In (a, b, c) (window_positions mi mj stride i j k) <->
  exists ii jj, (ii < mi)%N /\ (jj < mj)%N /\ a = (i * stride + ii)%N /\ b = (j * stride + jj)%N /\ c = k.
Proof.
  unfold window_positions. rewrite in_flat_map. split.
  - intros (jj & Hj & H). apply in_map_iff in H. destruct H as (ii & E & Hi). injection E as <- <- <-.
    apply in_upto in Hi, Hj. exists ii, jj. auto.
  - intros (ii & jj & Hi & Hj & -> & -> & ->). exists jj. split; [apply in_upto; exact Hj|]. apply in_map_iff. exists ii. split; [reflexivity|apply in_upto; exact Hi].
Qed.

Lemma value_at_window mi mj stride x i j k : window_values mi mj stride x i j k = map (value_at x) (window_positions mi mj stride i j k).
Proof. unfold window_values. apply map_ext. intros ((a & b) & c). reflexivity. Qed.

Lemma curve_at s X x v c : curve s X x v -> (let '(i, j, k) := c in in_shape s i j k) ->
  value_at (X 0) c = value_at x c /\ derivable_pt_lim (fun t => value_at (X t) c) 0 (value_at v c).
Proof. destruct c as ((i & j) & k). intros H Hin. exact (H i j k Hin). Qed.

Lemma pool_curve low ins mask stride outs X x v win :
  (forall i j k c, in_shape outs i j k -> In c (window_positions (di mask) (dj mask) stride i j k) -> let '(a, b, d) := c in in_shape ins a b d) ->
  winners low mask stride outs x win -> curve ins X x v ->
  curve outs (fun t => pool_map low mask stride (X t)) (pool_map low mask stride x) (fun i j k => value_at v (win i j k)).
Proof.
  intros Bd Hw H i j k Hin. pose proof (Hw i j k Hin) as U. set (l := window_positions (di mask) (dj mask) stride i j k) in *. set (c := win i j k) in *.
  unfold pool_map.
  assert (K : exists d, 0 < d /\ forall t, Rabs (t - 0) < d -> unique_max low l (X t) c).
  { pose proof U as (Hc & Hl & Hu). destruct (curve_at ins X x v c H (Bd i j k c Hin Hc)) as (Xc & Dc).
    destruct (deriv_above _ 0 _ low Dc) as (d1 & P1 & H1); [rewrite Xc; exact Hl|].
    destruct (near_all l (fun c' t => c' <> c -> value_at (X t) c' < value_at (X t) c) 0) as (d2 & P2 & H2).
    - intros c' Hc'. assert (Dd : {c' = c} + {c' <> c}) by (repeat decide equality). destruct Dd as [->|Ne].
      + exists 1. split; [lra|]. congruence.
      + destruct (curve_at ins X x v c' H (Bd i j k c' Hin Hc')) as (Xc' & Dc').
        destruct (deriv_less _ _ 0 _ _ Dc' Dc) as (d & P & Hd); [rewrite Xc, Xc'; apply Hu; assumption|]. exists d. split; [exact P|]. intros; apply Hd; assumption.
    - exists (Rmin d1 d2). split; [apply Rmin_pos; assumption|]. intros t Ht. split; [exact Hc|]. split.
      + apply H1. eapply Rlt_le_trans; [exact Ht|apply Rmin_l].
      + intros c' Hc' Ne. apply H2; [eapply Rlt_le_trans; [exact Ht|apply Rmin_r]|exact Hc'|exact Ne]. }
  destruct K as (d & Pd & K). pose proof U as (Hc & _). destruct (curve_at ins X x v c H (Bd i j k c Hin Hc)) as (Xc & Dc).
  split.
  - rewrite !value_at_window. fold l. rewrite (fold_max_unique low l x c U).
    rewrite (fold_max_unique low l (X 0) c); [exact Xc|]. apply K. rewrite Rminus_0_r, Rabs_R0. exact Pd.
  - apply (deriv_near (fun t => value_at (X t) c) _ 0 _ d Pd); [|exact Dc]. intros t Ht. rewrite value_at_window. fold l. symmetry. apply fold_max_unique. apply K. exact Ht.
Qed.

(** Sending gradients back to the positions [pos] they came from. *)
Definition routed (ins outs : shape) (pos : N -> N -> N -> N) (g : N -> N -> N -> R) : N -> N -> N -> R := fun a b c =>
  Rsum (map (value_at g) (filter (fun '(i, j, k) => (pos i j k =? flat ins a b c)%N) (cells outs))).

Lemma Rsum_filter {A} (f : A -> R) P l : Rsum (map f (filter P l)) = Rsum (map (fun x => if P x then f x else 0) l).
Proof. induction l as [|x l IH]; cbn [filter map]; [reflexivity|]. destruct (P x); cbn [map]; rewrite ?Rsum_cons, IH; ring. Qed.

Lemma routed_adjoint ins outs pos g v v' :
  (forall i j k, in_shape outs i j k -> exists a b c, in_shape ins a b c /\ flat ins a b c = pos i j k /\ v' i j k = v a b c) ->
  pairing outs g v' = pairing ins (routed ins outs pos g) v.
Proof.
  intros H. unfold pairing, routed.
  transitivity (Rsum (map (fun p => Rsum (map (fun o => (if let '(i, j, k) := o in let '(a, b, c) := p in (pos i j k =? flat ins a b c)%N then value_at g o else 0) * value_at v p) (cells outs))) (cells ins))).
  2: { apply Rsum_ext. intros ((a & b) & c) _. cbv beta iota. rewrite Rsum_filter, <- Rsum_scale_r. apply Rsum_ext. intros ((i & j) & k) _. reflexivity. }
  rewrite Rsum_swap. apply Rsum_ext. intros ((i & j) & k) Ho. apply in_cells in Ho. destruct (H i j k Ho) as (a & b & c & Hin & E & ->).
  rewrite (Rsum_single _ (cells ins) (a, b, c)).
  - rewrite E, N.eqb_refl. reflexivity.
  - apply NoDup_cells.
  - apply in_cells. exact Hin.
  - intros ((a' & b') & c') Hp Ne. apply in_cells in Hp. destruct (N.eqb_spec (pos i j k) (flat ins a' b' c')) as [E'|]; [|ring].
    exfalso. apply Ne. rewrite <- E in E'. apply flat_inj in E'; try assumption. destruct E' as (-> & -> & ->). reflexivity.
Qed.
