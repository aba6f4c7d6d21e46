(** * Functions that are straight close to a point *)
From Coq Require Import Reals Lra ZifyBool ZifyNat ZifyN.
From Verif Require Import Base Arith Helper Tensor Spec SpecReal SpecLocal Loops TensorFacts RealArith RealSums RealGrad RealConv.
Local Open Scope R_scope.

Notation fn := (N -> N -> N -> R).

(** The point a fraction [t] of the way from [x] to [x']. *)
Definition between (t : R) (x x' : fn) : fn := fun i j k => x i j k + t * (x' i j k - x i j k).

(** What a cell of a function does close to [x]: it changes little, and evenly along lines through [x]. *)
Definition even (s : shape) (f : fn -> R) (x : fn) (e r : R) : Prop :=
  forall x', near s r x x' -> Rabs (f x' - f x) <= e /\ forall t, 0 <= t <= 1 -> f (between t x x') = f x + t * (f x' - f x).

Definition straight (s s' : shape) (f : fn -> fn) (x : fn) : Prop :=
  forall e, 0 < e -> exists r, 0 < r /\ forall i j k, in_shape s' i j k -> even s (fun x => f x i j k) x e r.

Definition respects (s s' : shape) (f : fn -> fn) : Prop :=
  forall x x', (forall i j k, in_shape s i j k -> x i j k = x' i j k) -> forall i j k, in_shape s' i j k -> f x i j k = f x' i j k.

Lemma near_mono s r r' x x' : r <= r' -> near s r x x' -> near s r' x x'.
Proof. intros L H i j k Hin. eapply Rle_trans; [apply H; exact Hin|exact L]. Qed.

Lemma even_mono s f x e r r' : r <= r' -> even s f x e r' -> even s f x e r.
Proof. intros L H x' N. apply H. eapply near_mono; eassumption. Qed.

(** A radius for each of finitely many things gives one for all. *)
Lemma common_radius {A} (P : A -> R -> Prop) l : (forall a r r', r <= r' -> P a r' -> P a r) ->
  (forall a, In a l -> exists r, 0 < r /\ P a r) -> exists r, 0 < r /\ forall a, In a l -> P a r.
Proof.
  intros M. induction l as [|a l IH]; intros H; [exists 1; split; [lra|intros a []]|].
  destruct (H a (or_introl eq_refl)) as (r1 & P1 & H1). destruct IH as (r2 & P2 & H2); [intros; apply H; right; assumption|].
  exists (Rmin r1 r2). split; [apply Rmin_pos; assumption|]. intros b [<-|Hb].
  - eapply M; [apply Rmin_l|exact H1].
  - eapply M; [apply Rmin_r|apply H2; exact Hb].
Qed.

Lemma straight_cells s s' f x :
  (forall e i j k, 0 < e -> in_shape s' i j k -> exists r, 0 < r /\ even s (fun x => f x i j k) x e r) -> straight s s' f x.
Proof.
  intros H e He. destruct (common_radius (fun c r => let '(i, j, k) := c in even s (fun x => f x i j k) x e r) (cells s')) as (r & Pr & Hr).
  - intros ((i & j) & k) r r' L. apply even_mono. exact L.
  - intros ((i & j) & k) Hin. apply in_cells in Hin. apply H; assumption.
  - exists r. split; [exact Pr|]. intros i j k Hin. apply (Hr (i, j, k)). apply in_cells. exact Hin.
Qed.

Lemma straight_compose s s1 s2 f g x : straight s s1 f x -> straight s1 s2 g (f x) -> respects s1 s2 g -> straight s s2 (fun x => g (f x)) x.
Proof.
  intros Sf Sg Rg e He. destruct (Sg e He) as (r1 & P1 & H1). destruct (Sf r1 P1) as (r & P & H). exists r. split; [exact P|].
  intros i j k Hin x' Nx. assert (Ny : near s1 r1 (f x) (f x')) by (intros a b c Hc; apply (H a b c Hc x' Nx)).
  destruct (H1 i j k Hin (f x') Ny) as (A & B). split; [exact A|]. intros t Ht. rewrite <- (B t Ht). apply Rg; [|exact Hin].
  intros a b c Hc. exact (proj2 (H a b c Hc x' Nx) t Ht).
Qed.

Lemma straight_ext s s' f g x : (forall x i j k, in_shape s' i j k -> f x i j k = g x i j k) -> straight s s' f x -> straight s s' g x.
Proof.
  intros E H e He. destruct (H e He) as (r & P & Hr). exists r. split; [exact P|]. intros i j k Hin x' Nx. destruct (Hr i j k Hin x' Nx) as (A & B).
  rewrite !E in A by exact Hin. split; [exact A|]. intros t Ht. specialize (B t Ht). rewrite !E in B by exact Hin. exact B.
Qed.

(** ** Clipped sums *)
Lemma abs_bounds a b : Rabs a <= b -> - b <= a <= b.
Proof. unfold Rabs. destruct (Rcase_abs a); lra. Qed.

Lemma relu_even s (pre : fn -> R) x K : 0 <= K ->
  (forall r x', 0 < r -> near s r x x' -> Rabs (pre x' - pre x) <= K * r) ->
  (forall t x', pre (between t x x') = pre x + t * (pre x' - pre x)) -> pre x <> 0 ->
  forall e, 0 < e -> exists r, 0 < r /\ even s (fun x => Rmax 0 (pre x)) x e r.
Proof.
  intros HK Hb Hl Nz e He. set (q := Rmin e (Rabs (pre x))). assert (Pq : 0 < q) by (apply Rmin_pos; [exact He|apply Rabs_pos_lt; exact Nz]).
  assert (PK : 0 < / (1 + K)) by (apply Rinv_0_lt_compat; lra).
  exists (q * / (1 + K)). split; [apply Rmult_lt_0_compat; assumption|]. intros x' Nx.
  assert (Bd : Rabs (pre x' - pre x) <= q).
  { eapply Rle_trans; [apply (Hb (q * / (1 + K))); [apply Rmult_lt_0_compat; assumption|exact Nx]|].
    assert (E : q = (1 + K) * (q * / (1 + K))) by (field; lra). rewrite E at 2. assert (0 < q * / (1 + K)) by (apply Rmult_lt_0_compat; assumption). lra. }
  assert (B1 : Rabs (pre x' - pre x) <= e) by (eapply Rle_trans; [exact Bd|apply Rmin_l]).
  assert (B2 : Rabs (pre x' - pre x) <= Rabs (pre x)) by (eapply Rle_trans; [exact Bd|apply Rmin_r]). clear Bd Nx Hb Pq.
  cbv beta. split.
  - destruct (Rle_dec 0 (pre x)) as [Z|Z]; [rewrite (Rmax_right _ (pre x)) by lra|rewrite (Rmax_left _ (pre x)) by lra].
    + rewrite (Rabs_pos_eq (pre x)) in B2 by lra. rewrite Rmax_right; [exact B1|].
      apply abs_bounds in B2. lra.
    + rewrite (Rabs_left (pre x)) in B2 by lra. rewrite Rmax_left; [rewrite Rminus_0_r, Rabs_R0; lra|].
      apply abs_bounds in B2. lra.
  - intros t Ht. rewrite Hl. destruct (Rle_dec 0 (pre x)) as [Z|Z].
    + rewrite (Rabs_pos_eq (pre x)) in B2 by lra. apply abs_bounds in B2.
      assert (0 <= pre x + t * (pre x' - pre x)).
      { assert (t * - pre x <= t * (pre x' - pre x)) by (apply Rmult_le_compat_l; lra). assert (t * pre x <= 1 * pre x) by (apply Rmult_le_compat_r; lra). lra. }
      rewrite !Rmax_right by lra. reflexivity.
    + rewrite (Rabs_left (pre x)) in B2 by lra. apply abs_bounds in B2.
      assert (pre x + t * (pre x' - pre x) <= 0).
      { assert (t * (pre x' - pre x) <= t * - pre x) by (apply Rmult_le_compat_l; lra). assert (t * - pre x <= 1 * - pre x) by (apply Rmult_le_compat_r; lra). lra. }
      rewrite !Rmax_left by lra. ring.
Qed.

Definition inside (s : shape) (c : N * N * N) : Prop := let '(i, j, k) := c in in_shape s i j k.

Lemma near_at s r x x' c : near s r x x' -> inside s c -> Rabs (value_at x' c - value_at x c) <= r.
Proof. destruct c as ((i & j) & k). intros H Hin. apply H. exact Hin. Qed.
Lemma between_at t x x' c : value_at (between t x x') c = value_at x c + t * (value_at x' c - value_at x c).
Proof. destruct c as ((i & j) & k). reflexivity. Qed.

(** A weighted sum of elements plus a constant, clipped. *)
Lemma clipped_even {A} s (l : list A) (w : A -> R) (pos : A -> N * N * N) c0 (pre : fn -> R) x :
  (forall x, pre x = Rsum (map (fun a => w a * value_at x (pos a)) l) + c0) -> (forall a, In a l -> inside s (pos a)) -> pre x <> 0 ->
  forall e, 0 < e -> exists r, 0 < r /\ even s (fun x => Rmax 0 (pre x)) x e r.
Proof.
  intros E Hp. apply relu_even with (K := Rsum (map (fun a => Rabs (w a)) l)).
  - apply Rsum_nonneg. intros; apply Rabs_pos.
  - intros r x' Pr Nx. rewrite !E. match goal with |- Rabs ?z <= _ => replace z with (Rsum (map (fun a => w a * (value_at x' (pos a) - value_at x (pos a))) l)) end.
    2: { rewrite (Rsum_ext _ (fun a => w a * value_at x' (pos a) + (-1) * (w a * value_at x (pos a)))) by (intros; ring). rewrite Rsum_plus, Rsum_scale. ring. }
    eapply Rle_trans; [apply Rabs_Rsum|]. rewrite <- Rsum_scale_r. clear E. induction l as [|a l IH]; cbn [map]; [cbn; lra|]. rewrite !Rsum_cons.
    apply Rplus_le_compat; [|apply IH; intros; apply Hp; right; assumption]. rewrite Rabs_mult. apply Rmult_le_compat_l; [apply Rabs_pos|].
    apply (near_at s); [exact Nx|]. apply Hp. left. reflexivity.
  - intros t x'. rewrite !E. rewrite (Rsum_ext _ (fun a => (1 - t) * (w a * value_at x (pos a)) + t * (w a * value_at x' (pos a))))
      by (intros; rewrite between_at; ring). rewrite Rsum_plus, !Rsum_scale. ring.
Qed.

Lemma fc_straight_input M n w b x : (forall i, (i < M)%N -> fc_pre n w b x i <> 0) -> straight (mkShape n 1 1) (mkShape M 1 1) (fc_map n w b) x.
Proof.
  intros Nz. apply straight_cells. intros e i j k He Hin. apply column_in in Hin. destruct Hin as (Hi & -> & ->).
  apply (clipped_even _ (upto n) (fun p => w i p 0%N) (fun p => (p, 0%N, 0%N)) (b i 0%N 0%N) (fun x => fc_pre n w b x i)); [reflexivity| |apply Nz; exact Hi|exact He].
  intros p Hp. apply in_upto in Hp. apply in_column. exact Hp.
Qed.

Lemma fc_straight_weights M n w b x : (forall i, (i < M)%N -> fc_pre n w b x i <> 0) -> straight (mkShape M n 1) (mkShape M 1 1) (fun w => fc_map n w b x) w.
Proof.
  intros Nz. apply straight_cells. intros e i j k He Hin. apply column_in in Hin. destruct Hin as (Hi & -> & ->).
  apply (clipped_even _ (upto n) (fun p => x p 0%N 0%N) (fun p => (i, p, 0%N)) (b i 0%N 0%N) (fun w => fc_pre n w b x i)); [| |apply Nz; exact Hi|exact He].
  - intros w'. unfold fc_pre. f_equal. apply Rsum_ext. intros p _. cbn [value_at]. ring.
  - intros p Hp. apply in_upto in Hp. repeat split; cbn; lia.
Qed.

Lemma fc_straight_bias M n w b x : (forall i, (i < M)%N -> fc_pre n w b x i <> 0) -> straight (mkShape M 1 1) (mkShape M 1 1) (fun b => fc_map n w b x) b.
Proof.
  intros Nz. apply straight_cells. intros e i j k He Hin. apply column_in in Hin. destruct Hin as (Hi & -> & ->).
  apply (clipped_even _ [tt] (fun _ => 1) (fun _ => (i, 0%N, 0%N)) (Rsum (map (fun p => w i p 0%N * x p 0%N 0%N) (upto n))) (fun b => fc_pre n w b x i));
    [| |apply Nz; exact Hi|exact He].
  - intros b'. unfold fc_pre. cbn [map value_at]. rewrite Rsum_cons. cbn [Rsum fold_right]. ring.
  - intros p _. apply in_column. exact Hi.
Qed.

Lemma fc_respects M n w b : respects (mkShape n 1 1) (mkShape M 1 1) (fc_map n w b).
Proof.
  intros x x' E i j k Hin. unfold fc_map. f_equal. apply fc_pre_ext; [reflexivity|reflexivity|]. intros p Hp. apply E. apply in_column. exact Hp.
Qed.

Lemma conv_straight s ks stride rs h b x : (forall k, (k < dk rs)%N -> conv_ok s ks stride rs k) ->
  (forall i j k, in_shape rs i j k -> 0 < conv_pre ks stride h b x i j k) -> straight s rs (conv_map ks stride h b) x.
Proof.
  intros P Nz. apply straight_cells. intros e i j k He Hin. pose proof Hin as (Hi & Hj & Hk). pose proof (Nz i j k Hin) as Z.
  apply (clipped_even s (cells ks) (fun '(a, u, c) => h k a u c) (fun '(a, u, c) => ((i * stride + a)%N, (j * stride + u)%N, c)) (b k) (fun x => conv_pre ks stride h b x i j k));
    [| |lra|exact He].
  - intros y. unfold conv_pre, conv_linear. f_equal. apply Rsum_ext. intros ((a & u) & c) _. cbn [value_at]. ring.
  - intros ((a & u) & c) Hc. apply in_cells in Hc. destruct (conv_ok_windows s ks stride rs k i j Hk (P k Hk) Hi Hj) as (D & Wi & Wj).
    destruct Hc as (Ha & Hu & Hc). repeat split; cbn; lia.
Qed.

Lemma conv_respects s ks stride rs h b : (forall k, (k < dk rs)%N -> conv_ok s ks stride rs k) -> respects s rs (conv_map ks stride h b).
Proof.
  intros P x x' E i j k (Hi & Hj & Hk). unfold conv_map. f_equal. apply (conv_pre_ext s ks stride rs); auto.
Qed.

(** ** Pooling *)
Lemma pool_straight low ins mask stride outs x win :
  (forall i j k c, in_shape outs i j k -> In c (window_positions (di mask) (dj mask) stride i j k) -> inside ins c) ->
  winners low mask stride outs x win -> straight ins outs (pool_map low mask stride) x.
Proof.
  intros Bd Hw. apply straight_cells. intros e i j k He Hin. pose proof (Hw i j k Hin) as U. set (l := window_positions (di mask) (dj mask) stride i j k) in *.
  set (c := win i j k) in *. pose proof U as (Hc & Hl & Hu).
  destruct (common_radius (fun c' r => c' = c \/ 3 * r <= value_at x c - value_at x c') l) as (r1 & P1 & H1).
  { intros a r r' L [->|H]; [left; reflexivity|right; lra]. }
  { intros c' Hc'. assert (Dd : {c' = c} + {c' <> c}) by (repeat decide equality). destruct Dd as [->|Ne].
    - exists 1. split; [lra|left; reflexivity].
    - specialize (Hu c' Hc' Ne). exists ((value_at x c - value_at x c') / 3). split; [lra|right; lra]. }
  set (r := Rmin e (Rmin r1 ((value_at x c - low) / 2))).
  assert (Pr : 0 < r) by (repeat apply Rmin_pos; lra).
  assert (R1 : r <= e) by apply Rmin_l.
  assert (R2 : r <= r1) by (eapply Rle_trans; [apply Rmin_r|apply Rmin_l]).
  assert (R3 : r <= (value_at x c - low) / 2) by (eapply Rle_trans; [apply Rmin_r|apply Rmin_r]).
  assert (V : forall x', near ins r x x' -> pool_map low mask stride x' i j k = value_at x' c).
  { intros x' Nx. unfold pool_map. rewrite value_at_window. apply fold_max_unique. split; [exact Hc|].
    pose proof (abs_bounds _ _ (near_at ins r x x' c Nx (Bd i j k c Hin Hc))) as Bc. split; [lra|]. intros c' Hc' Ne.
    pose proof (abs_bounds _ _ (near_at ins r x x' c' Nx (Bd i j k c' Hin Hc'))) as Bc'. destruct (H1 c' Hc') as [Q|Q]; [congruence|]. lra. }
  exists r. split; [exact Pr|]. intros x' Nx.
  assert (Vx : pool_map low mask stride x i j k = value_at x c) by (apply V; intros a b d _; rewrite Rminus_diag_eq by reflexivity; rewrite Rabs_R0; lra).
  rewrite Vx, (V x' Nx). split.
  - eapply Rle_trans; [apply (near_at ins r x x' c Nx (Bd i j k c Hin Hc))|exact R1].
  - intros t Ht. rewrite V; [apply between_at|]. intros a b d Hd. unfold between.
    replace (x a b d + t * (x' a b d - x a b d) - x a b d) with (t * (x' a b d - x a b d)) by ring. rewrite Rabs_mult, (Rabs_pos_eq t) by lra.
    specialize (Nx a b d Hd). pose proof (Rabs_pos (x' a b d - x a b d)).
    assert (t * Rabs (x' a b d - x a b d) <= 1 * Rabs (x' a b d - x a b d)) by (apply Rmult_le_compat_r; lra). lra.
Qed.

Lemma pool_respects low ins mask stride outs :
  (forall i j k c, in_shape outs i j k -> In c (window_positions (di mask) (dj mask) stride i j k) -> inside ins c) ->
  respects ins outs (pool_map low mask stride).
Proof.
  intros Bd x x' E i j k Hin. unfold pool_map. f_equal. unfold window_values. apply map_ext_in. intros ((a & b) & c) Hc. apply E.
  exact (Bd i j k (a, b, c) Hin Hc).
Qed.

(** ** What a derivative says about a straight function *)
Lemma even_derivative (phi : R -> R) A B d : derivable_pt_lim phi 0 d -> (forall t, 0 <= t <= 1 -> phi t = A + t * B) -> d = B.
Proof.
  intros D L. apply cond_eq. intros e He. destruct (D e He) as (delta & Hd).
  pose proof (cond_pos delta) as Pd. set (h := Rmin (delta / 2) 1). assert (Ph : 0 < h) by (apply Rmin_pos; lra).
  assert (L1 : h <= delta / 2) by apply Rmin_l. assert (L2 : h <= 1) by apply Rmin_r.
  specialize (Hd h ltac:(lra)). rewrite (Rabs_pos_eq h) in Hd by lra. specialize (Hd ltac:(lra)).
  rewrite Rplus_0_l, (L h ltac:(lra)), (L 0 ltac:(lra)) in Hd. replace ((A + h * B - (A + 0 * B)) / h) with B in Hd by (field; lra).
  rewrite Rabs_minus_sym. exact Hd.
Qed.

Lemma between_curve s x x' : curve s (fun t => between t x x') x (change x x').
Proof.
  intros i j k _. unfold between, change. split; [ring|]. intros e He. exists (mkposreal 1 Rlt_0_1). intros h Nh _.
  match goal with |- Rabs ?z < _ => replace z with 0 by (field; exact Nh) end. rewrite Rabs_R0. exact He.
Qed.

(** Where a function is straight, a gradient predicts the change of a weighted sum of its cells exactly. *)
Lemma straight_gradient s s' f x g d : straight s s' f x -> gradient s (fun x => pairing s' g (f x)) x d ->
  exists r, 0 < r /\ forall x', near s r x x' -> pairing s' g (f x') - pairing s' g (f x) = pairing s d (change x x').
Proof.
  intros Sf G. destruct (Sf 1 Rlt_0_1) as (r & Pr & Hr). exists r. split; [exact Pr|]. intros x' Nx.
  symmetry. apply (even_derivative _ (pairing s' g (f x)) (pairing s' g (f x') - pairing s' g (f x)) _ (G _ _ (between_curve s x x'))).
  intros t Ht. unfold pairing. rewrite (Rsum_ext _ (fun c => (1 - t) * (fun '(i, j, k) => g i j k * f x i j k) c + t * (fun '(i, j, k) => g i j k * f x' i j k) c)).
  - rewrite Rsum_plus, !Rsum_scale. ring.
  - intros ((i & j) & k) Hin. apply in_cells in Hin. rewrite (proj2 (Hr i j k Hin x' Nx) t Ht). ring.
Qed.
