(** * Pooling twice is pooling once *)
From Coq Require Import ZifyBool ZifyNat ZifyN Reals Lra.
From Verif Require Import Base Arith Helper Tensor Network Spec SpecLayer SpecF32 Loops TensorFacts OpsFacts ProofsTensor ProofsConv LayerFacts ProofsPool ProofsNetError Float32 Float32Facts.
Local Open Scope N_scope.

Lemma max_of_nested {P} (l : list f32) (ps : list P) (w : P -> list f32) (g : P -> f32) m :
  (forall p, In p ps -> max_of (w p) (g p)) -> max_of (map g ps) m -> (forall x, In x l <-> exists p, In p ps /\ In x (w p)) -> max_of l m.
Proof.
  intros F (Nm & I & Mx) E. split; [exact Nm|]. split.
  - destruct I as [->|I]; [left; reflexivity|]. apply in_map_iff in I. destruct I as (p & <- & I). destruct (F p I) as (_ & [->|I2] & _); [left; reflexivity|].
    right. apply E. exists p. auto.
  - intros x Hx. apply E in Hx. destruct Hx as (p & I1 & Hx). destruct (F p I1) as (Nm1 & _ & Mx1). specialize (Mx1 x Hx).
    specialize (Mx (g p) (in_map g _ _ I1)). apply Bool.not_true_is_false. intros G. apply gtb_true in G. destruct G as (Nx & _ & G).
    apply Bool.not_true_iff_false in Mx1, Mx.
    destruct (Rlt_le_dec (rank (g p)) (rank x)) as [L|L]; [apply Mx1|apply Mx]; apply gtb_true; repeat split; try assumption; lra.
Qed.

Lemma in_window mi mj stride i j k a b c : In (a, b, c) (window_positions mi mj stride i j k)
  <-> c = k /\ (exists p, p < mi /\ a = i * stride + p) /\ exists q, q < mj /\ b = j * stride + q.
Proof.
  unfold window_positions. split.
  - intros H. apply in_flat_map in H. destruct H as (q & Hq & H). apply in_map_iff in H. destruct H as (p & E & Hp). apply in_upto in Hp, Hq.
    injection E as <- <- <-. split; [reflexivity|]. split; [exists p|exists q]; auto.
  - intros (-> & (p & Hp & ->) & q & Hq & ->). apply in_flat_map. exists q. split; [apply in_upto; exact Hq|]. apply in_map_iff. exists p.
    split; [reflexivity|apply in_upto; exact Hp].
Qed.

(** One axis: tiles of tiles. *)
Lemma axis_nested m1 m2 s1 s2 i a : 0 < m2 -> s1 <> 0 -> s1 <= m1 ->
  ((exists p, p < (m2 - 1) * s1 + m1 /\ a = i * (s1 * s2) + p)
   <-> exists p2, p2 < m2 /\ exists p1, p1 < m1 /\ a = (i * s2 + p2) * s1 + p1).
Proof.
  intros H2 H1 L. split.
  - intros (p & Hp & ->). destruct (N.lt_ge_cases p ((m2 - 1) * s1)) as [Lt|Ge].
    + exists (p / s1). assert (Q : p / s1 < m2 - 1) by (apply N.div_lt_upper_bound; [exact H1|rewrite N.mul_comm; exact Lt]). split; [lia|].
      exists (p mod s1). pose proof (N.mod_lt p s1 H1). split; [lia|]. pose proof (N.div_mod p s1 H1) as D. rewrite N.mul_add_distr_r, D at 1. lia.
    + exists (m2 - 1). split; [lia|]. exists (p - (m2 - 1) * s1). split; [lia|]. lia.
  - intros (p2 & Hp2 & p1 & Hp1 & ->). exists (p2 * s1 + p1). split; [|lia].
    assert (p2 * s1 <= (m2 - 1) * s1) by (apply N.mul_le_mono_r; lia). lia.
Qed.

Lemma tiles_nested m e1 s1 n1 e2 s2 n2 : tiles m e1 s1 n1 -> tiles n1 e2 s2 n2 -> 0 < e2 -> tiles m ((e2 - 1) * s1 + e1) (s1 * s2) n2.
Proof.
  intros (S1 & L1 & D1 & E1) (S2 & L2 & D2 & E2) P.
  assert (M1 : m - e1 = (n1 - 1) * s1).
  { apply N.div_exact in D1; [|exact S1]. set (q := (m - e1) / s1) in *. rewrite E1, N.add_sub, N.mul_comm. exact D1. }
  assert (M2 : n1 - e2 = (n2 - 1) * s2).
  { apply N.div_exact in D2; [|exact S2]. set (q := (n1 - e2) / s2) in *. rewrite E2, N.add_sub, N.mul_comm. exact D2. }
  assert (N2 : n1 - 1 = (n2 - 1) * s2 + (e2 - 1)) by lia.
  assert (T : m - e1 = (n2 - 1) * (s1 * s2) + (e2 - 1) * s1) by (rewrite M1, N2; lia).
  assert (S : s1 * s2 <> 0) by lia.
  assert (G : m - ((e2 - 1) * s1 + e1) = (n2 - 1) * (s1 * s2)) by lia.
  split; [exact S|]. split; [lia|]. rewrite G. split; [apply N.mod_mul; exact S|]. rewrite N.div_mul by exact S. rewrite E2. symmetry. apply f_equal with (f := fun x => x + 1). apply N.add_sub.
Qed.

Section PoolPool.
Context (e : env).
#[local] Hint Extern 0 (Arith f32) => exact (f32_arith e) : typeclass_instances.

Lemma pool_pool bm (image r1 r2 : tensor f32) s rs1 rs2 f g1 g2 m1 s1 m2 s2 :
  holds bm image s f -> holds bm r1 rs1 g1 -> holds bm r2 rs2 g2 -> pool_ok s m1 s1 rs1 -> pool_ok rs1 m2 s2 rs2 ->
  s1 <= di m1 -> s1 <= dj m1 -> 0 < di m2 -> 0 < dj m2 ->
  let m := mkShape ((di m2 - 1) * s1 + di m1) ((dj m2 - 1) * s1 + dj m1) (dk m1) in
  pool_ok s m (s1 * s2) rs2
  /\ exists a b, max_pool bm image m1 s1 r1 = Done a /\ max_pool bm a m2 s2 r2 = Done b /\ shaped b rs2
     /\ forall i j k, in_shape rs2 i j k -> exists v, get_item bm b (mkIndex i j k) = Done v
        /\ max_of (window_values (di m) (dj m) (s1 * s2) f i j k) v.
Proof.
  intros Hi H1 H2 P1 P2 Li Lj Mi Mj m. split.
  { destruct P1 as (K1 & A1 & B1), P2 as (K2 & A2 & B2). split; [congruence|]. split; eapply tiles_nested; eassumption. }
  destruct (max_pool_f32 e bm image r1 s rs1 f g1 m1 s1 Hi H1 P1) as (a & Ea & Wa & Sa & Va).
  assert (Ha : holds bm a rs1 (val a)) by (apply shaped_holds; split; assumption).
  destruct (max_pool_f32 e bm a r2 rs1 rs2 (val a) g2 m2 s2 Ha H2 P2) as (b & Eb & Wb & Sb & Vb).
  exists a, b. repeat (split; [assumption|]). split; [split; assumption|]. intros i j k Hin. destruct (Vb i j k Hin) as (v & Ev & Mv).
  exists v. split; [exact Ev|].
  apply max_of_nested with (ps := window_positions (di m2) (dj m2) s2 i j k) (w := fun '(x, y, z) => window_values (di m1) (dj m1) s1 f x y z)
    (g := fun '(x, y, z) => val a x y z).
  - intros ((x & y) & z) Hp. assert (Hx : in_shape rs1 x y z) by (eapply pool_inside; eassumption).
    destruct (Va x y z Hx) as (w & Ew & Mw). destruct Ha as (_ & Ts & Rd). rewrite Rd in Ew by (rewrite Ts; exact Hx). injection Ew as ->. exact Mw.
  - exact Mv.
  - assert (S1 : s1 <> 0) by apply P1. intros x. unfold window_values at 1. rewrite in_map_iff. split.
    + intros (((q1 & q2) & q3) & <- & Hq). apply in_window in Hq. destruct Hq as (-> & Hq1 & Hq2). cbn [di dj m] in Hq1, Hq2.
      apply axis_nested in Hq1, Hq2; try assumption. destruct Hq1 as (p2 & Hp2 & p1 & Hp1 & ->). destruct Hq2 as (r2' & Hr2 & r1' & Hr1 & ->).
      exists (i * s2 + p2, j * s2 + r2', k). split; [apply in_window; split; [reflexivity|]; split; eexists; (split; [eassumption|reflexivity])|]. cbv beta iota. unfold window_values. apply in_map_iff.
      exists ((i * s2 + p2) * s1 + p1, (j * s2 + r2') * s1 + r1', k). split; [reflexivity|]. apply in_window. split; [reflexivity|]. split; eexists; (split; [eassumption|reflexivity]).
    + intros (((x1 & x2) & x3) & Hp & Hx). apply in_window in Hp. destruct Hp as (-> & (p2 & Hp2 & ->) & r2' & Hr2 & ->).
      unfold window_values in Hx. apply in_map_iff in Hx. destruct Hx as (((q1 & q2) & q3) & <- & Hq). exists (q1, q2, q3). split; [reflexivity|].
      apply in_window in Hq. destruct Hq as (-> & (p1 & Hp1 & ->) & r1' & Hr1 & ->). apply in_window. split; [reflexivity|]. cbn [di dj m].
      split; apply axis_nested; try assumption; eexists; (split; [eassumption|]); eexists; (split; [eassumption|reflexivity]).
Qed.

End PoolPool.
