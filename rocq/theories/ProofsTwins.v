(** * Proofs for C109 *)
From Coq Require Import Reals Lra ZifyBool ZifyNat ZifyN.
From Verif Require Import Base Arith Helper Tensor Network Bincode Serial Spec SpecLayer SpecNet SpecReal SpecTrain SpecModes SpecOpposed SpecRewire SpecRelabel SpecTwins RealArith RealSums.
From Verif Require Import Loops TensorFacts OpsFacts ProofsTensor Layout LayerFacts BackFacts NetFacts NetRun NetBack RealGrad ProofsLayer ProofsGrad ProofsOpposed ProofsNegate ProofsRelabel.
Local Open Scope R_scope.

Section Twins.
Context (low : R) (bm : build) {BT : Bits R}.
#[local] Hint Extern 0 (Arith R) => exact (R_arith low) : typeclass_instances.
Notation T := (tensor R).

Definition exchange (a b u : N) : N := if (u =? a)%N then b else if (u =? b)%N then a else u.
Definition twin_views (i : nat) (m a b : N) (j : nat) : view := if Nat.eqb j (S i) then Relabel m (exchange a b) (fun _ => 1) else Plain.

Lemma exchange_ok m a b : (a < m)%N -> (b < m)%N -> renumbering m (exchange a b).
Proof.
  intros A B. unfold exchange. split.
  - intros u U. destruct (N.eqb_spec u a); [assumption|]. destruct (N.eqb_spec u b); assumption.
  - intros u v U V. destruct (N.eqb_spec u a), (N.eqb_spec v a), (N.eqb_spec u b), (N.eqb_spec v b); lia.
Qed.
Lemma views_ok i m a b : (a < m)%N -> (b < m)%N -> forall j, view_ok (twin_views i m a b j).
Proof. intros A B j. unfold twin_views. destruct (Nat.eqb j (S i)); [|exact Logic.I]. split; [apply exchange_ok; assumption|intros; lra]. Qed.
Lemma views_one i m a b j u : factor (twin_views i m a b j) u = 1.
Proof. unfold twin_views. destruct (Nat.eqb j (S i)); reflexivity. Qed.

Lemma exchanged {B} (h : N -> B) a b u : h a = h b -> h u = h (exchange a b u).
Proof. intros E. unfold exchange. destruct (N.eqb_spec u a); [subst; exact E|]. destruct (N.eqb_spec u b); [subst; congruence|reflexivity]. Qed.

(** A network with equal units looks the same when they change places. *)
Lemma twins_seen (ls : list (layer R)) i f g a b : Forall layer_ok ls -> Forall (cleared bm) ls ->
  nth_error ls i = Some (LFC f) -> nth_error ls (S i) = Some (LFC g) -> twins low bm a b f g ->
  exists m, (a < m)%N /\ (b < m)%N /\ layers_seen low bm (twin_views i m a b) ls ls.
Proof.
  intros O C Nf Ng (m & n & p & w & c & v & H1 & H2 & H3 & A & B & E1 & E2 & E3). exists m. split; [exact A|]. split; [exact B|]. split; [reflexivity|].
  assert (O0 : forall j l, nth_error ls j = Some l -> layer_ok l) by (intros j l Q; rewrite Forall_forall in O; apply O; eapply nth_error_In; eassumption).
  assert (C0 : forall j l, nth_error ls j = Some l -> cleared bm l) by (intros j l Q; rewrite Forall_forall in C; apply C; eapply nth_error_In; eassumption).
  intros j l l' Q Q'. rewrite Q in Q'. injection Q' as <-.
  assert (Vi : twin_views i m a b i = Plain) by (unfold twin_views; destruct (Nat.eqb_spec i (S i)); [lia|reflexivity]).
  assert (Vs : twin_views i m a b (S i) = Relabel m (exchange a b) (fun _ => 1)) by (unfold twin_views; rewrite Nat.eqb_refl; reflexivity).
  assert (Vt : twin_views i m a b (S (S i)) = Plain) by (unfold twin_views; destruct (Nat.eqb_spec (S (S i)) (S i)); [lia|reflexivity]).
  destruct (Nat.eq_dec j i) as [->|D1]; [|destruct (Nat.eq_dec j (S i)) as [->|D2]].
  - rewrite Q in Nf. injection Nf as ->. rewrite Vi, Vs. destruct (C0 _ _ Q) as (G1 & _ & G2 & _). unfold zeros in *. rewrite (proj2 (holds_shaped _ _ _ _ H1)) in G1. rewrite (proj2 (holds_shaped _ _ _ _ H2)) in G2.
    eapply seen_fc with (m := m) (n := n); try eassumption; try exact Logic.I; try reflexivity; cbn [factor old]; intros.
    + replace (w i0 p0 0%N) with (w (exchange a b i0) p0 0%N); [field|]. symmetry. apply (exchanged (fun u => w u p0 0%N)). apply E1. assumption.
    + replace (c i0 0%N 0%N) with (c (exchange a b i0) 0%N 0%N); [ring|]. symmetry. apply (exchanged (fun u => c u 0%N 0%N)). exact E2.
    + cbn [fzero R_arith]. field.
    + cbn [fzero R_arith]. field.
  - rewrite Q in Ng. injection Ng as ->. rewrite Vs, Vt. destruct (C0 _ _ Q) as (G1 & _ & G2 & _). destruct (O0 _ _ Q) as (m' & n' & Hw & Hb & _).
    assert (Z : mkShape m' n' 1 = mkShape p m 1) by (rewrite <- (proj2 Hw); exact (proj2 (holds_shaped _ _ _ _ H3))). injection Z as -> ->.
    unfold zeros in *. rewrite (proj2 (holds_shaped _ _ _ _ H3)) in G1. rewrite (proj2 Hb) in G2. pose proof (shaped_holds bm _ _ Hb) as H4.
    eapply seen_fc with (m := p) (n := m); try eassumption; try exact Logic.I; try reflexivity; cbn [factor old]; intros.
    + replace (v i0 p0 0%N) with (v i0 (exchange a b p0) 0%N); [field|]. symmetry. apply (exchanged (fun u => v i0 u 0%N)). apply E3. assumption.
    + ring.
    + cbn [fzero R_arith]. field.
    + cbn [fzero R_arith]. field.
  - apply seen_same.
    + unfold twin_views. destruct (Nat.eqb_spec j (S i)); [lia|reflexivity].
    + unfold twin_views. destruct (Nat.eqb_spec (S j) (S i)); [lia|reflexivity].
    + apply cleared_related; [reflexivity|eauto].
Qed.

(** And the other way round. *)
Lemma seen_twins (ls : list (layer R)) i m a b : (a < m)%N -> (b < m)%N -> (S i < length ls)%nat -> layers_seen low bm (twin_views i m a b) ls ls ->
  exists f g, nth_error ls i = Some (LFC f) /\ nth_error ls (S i) = Some (LFC g) /\ twins low bm a b f g /\ twin_gradients low bm a b f g.
Proof.
  intros A B L (_ & S). destruct (nth_error ls i) as [l|] eqn:Q; [|apply nth_error_None in Q; lia]. destruct (nth_error ls (Datatypes.S i)) as [k|] eqn:Q'; [|apply nth_error_None in Q'; lia].
  pose proof (S i l l Q Q) as S1. pose proof (S (Datatypes.S i) k k Q' Q') as S2.
  assert (Vi : twin_views i m a b i = Plain) by (unfold twin_views; destruct (Nat.eqb_spec i (Datatypes.S i)); [lia|reflexivity]).
  assert (Vs : twin_views i m a b (Datatypes.S i) = Relabel m (exchange a b) (fun _ => 1)) by (unfold twin_views; rewrite Nat.eqb_refl; reflexivity).
  assert (Vt : twin_views i m a b (Datatypes.S (Datatypes.S i)) = Plain) by (unfold twin_views; destruct (Nat.eqb_spec (Datatypes.S (Datatypes.S i)) (Datatypes.S i)); [lia|reflexivity]).
  rewrite Vi, Vs in S1. rewrite Vs, Vt in S2.
  inversion S1 as [f f' m1 n1 wa ba wa' ba' da db da' db' F1 F2 H1 H2 H3 H4 H5 H6 H7 H8 E1 E2 E3 E4 Ef Ef'|? ? ? Z]; [|discriminate Z]. subst l. try (injection Ef' as ->).
  inversion S2 as [g g' m2 n2 wc bc wc' bc' dc dd dc' dd' K1 K2 J1 J2 J3 J4 J5 J6 J7 J8 D1 D2 D3 D4 Eg Eg'|? ? Z]; [|discriminate Z]. subst k. try (injection Eg' as ->).
  cbn [view_fits] in F2, K1. injection F2 as ->. injection K1 as ->. cbn [factor old] in *. exists f, g. split; [reflexivity|]. split; [reflexivity|].
  assert (X : exchange a b a = b) by (unfold exchange; rewrite N.eqb_refl; reflexivity).
  split.
  - exists m, n1, m2, wa, ba, wc. do 5 (split; [assumption|]). split; [|split].
    + intros q Hq. rewrite (holds_fun bm _ _ _ _ H1 H2 a q 0%N) by (repeat split; cbn; auto; lia). rewrite E1, X by assumption. field.
    + rewrite (holds_fun bm _ _ _ _ H3 H4 a 0%N 0%N) by (repeat split; cbn; auto; lia). rewrite E2, X by assumption. ring.
    + intros q Hq. rewrite (holds_fun bm _ _ _ _ J1 J2 q a 0%N) by (repeat split; cbn; auto; lia). rewrite D1, X by assumption. field.
  - exists m, n1, m2, da, db, dc. do 5 (split; [assumption|]). split; [|split].
    + intros q Hq. rewrite (holds_fun bm _ _ _ _ H5 H6 a q 0%N) by (repeat split; cbn; auto; lia). rewrite E3, X by assumption. field.
    + rewrite (holds_fun bm _ _ _ _ H7 H8 a 0%N 0%N) by (repeat split; cbn; auto; lia). rewrite E4, X by assumption. field.
    + intros q Hq. rewrite (holds_fun bm _ _ _ _ J5 J6 q a 0%N) by (repeat split; cbn; auto; lia). rewrite D3, X by assumption. field.
Qed.

Lemma epochs_length (n r : network R) batches : epochs low bm n batches r -> training_built bm n -> trainable n -> Forall (fun s => sized n (snd s)) batches ->
  length (layers r) = length (layers n).
Proof.
  induction 1 as [n|n eta samples rest m q r Sm Bq St Ep IH]; intros B Tn Sz; [reflexivity|]. inversion Sz as [|? ? Sz1 Sz']; subst. cbn [snd] in Sz1.
  destruct (session_kept low bm n m samples Sm B Tn Sz1) as (Bm & Tm & L1 & I1 & O1). destruct (step_kept low bm eta m q Bm Bq Tm St) as (Tq & L2 & I2 & O2).
  rewrite IH; [congruence|assumption|assumption|]. unfold sized in *. rewrite I2, O2, I1, O1. exact Sz'.
Qed.

Lemma plain_samples (n : network R) samples i m a b d : sized n samples -> (S i < d)%nat -> samples_seen low bm (twin_views i m a b) d samples samples.
Proof.
  intros Sz L. unfold twin_views, samples_seen. induction Sz as [|(x & g) rest (Sx & Sg) Sz IH]; constructor; [|exact IH]. cbn [fst snd] in *.
  destruct (Nat.eqb_spec d (S i)); [lia|]. cbn [Nat.eqb]. split.
  - exists (net_input_shape n), (val x), (val x). split; [exact Logic.I|]. split; [apply shaped_holds; exact Sx|]. split; [apply shaped_holds; exact Sx|]. intros; cbn [factor old]; ring.
  - exists (net_output_shape n), (val g), (val g). split; [exact Logic.I|]. split; [apply shaped_holds; exact Sg|]. split; [apply shaped_holds; exact Sg|]. intros; cbn [factor old]; field.
Qed.

Lemma twins_batch (n m : network R) samples i f g a b :
  training_built bm n -> trainable n -> Forall (cleared bm) (layers n) -> sized n samples ->
  nth_error (layers n) i = Some (LFC f) -> nth_error (layers n) (S i) = Some (LFC g) -> twins low bm a b f g -> session bm n samples m ->
  exists f' g', nth_error (layers m) i = Some (LFC f') /\ nth_error (layers m) (S i) = Some (LFC g') /\ twins low bm a b f' g' /\ twin_gradients low bm a b f' g'.
Proof.
  intros B Tn C Sz Nf Ng Tw Ss. pose proof (built_ok bm n (relu_agrees_R low) (training_built_well bm n B)) as (_ & O & _).
  destruct (twins_seen (layers n) i f g a b O C Nf Ng Tw) as (h & A & Bh & LS).
  assert (L : (S i < length (layers n))%nat) by (apply nth_error_Some; congruence).
  destruct (session_seen low bm (twin_views i h a b) (views_ok i h a b A Bh) samples samples n n B B Tn LS (plain_samples n samples i h a b _ Sz L) Sz) as (k & k' & Sk & Sk' & Lk & _).
  rewrite (session_fun low bm _ _ _ Ss _ Sk) in Lk. rewrite (session_fun low bm _ _ _ Ss _ Sk') in Lk.
  destruct (session_kept low bm n m samples Ss B Tn Sz) as (_ & _ & L1 & _). apply (seen_twins _ i h a b A Bh); [lia|exact Lk].
Qed.

Lemma twins_epochs (n r : network R) batches i f g a b :
  training_built bm n -> trainable n -> Forall (cleared bm) (layers n) -> Forall (fun s => sized n (snd s)) batches ->
  nth_error (layers n) i = Some (LFC f) -> nth_error (layers n) (S i) = Some (LFC g) -> twins low bm a b f g -> epochs low bm n batches r ->
  exists f' g', nth_error (layers r) i = Some (LFC f') /\ nth_error (layers r) (S i) = Some (LFC g') /\ twins low bm a b f' g' /\ twin_gradients low bm a b f' g'.
Proof.
  intros B Tn C Sz Nf Ng Tw Ep. pose proof (built_ok bm n (relu_agrees_R low) (training_built_well bm n B)) as (_ & O & _).
  destruct (twins_seen (layers n) i f g a b O C Nf Ng Tw) as (h & A & Bh & LS).
  assert (L : (S i < length (layers n))%nat) by (apply nth_error_Some; congruence).
  apply (seen_twins _ i h a b A Bh); [rewrite (epochs_length n r batches Ep B Tn Sz); exact L|].
  apply (epochs_seen low bm (twin_views i h a b) (views_ok i h a b A Bh) (views_one i h a b) n batches r Ep n batches r Ep B B Tn LS); [|exact Sz].
  clear - Sz L. induction Sz as [|s rest S1 Sz IH]; constructor; [|exact IH]. split; [reflexivity|]. eapply plain_samples; eassumption.
Qed.

(** All units of a layer filled with one value. *)
Lemma twins_filled m n p (f g : fc_layer R) u c v a b : fc_ok m n f -> fc_ok p m g -> (a < m)%N -> (b < m)%N ->
  twins low bm a b (fc_fill_bias (fc_fill_weights f u) c) (fc_fill_weights g v).
Proof.
  intros (F1 & F2 & _) (G1 & _) A B.
  assert (Z : forall (t : T) s x, shaped t s -> holds bm (fill_with_value t x) s (fun _ _ _ => x)).
  { intros t s x H. pose proof (shaped_eq _ _ H) as (Al & E). rewrite E, fill_with_value_of_fun. apply holds_of_fun. exact Al. }
  exists m, n, p, (fun _ _ _ => u), (fun _ _ _ => c), (fun _ _ _ => v). cbn [fc_fill_bias fc_fill_weights fc_weights fc_bias].
  do 3 (split; [apply Z; assumption|]). auto.
Qed.

End Twins.
