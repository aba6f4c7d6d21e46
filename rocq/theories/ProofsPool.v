(** * Proofs for C18, C19, C30: max pooling *)
From Coq Require Import Reals Lra ZifyBool ZifyNat ZifyN.
From Verif Require Import Base Arith Helper Tensor Network Spec Loops TensorFacts OpsFacts ProofsTensor ProofsConv.
From Verif Require Import Float32 Float32Facts SpecF32.
Ltac Zify.zify_post_hook ::= Z.div_mod_to_equations.

(** ** Dimension check *)
Lemma check_pool_complete bm s mask stride r :
  u32_shape r -> pool_ok s mask stride r -> check_max_pooling_dimensions bm s mask stride r = Done true.
Proof.
  intros (R1 & R2 & R3) P. pose proof P as (E & Ti & Tj).
  pose proof (tiles_extent _ _ _ _ Ti R1). pose proof (tiles_extent _ _ _ _ Tj R2).
  destruct Ti as (T1 & T2 & T3 & T4), Tj as (T5 & T6 & T7 & T8).
  destruct (check_pool_spec bm s mask stride r) as (c & Hc & Hi); try assumption.
  rewrite Hc. f_equal. apply Hi. exact P.
Qed.

Lemma check_pool_reject bm s mask stride r :
  u32_shape s -> stride <> 0 -> kernel_fits s mask ->
  ~ extent_edge (di s) (di mask) stride -> ~ extent_edge (dj s) (dj mask) stride ->
  ~ pool_ok s mask stride r -> check_max_pooling_dimensions bm s mask stride r = Done false.
Proof.
  intros (U1 & U2 & U3) Hs (Fi & Fj) Ei Ej P.
  destruct (N.lt_ge_cases ((di s - di mask) / stride + 1) W32) as [Bi|Bi];
    [|exfalso; apply Ei; apply extent_overflow; assumption].
  destruct (N.lt_ge_cases ((dj s - dj mask) / stride + 1) W32) as [Bj|Bj];
    [|exfalso; apply Ej; apply extent_overflow; assumption].
  destruct (check_pool_spec bm s mask stride r) as (b & Hb & Hi); try assumption.
  rewrite Hb. destruct b; [|reflexivity]. exfalso. apply P. apply Hi. reflexivity.
Qed.

Lemma check_pool_debug_sound s mask stride r :
  check_max_pooling_dimensions Debug s mask stride r = Done true -> pool_ok s mask stride r.
Proof.
  unfold check_max_pooling_dimensions, pool_ok, tiles. intros H.
  destruct (N.eqb_spec (dk r) (dk s)); cbn [negb] in H; [|discriminate].
  apply bind_done in H. destruct H as (d0 & E0 & H). apply bind_done in H. destruct H as (m0 & E1 & H).
  destruct (N.eqb_spec m0 0); cbn [negb] in H; [|discriminate].
  apply bind_done in H. destruct H as (d1 & E2 & H). apply bind_done in H. destruct H as (m1 & E3 & H).
  destruct (N.eqb_spec m1 0); cbn [negb] in H; [|discriminate].
  res_inv. u32_inv.
  destruct (N.eqb_spec (di r) ((di s - di mask) / stride + 1)); cbn [negb] in H; [|discriminate].
  destruct (N.eqb_spec (dj r) ((dj s - dj mask) / stride + 1)); cbn [negb] in H; [|discriminate].
  repeat split; solve [assumption|symmetry; assumption].
Qed.

(** ** Running maximum of a ranked scalar type *)
Section Ranked.
Context {F : Type} {AR : Arith F} (rk : F -> option R).
Hypothesis rk_gtb : forall x y, fgtb x y = true <-> exists a b, rk x = Some a /\ rk y = Some b /\ (b < a)%R.

Definition below (v m : F) : Prop := match rk v with None => True | Some a => exists b, rk m = Some b /\ (a < b)%R end.
Definition atmost (v m : F) : Prop := match rk v with None => True | Some a => exists b, rk m = Some b /\ (a <= b)%R end.

Lemma gtb_below x m : fgtb x m = true -> below m x.
Proof. intros H. apply rk_gtb in H. destruct H as (a & b & Ha & Hb & L). unfold below. rewrite Hb. eauto. Qed.

Lemma not_gtb_atmost x m : rk m <> None -> fgtb x m = false -> atmost x m.
Proof.
  intros Hm H. unfold atmost. destruct (rk x) as [a|] eqn:Ex; [|trivial].
  destruct (rk m) as [b|] eqn:Em; [|congruence]. exists b. split; [reflexivity|].
  destruct (Rlt_dec b a); [|lra]. exfalso.
  assert (fgtb x m = true) by (apply rk_gtb; eauto). congruence.
Qed.

Lemma atmost_below x y z : atmost x y -> below y z -> below x z.
Proof.
  unfold atmost, below. destruct (rk x) as [a|]; [|trivial]. intros (b & -> & L) (c & -> & L'). exists c. split; [reflexivity|lra].
Qed.

Lemma below_atmost x y : below x y -> atmost x y.
Proof. unfold atmost, below. destruct (rk x) as [a|]; [|trivial]. intros (b & -> & L). exists b. split; [reflexivity|lra]. Qed.

Lemma fold_track l : forall m0 : F * N, rk (fst m0) <> None ->
  let r := fold_left pick_track l m0 in
  (r = m0 /\ Forall (fun v => atmost (fst v) (fst m0)) l)
  \/ (exists b a, l = b ++ r :: a /\ Forall (fun v => below (fst v) (fst r)) b
        /\ Forall (fun v => atmost (fst v) (fst r)) a /\ below (fst m0) (fst r)).
Proof.
  induction l as [|x l IH]; intros m0 Hm; cbn [fold_left]; [left; split; [reflexivity|constructor]|].
  assert (S : pick_track m0 x = if fgtb (fst x) (fst m0) then x else m0) by reflexivity.
  rewrite S. clear S. destruct (fgtb (fst x) (fst m0)) eqn:G.
  - assert (Hx : rk (fst x) <> None).
    { apply rk_gtb in G. destruct G as (a & b & -> & _). discriminate. }
    destruct (IH x Hx) as [[E Hall]|(b & a & E & Hb & Ha & Hx')].
    + right. exists [], l. rewrite E. simpl. split; [reflexivity|]. split; [constructor|].
      split; [exact Hall|]. apply gtb_below; exact G.
    + right. exists (x :: b), a. split; [simpl; rewrite <- E; reflexivity|]. split; [constructor; assumption|].
      split; [exact Ha|]. eapply atmost_below; [apply below_atmost, gtb_below; exact G|exact Hx'].
  - destruct (IH m0 Hm) as [[E Hall]|(b & a & E & Hb & Ha & Hx')].
    + left. split; [exact E|]. constructor; [|exact Hall]. apply not_gtb_atmost; assumption.
    + right. exists (x :: b), a. split; [simpl; rewrite <- E; reflexivity|]. split.
      * constructor; [|exact Hb]. eapply atmost_below; [|exact Hx']. apply not_gtb_atmost; assumption.
      * split; [exact Ha|exact Hx'].
Qed.

Lemma fold_max l m0 : rk m0 <> None ->
  let m := fold_left pick_max l m0 in
  (m = m0 \/ In m l) /\ rk m <> None /\ Forall (fun v => atmost v m) (m0 :: l).
Proof.
  intros Hm. cbv zeta.
  assert (E : fold_left pick_max l m0 = fst (fold_left pick_track (map (fun v => (v, 0)) l) (m0, 0))).
  { rewrite fold_pick_track_fst, map_map. cbn [fst]. rewrite map_id. reflexivity. }
  assert (Hm' : rk (fst (m0, 0)) <> None) by exact Hm.
  destruct (fold_track (map (fun v => (v, 0)) l) (m0, 0) Hm') as [[E1 Hall]|(b & a & E1 & Hb & Ha & Hx)].
  - rewrite E, E1. cbn [fst]. split; [left; reflexivity|]. split; [exact Hm|]. constructor.
    + unfold atmost. destruct (rk m0) as [x|] eqn:Ex; [|trivial]. exists x. split; [reflexivity|lra].
    + rewrite Forall_map in Hall. exact Hall.
  - set (r := fold_left pick_track (map (fun v => (v, 0)) l) (m0, 0)) in *. rewrite E.
    assert (Hr : rk (fst r) <> None).
    { unfold below in Hx. cbn [fst] in Hx. destruct (rk m0); [|congruence]. destruct Hx as (? & -> & _). discriminate. }
    assert (Hin : In (fst r) l).
    { assert (In r (map (fun v => (v, 0)) l)) as Hin by (rewrite E1; apply in_elt). apply in_map_iff in Hin.
      destruct Hin as (v & Ev & Hv). rewrite <- Ev. exact Hv. }
    split; [right; exact Hin|]. split; [exact Hr|]. constructor; [apply below_atmost; exact Hx|].
    assert (Hall : Forall (fun v => atmost (fst v) (fst r)) (map (fun v => (v, 0)) l)).
    { rewrite E1. apply Forall_app. split; [eapply Forall_impl; [|exact Hb]; intros; apply below_atmost; assumption|].
      constructor; [|exact Ha]. unfold atmost. destruct (rk (fst r)) as [x|]; [|trivial]. exists x; split; [reflexivity|lra]. }
    rewrite Forall_map in Hall. exact Hall.
Qed.

End Ranked.

(** ** f32 *)
Definition f32_rk (x : f32) : option R := if isnan x then None else Some (rank x).

Lemma f32_rk_gtb e x y :
  @fgtb f32 (f32_arith e) x y = true <-> exists a b, f32_rk x = Some a /\ f32_rk y = Some b /\ (b < a)%R.
Proof.
  cbn [fgtb f32_arith]. rewrite gtb_true. unfold f32_rk. destruct (isnan x), (isnan y); split.
  all: try (intros (? & ? & ? & ? & ?); discriminate).
  all: try (intros (? & ? & ?); discriminate).
  - intros (_ & _ & L). eauto.
  - intros (a & b & [= <-] & [= <-] & L). auto.
Qed.

Lemma below_f32 v m : below f32_rk v m <-> isnan v = true \/ f32_gtb m v = true.
Proof.
  unfold below, f32_rk. destruct (isnan v) eqn:Nv; [tauto|]. rewrite gtb_true. split.
  - intros (b & Hb & L). destruct (isnan m) eqn:Nm; [discriminate|]. injection Hb as <-. auto.
  - intros [H|(Nm & _ & L)]; [discriminate|]. rewrite Nm. eauto.
Qed.

Lemma atmost_f32 v m : isnan m = false -> (atmost f32_rk v m <-> f32_gtb v m = false).
Proof.
  intros Nm. unfold atmost, f32_rk. rewrite Nm. destruct (isnan v) eqn:Nv.
  - split; [|trivial]. intros _. unfold f32_gtb. rewrite cmp_nan_l by exact Nv. reflexivity.
  - rewrite gtb_false by assumption. split; [intros (b & [= <-] & L); exact L|eauto].
Qed.

Section F32.
Context (e : env).
Let AR : Arith f32 := f32_arith e.
Local Existing Instance AR.

Lemma f32_window_max (l : list f32) : max_of l (fold_left pick_max l f32_ninf).
Proof.
  destruct (fold_max f32_rk (f32_rk_gtb e) l f32_ninf) as (H1 & H2 & H3); [discriminate|].
  set (m := fold_left pick_max l f32_ninf) in *.
  assert (Nm : isnan m = false) by (unfold f32_rk in H2; destruct (isnan m); congruence).
  split; [exact Nm|]. split; [destruct H1; auto|].
  intros x Hx. inversion H3 as [|? ? ? H4]; subst. rewrite Forall_forall in H4.
  apply (atmost_f32 x m Nm). apply H4. exact Hx.
Qed.

Lemma window_eq mi mj stride f i j k :
  @window f32 mi mj stride f i j k = window_values mi mj stride f i j k.
Proof.
  unfold window, window_values, window_positions. rewrite !flat_map_concat_map, concat_map, map_map.
  f_equal. apply map_ext. intros jj. rewrite map_map. reflexivity.
Qed.

(** C18 *)
Lemma max_pool_f32 bm (image r : tensor f32) s rs f g mask stride :
  holds bm image s f -> holds bm r rs g -> pool_ok s mask stride rs ->
  exists r', max_pool bm image mask stride r = Done r' /\ wf r' /\ tshape r' = rs
    /\ forall i j k, in_shape rs i j k ->
         exists m, get_item bm r' (mkIndex i j k) = Done m
           /\ max_of (window_values (di mask) (dj mask) stride f i j k) m.
Proof.
  intros Hi Hr P. holds_start. eexists. split; [|split; [|split]].
  - apply max_pool_of_fun; try assumption. apply check_pool_complete; [apply u32_shape_alloc; assumption|exact P].
  - apply wf_of_fun; assumption.
  - reflexivity.
  - intros i j k Hin. eexists. split; [apply get_item_of_fun; assumption|].
    unfold pool_fn. rewrite window_eq. apply f32_window_max.
Qed.

End F32.

Lemma max_pool_unchanged {F} {AR : Arith F} bm (image r : tensor F) mask stride :
  u32_shape (tshape image) -> stride <> 0 -> kernel_fits (tshape image) mask ->
  ~ extent_edge (di (tshape image)) (di mask) stride -> ~ extent_edge (dj (tshape image)) (dj mask) stride ->
  ~ pool_ok (tshape image) mask stride (tshape r) -> max_pool bm image mask stride r = Done r.
Proof.
  intros U Hs K Ei Ej P. eapply check_pool_false; [reflexivity|reflexivity|].
  apply check_pool_reject; assumption.
Qed.

Lemma max_pool_debug_unchanged {F} {AR : Arith F} (image r r' : tensor F) mask stride :
  ~ pool_ok (tshape image) mask stride (tshape r) -> max_pool Debug image mask stride r = Done r' -> r' = r.
Proof.
  intros P E. unfold max_pool in E. apply bind_done in E. destruct E as (b & Eb & E).
  destruct b; [|congruence]. exfalso. apply P. apply check_pool_debug_sound. exact Eb.
Qed.

(** C19 *)
Lemma track_agrees {F} {AR : Arith F} bm (image r : tensor F) s rs f g mask stride o :
  holds bm image s f -> holds bm r rs g -> pool_ok s mask stride rs -> len o = di rs * dj rs * dk rs ->
  exists r', max_pool_track_origin bm image mask stride r o
    = Done (r', map (fun '(i, j, k) => snd (track_fn s (di mask) (dj mask) stride f i j k)) (cells rs), Ok tt)
    /\ max_pool bm image mask stride r = Done r' /\ r' = of_fun rs (pool_fn (di mask) (dj mask) stride f).
Proof.
  intros Hi Hr P L. holds_start. eexists.
  assert (C : check_max_pooling_dimensions bm s mask stride rs = Done true)
    by (apply check_pool_complete; [apply u32_shape_alloc; assumption|exact P]).
  split; [apply track_of_fun; assumption|]. split; [apply max_pool_of_fun; assumption|reflexivity].
Qed.

Lemma track_rejects {F} {AR : Arith F} bm (image r : tensor F) mask stride o :
  wf image -> wf r -> stride <> 0 -> kernel_fits (tshape image) mask ->
  ~ extent_edge (di (tshape image)) (di mask) stride -> ~ extent_edge (dj (tshape image)) (dj mask) stride ->
  (~ pool_ok (tshape image) mask stride (tshape r) \/ len o <> di (tshape r) * dj (tshape r) * dk (tshape r)) ->
  exists e, max_pool_track_origin bm image mask stride r o = Done (r, o, Err e).
Proof.
  intros Wi Wr Hs K Ei Ej H. pose proof (u32_shape_alloc _ (wf_alloc _ Wi)) as U.
  unfold max_pool_track_origin, get_shape.
  assert (D : pool_ok (tshape image) mask stride (tshape r) \/ ~ pool_ok (tshape image) mask stride (tshape r)).
  { destruct (N.lt_ge_cases ((di (tshape image) - di mask) / stride + 1) W32) as [Bi|Bi].
    2:{ exfalso; apply Ei; destruct U as (? & ? & ?), K; apply extent_overflow; assumption. }
    destruct (N.lt_ge_cases ((dj (tshape image) - dj mask) / stride + 1) W32) as [Bj|Bj].
    2:{ exfalso; apply Ej; destruct U as (? & ? & ?), K; apply extent_overflow; assumption. }
    destruct K. destruct (check_pool_spec Debug (tshape image) mask stride (tshape r)) as ([] & _ & Hb); try assumption.
    - left. apply Hb. reflexivity.
    - right. intros P. apply Hb in P. discriminate. }
  destruct D as [P|P].
  - destruct H as [H|H]; [contradiction|].
    rewrite check_pool_complete; [|apply u32_shape_alloc, wf_alloc; exact Wr|exact P]. cbn [bind negb].
    rewrite total_size_done by (apply wf_alloc; exact Wr). cbn [bind].
    destruct (N.eqb_spec (di (tshape r) * dj (tshape r) * dk (tshape r)) (len o)); [congruence|]. eexists; reflexivity.
  - rewrite check_pool_reject by assumption. eexists; reflexivity.
Qed.

Section F32Track.
Context (e : env).
Let AR : Arith f32 := f32_arith e.
Local Existing Instance AR.

Lemma max_pool_track_f32 bm (image r : tensor f32) s rs f g mask stride o :
  holds bm image s f -> holds bm r rs g -> pool_ok s mask stride rs ->
  len o = di rs * dj rs * dk rs ->
  exists r' o', max_pool_track_origin bm image mask stride r o = Done (r', o', Ok tt)
    /\ max_pool bm image mask stride r = Done r'
    /\ len o' = di rs * dj rs * dk rs
    /\ forall i j k, in_shape rs i j k ->
         exists m p, get_item bm r' (mkIndex i j k) = Done m
           /\ nth_error o' (N.to_nat (flat rs i j k)) = Some p
           /\ (m = f32_ninf /\ p = 0
                 /\ (forall x, In x (window_values (di mask) (dj mask) stride f i j k) -> f32_gtb x f32_ninf = false)
               \/ first_max (window_positions (di mask) (dj mask) stride i j k)
                    (fun '(a, b, c) => f a b c) (fun '(a, b, c) => flat s a b c) m p).
Proof.
  intros Hi Hr P L.
  destruct (track_agrees bm image r s rs f g mask stride o Hi Hr P L) as (r' & E1 & E2 & E3).
  exists r'. eexists. split; [exact E1|]. split; [exact E2|]. split.
  { rewrite len_map. unfold len. rewrite length_cells. lia. }
  intros i j k Hin. exists (pool_fn (di mask) (dj mask) stride f i j k), (snd (track_fn s (di mask) (dj mask) stride f i j k)).
  split; [rewrite E3; apply holds_iff in Hr; apply get_item_of_fun; [apply Hr|exact Hin]|]. split.
  { apply (map_nth_error (fun '(i, j, k) => snd (track_fn s (di mask) (dj mask) stride f i j k)) _ _ (d := (i, j, k))).
    rewrite nth_error_nth' with (d := (0, 0, 0)).
    - rewrite nth_cells by assumption. reflexivity.
    - rewrite length_cells. pose proof (flat_lt _ _ _ _ Hin). lia. }
  rewrite <- (track_fn_fst s). unfold track_fn.
  assert (Ew : window_pos s (di mask) (dj mask) stride f i j k
               = map (fun '(a, b, c) => (f a b c, flat s a b c)) (window_positions (di mask) (dj mask) stride i j k)).
  { unfold window_pos, window_positions. rewrite !flat_map_concat_map, concat_map, map_map.
    f_equal. apply map_ext. intros jj. rewrite map_map. reflexivity. }
  rewrite Ew.
  assert (G : forall x y, @fgtb f32 AR x y = true <-> exists a b, f32_rk x = Some a /\ f32_rk y = Some b /\ (b < a)%R)
    by exact (f32_rk_gtb e).
  destruct (fold_track f32_rk G
              (map (fun '(a, b, c) => (f a b c, flat s a b c)) (window_positions (di mask) (dj mask) stride i j k))
              (fninf, 0)) as [[H1 H2]|(b & a & H1 & H2 & H3 & H4)]; [discriminate| |].
  - left. rewrite H1. split; [reflexivity|]. split; [reflexivity|].
    intros x Hx. rewrite Forall_map, Forall_forall in H2. unfold window_values in Hx. apply in_map_iff in Hx.
    destruct Hx as ([[a b] c] & <- & Hx). specialize (H2 _ Hx). cbn [fst] in H2.
    apply (atmost_f32 _ f32_ninf); [reflexivity|exact H2].
  - right. set (rr := fold_left pick_track _ _) in *.
    apply map_eq_app in H1. destruct H1 as (lb & l2 & El & Eb & E2').
    apply map_eq_cons in E2'. destruct E2' as ([[x y] z] & la & El2 & Er & Ea).
    exists lb, (x, y, z), la. subst l2. rewrite <- Er in *. cbn [fst snd] in *.
    assert (Nm : isnan (f x y z) = false).
    { unfold below, f32_rk in H4. cbn in H4. destruct (isnan (f x y z)); [|reflexivity]. destruct H4 as (? & ? & _). discriminate. }
    split; [exact El|]. split; [reflexivity|]. split; [reflexivity|]. split; [exact Nm|]. split.
    + intros [[a1 b1] c1] Hq. subst b. rewrite Forall_map, Forall_forall in H2. specialize (H2 _ Hq). cbn [fst] in H2.
      apply below_f32 in H2. destruct H2; auto.
    + intros [[a1 b1] c1] Hq. subst a. rewrite Forall_map, Forall_forall in H3. specialize (H3 _ Hq). cbn [fst] in H3.
      apply atmost_f32 in H3; assumption.
Qed.

End F32Track.
