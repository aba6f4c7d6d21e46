(** * Proofs for C96 *)
From Coq Require Import Reals Lra Permutation ZifyBool ZifyNat ZifyN.
From Verif Require Import Base Arith Helper Tensor Convolution Network Bincode Serial Spec SpecLayer SpecNet SpecReal SpecRewire RealArith RealSums Loops TensorFacts.
From Verif Require Import ProofsTensor ProofsConv LayerFacts RealGrad NetFacts NetRun ProofsGrad ProofsNetError ProofsOrder ProofsJoin.
Ltac Zify.zify_post_hook ::= Z.div_mod_to_equations.
Local Open Scope R_scope.

Lemma renumbering_perm h s : renumbering h s -> Permutation (map s (upto h)) (upto h).
Proof.
  intros (H1 & H2). assert (ND : NoDup (upto h)).
  { unfold upto. apply FinFun.Injective_map_NoDup; [|apply seq_NoDup]. intros a b E. lia. }
  apply NoDup_Permutation_bis.
  - assert (Q : forall l, NoDup l -> (forall u, In u l -> (u < h)%N) -> NoDup (map s l)).
    { induction l as [|u l IH]; intros D I; cbn [map]; constructor; inversion D; subst.
      - intros E. apply in_map_iff in E. destruct E as (v & E & Iv). apply H2 in E; [|apply I; right; exact Iv|apply I; left; reflexivity]. subst. contradiction.
      - apply IH; [assumption|]. intros v Iv. apply I. right. exact Iv. }
    apply Q; [exact ND|]. intros u. apply in_upto.
  - rewrite map_length. lia.
  - intros v E. apply in_map_iff in E. destruct E as (u & <- & Iu). apply in_upto. apply H1. apply in_upto. exact Iu.
Qed.

Lemma Rsum_renumber h s (f : N -> R) : renumbering h s -> Rsum (map (fun u => f (s u)) (upto h)) = Rsum (map f (upto h)).
Proof. intros H. rewrite <- (map_map s f). apply Rsum_perm_map. apply renumbering_perm. exact H. Qed.

Lemma relu_scale c x : 0 < c -> Rmax 0 (c * x) = c * Rmax 0 x.
Proof. intros H. rewrite <- (Rmult_0_r c) at 1. rewrite RmaxRmult by lra. reflexivity. Qed.

Lemma max_scale low c l : 0 < c -> low <= 0 -> l <> [] -> (forall x, In x l -> 0 <= x) ->
  fold_right Rmax low (map (Rmult c) l) = c * fold_right Rmax low l /\ 0 <= fold_right Rmax low l.
Proof.
  intros Hc Hl NE H. destruct l as [|x l]; [congruence|]. clear NE. revert x H. induction l as [|y l IH]; intros x H.
  - cbn [map fold_right]. pose proof (H x (or_introl eq_refl)). rewrite (Rmax_left x low) by lra. rewrite Rmax_left; [lra|].
    assert (0 <= c * x) by (apply Rmult_le_pos; lra). lra.
  - destruct (IH y (fun z Iz => H z (or_intror Iz))) as (E & P). cbn [map fold_right] in *. rewrite E.
    rewrite RmaxRmult by lra. split; [reflexivity|]. apply Rle_trans with (1 := P). apply Rmax_r.
Qed.

Section Net.
Context (low : R) (bm : build).
Notation AR := (R_arith low).
#[local] Hint Extern 0 (Arith R) => exact (R_arith low) : typeclass_instances.
Notation T := (tensor R).

(** Channels renumbered by [s] and multiplied by [c]; nothing negative. *)
Definition channels (s : N -> N) (c : N -> R) (sh : shape) (x x' : N -> N -> N -> R) : Prop :=
  forall i j k, in_shape sh i j k -> x' i j k = c k * x i j (s k) /\ 0 <= x i j k.

Lemma conv_out (K B : list T) st ins outs ks h bv X x Y : all_hold bm K ks h ->
  (forall u b, nth_error B (N.to_nat u) = Some b -> get_item bm b (mkIndex 0 0 0) = Done (bv u)) ->
  holds bm X ins x -> computes bm (PConv K B st ins outs) X Y ->
  holds bm Y outs (fun i j k => Rmax 0 (Rsum (map (fun '(p, q, l) => x (i * st + p)%N (j * st + q)%N l * h k p q l) (cells ks)) + bv k))
  /\ (forall ch, (ch < dk outs)%N -> conv_ok ins ks st outs ch).
Proof.
  intros Hk Hb HX C. inversion C as [|? ? ? ? ? ks2 h2 bv2 X2 x2 Y2 Hk2 Hl12 Hl22 Hb2 Hc2 Hx2 Hy2| |]; subst. clear C.
  pose proof (holds_fun _ _ _ _ _ HX Hx2) as Q3.
  assert (G : forall k, (k < dk outs)%N -> ks2 = ks /\ bv2 k = bv k /\ (forall i j l, in_shape ks i j l -> h2 k i j l = h k i j l)).
  { intros k Hkk.
    destruct (nth_error K (N.to_nat k)) as [tk|] eqn:Nk; [|apply nth_error_None in Nk; unfold len in Hl12; lia].
    pose proof (holds_shape _ _ _ _ _ _ (Hk2 k tk Nk) (Hk k tk Nk)) as ->. pose proof (holds_fun _ _ _ _ _ (Hk2 k tk Nk) (Hk k tk Nk)) as P1.
    destruct (nth_error B (N.to_nat k)) as [tb|] eqn:Nb; [|apply nth_error_None in Nb; unfold len in Hl22; lia].
    pose proof (Hb2 k tb Nb) as B1. rewrite (Hb k tb Nb) in B1. injection B1 as B1. auto. }
  split.
  - eapply holds_ext; [|exact Hy2]. intros i j k Hin. pose proof Hin as (Hi & Hj & Hkk). cbv beta. destruct (G k Hkk) as (-> & E1 & P1).
    rewrite relu_R. cbn [fadd R_arith]. rewrite sum_Rsum, E1. f_equal. f_equal. unfold window_products. apply Rsum_ext.
    intros ((p & q) & l) Hp. apply in_cells in Hp. cbn [fmul R_arith]. rewrite P1 by exact Hp. rewrite Q3; [reflexivity|].
    exact (conv_inside _ _ _ _ _ _ _ _ _ _ (Hc2 k Hkk) Hi Hj Hp).
  - intros ch Hch. destruct (G ch Hch) as (<- & _). apply Hc2. exact Hch.
Qed.

Lemma pools_channels s c : forall mid (X X' Y Y' : T) sh x x',
  renumbering (dk sh) s -> (forall u, (u < dk sh)%N -> 0 < c u) -> Forall pools mid -> (mid = [] \/ low <= 0) ->
  holds bm X sh x -> holds bm X' sh x' -> channels s c sh x x' -> composes bm mid X Y -> composes bm mid X' Y' ->
  exists r y y', dk r = dk sh /\ holds bm Y r y /\ holds bm Y' r y' /\ channels s c r y y'.
Proof.
  induction mid as [|p mid IH]; intros X X' Y Y' sh x x' Rn Pc Fp Hl HX HX' Ch C C'; cbn [composes] in *.
  - subst. exists sh, x, x'. auto.
  - assert (Hl0 : low <= 0) by (destruct Hl; [discriminate|assumption]).
    destruct C as (Z & C1 & C). destruct C' as (Z' & C1' & C'). inversion Fp as [|? ? Hp Fp']; subst.
    destruct p as [| |ins mask outs st|]; cbn [pools] in Hp; try contradiction.
    inversion C1 as [| |? ? ? ? X0 x0 Y0 Hpo Hx Hy|]; subst. inversion C1' as [| |? ? ? ? X0 x0' Y0 Hpo' Hx' Hy'|]; subst.
    pose proof (holds_shape _ _ _ _ _ _ HX Hx) as ->. pose proof (holds_fun _ _ _ _ _ HX Hx) as Q. pose proof (holds_fun _ _ _ _ _ HX' Hx') as Q'.
    pose proof Hpo as (Dk & Ti & Tj).
    assert (Rn' : renumbering (dk outs) s) by (rewrite Dk; exact Rn). assert (Pc' : forall u, (u < dk outs)%N -> 0 < c u) by (rewrite Dk; exact Pc).
    assert (Ch' : channels s c outs (fun i j k => running_max (window_values (di mask) (dj mask) st x0 i j k))
                    (fun i j k => running_max (window_values (di mask) (dj mask) st x0' i j k))).
    { intros i j k Hin. pose proof Hin as (Hi & Hj & Hk). cbv beta. unfold window_values. rewrite !running_max_R.
      assert (Hsk : in_shape outs i j (s k)) by (split; [exact Hi|split; [exact Hj|apply Rn'; exact Hk]]).
      assert (W : window_positions (di mask) (dj mask) st i j k = map (fun '(a, b, _) => (a, b, k)) (window_positions (di mask) (dj mask) st i j (s k))).
      { unfold window_positions. rewrite !flat_map_concat_map, concat_map, map_map. f_equal. apply map_ext. intros b. rewrite map_map. reflexivity. }
      assert (NE : forall k0, window_positions (di mask) (dj mask) st i j k0 <> []).
      { intros k0 E. assert (I0 : In (i * st + 0, j * st + 0, k0)%N []) by (rewrite <- E; apply in_window; exists 0%N, 0%N; repeat split; apply Hp). destruct I0. }
      assert (Pos : forall k0, in_shape outs i j k0 -> forall v, In v (map (fun '(a, b, d) => x0 a b d) (window_positions (di mask) (dj mask) st i j k0)) -> 0 <= v).
      { intros k0 Hk0 v Iv. apply in_map_iff in Iv. destruct Iv as (((a & b) & d) & <- & Iv). pose proof (window_in_shape _ _ _ _ _ _ _ _ _ _ Hpo Hk0 Iv) as Hs.
        rewrite <- Q by exact Hs. apply Ch. exact Hs. }
      split.
      - destruct (max_scale low (c k) (map (fun '(a, b, d) => x0 a b d) (window_positions (di mask) (dj mask) st i j (s k)))) as (E & _).
        + apply Pc'. exact Hk.
        + exact Hl0.
        + intros E. apply map_eq_nil in E. exact (NE _ E).
        + apply Pos. exact Hsk.
        + rewrite <- E. f_equal. rewrite W, !map_map. apply map_ext_in. intros ((a & b) & d) Iv.
          pose proof (window_in_shape _ _ _ _ _ _ _ _ _ _ Hpo Hsk Iv) as Hs. apply in_window in Iv. destruct Iv as (_ & _ & _ & _ & _ & _ & ->).
          assert (Hs' : in_shape ins a b k) by (destruct Hs as (Ha & Hb & _); split; [exact Ha|split; [exact Hb|rewrite <- Dk; exact Hk]]).
          rewrite <- Q', <- Q by assumption. apply Ch. exact Hs'.
      - apply (max_scale low 1); [lra|exact Hl0| |apply Pos; exact Hin]. intros E. apply map_eq_nil in E. exact (NE _ E). }
    destruct (IH Z Z' Y Y' outs _ _ Rn' Pc' Fp' (or_intror Hl0) Hy Hy' Ch' C C') as (r & y & y' & D & H1 & H2 & H3).
    exists r, y, y'. rewrite D, Dk. auto.
Qed.

Lemma composes_split ps1 ps2 : forall (X Y : T), composes bm (ps1 ++ ps2) X Y -> exists Z, composes bm ps1 X Z /\ composes bm ps2 Z Y.
Proof.
  induction ps1 as [|p ps1 IH]; intros X Y C; cbn [app composes] in *; [eauto|]. destruct C as (Z & C1 & C). destruct (IH _ _ C) as (Z1 & H1 & H2). eauto.
Qed.

Lemma rewired_out ps ps' (X Y Y' : T) : rewired low bm ps ps' -> composes bm ps X Y -> composes bm ps' X Y' -> Y = Y'.
Proof.
  intros Rw C C'. destruct Rw as [W1 B1 W2 B2 W1' B1' W2' n h m w1 b1 w2 w1' b1' w2' s c A Rn Pc Hw1 Hb1 Hw2 Hw1' Hb1' Hw2' E1 E2 E3
    |K1 B1 st1 in1 out1 mid K2 B2 st2 in2 out2 K1' B1' K2' ks1 ks2 h1 h1' bv bv' h2 h2' s c A Rn Pc Fp Hl Hk1 Hk1' Hk2 Hk2' Hb Hb' E1 E2 E3]; subst A.
  - cbn [composes] in *. destruct C as (Z & C1 & Y0 & C2 & ->). destruct C' as (Z' & C1' & Y0' & C2' & ->).
    inversion C1 as [? ? m1 n1 wa ba Xa xa Ya Hwa Hba Hxa Hya| | |]; subst. inversion C1' as [? ? m1' n1' wb bb Xb xb Yb Hwb Hbb Hxb Hyb| | |]; subst.
    inversion C2 as [? ? m2 n2 wc bc Xc xc Yc Hwc Hbc Hxc Hyc| | |]; subst. inversion C2' as [? ? m2' n2' wd bd Xd xd Yd Hwd Hbd Hxd Hyd| | |]; subst.
    pose proof (holds_shape _ _ _ _ _ _ Hwa Hw1) as S1. injection S1 as -> ->. pose proof (holds_shape _ _ _ _ _ _ Hwb Hw1') as S2. injection S2 as -> ->.
    pose proof (holds_shape _ _ _ _ _ _ Hwc Hw2) as S3. injection S3 as -> ->. pose proof (holds_shape _ _ _ _ _ _ Hwd Hw2') as S4. injection S4 as -> ->.
    pose proof (holds_fun _ _ _ _ _ Hwa Hw1) as Q1. pose proof (holds_fun _ _ _ _ _ Hwb Hw1') as Q2. pose proof (holds_fun _ _ _ _ _ Hwc Hw2) as Q3.
    pose proof (holds_fun _ _ _ _ _ Hwd Hw2') as Q4. pose proof (holds_fun _ _ _ _ _ Hba Hb1) as Q5. pose proof (holds_fun _ _ _ _ _ Hbb Hb1') as Q6.
    pose proof (holds_fun _ _ _ _ _ Hxb Hxa) as Q7. pose proof (holds_fun _ _ _ _ _ Hxc Hya) as Q8. pose proof (holds_fun _ _ _ _ _ Hxd Hyb) as Q9.
    pose proof (holds_fun _ _ _ _ _ Hbd Hbc) as Q0.
    eapply holds_eq; [exact Hyc|exact Hyd|]. intros i j k (Hi & Hj & Hk). cbn [di dj dk] in *. cbv beta.
    rewrite !relu_R. cbn [fadd fmul R_arith]. rewrite !sum_Rsum. f_equal. rewrite (Q0 i 0%N 0%N) by (repeat split; cbn [di dj dk]; lia). f_equal.
    rewrite <- (Rsum_renumber h s (fun p => wc i p 0%N * xc p 0%N 0%N) Rn). apply Rsum_ext. intros u Hu. apply in_upto in Hu. pose proof (proj1 Rn u Hu) as Hs.
    rewrite (Q3 i (s u) 0%N), (Q4 i u 0%N), (Q8 (s u) 0%N 0%N), (Q9 u 0%N 0%N) by (repeat split; cbn [di dj dk]; lia). rewrite E3 by assumption. cbv beta.
    rewrite !relu_R. cbn [fadd fmul R_arith]. rewrite !sum_Rsum. rewrite (Q5 (s u) 0%N 0%N), (Q6 u 0%N 0%N) by (repeat split; cbn [di dj dk]; lia). rewrite E2 by exact Hu.
    rewrite (Rsum_ext (fun p => wb u p 0%N * xb p 0%N 0%N) (fun p => c u * (wa (s u) p 0%N * xa p 0%N 0%N))).
    2: { intros p Hp. apply in_upto in Hp. rewrite (Q2 u p 0%N), (Q7 p 0%N 0%N) by (repeat split; cbn [di dj dk]; lia). rewrite E1 by assumption. rewrite <- (Q1 (s u) p 0%N) by (repeat split; cbn [di dj dk]; lia). ring. }
    rewrite Rsum_scale, <- Rmult_plus_distr_l, relu_scale by (apply Pc; exact Hu). pose proof (Pc u Hu). field. lra.
  - cbn [composes] in *. destruct C as (Z & C1 & C). destruct C' as (Z' & C1' & C'). apply composes_split in C, C'.
    destruct C as (V & Cm & Y0 & C2 & ->). destruct C' as (V' & Cm' & Y0' & C2' & ->).
    assert (HX : exists x, holds bm X in1 x) by (inversion C1; subst; eauto). destruct HX as (x & HX).
    destruct (conv_out _ _ _ _ _ _ _ _ _ _ _ Hk1 Hb HX C1) as (HZ & Co). destruct (conv_out _ _ _ _ _ _ _ _ _ _ _ Hk1' Hb' HX C1') as (HZ' & _).
    match type of HZ with holds _ _ _ ?f => set (z := f) in * end. match type of HZ' with holds _ _ _ ?f => set (z' := f) in * end.
    assert (Ch : channels s c out1 z z').
    { intros i j k Hin. pose proof Hin as (Hi & Hj & Hk). unfold z, z'. split; [|apply Rmax_l].
      rewrite <- relu_scale by (apply Pc; exact Hk). f_equal. rewrite Rmult_plus_distr_l, E2 by exact Hk. f_equal. rewrite <- Rsum_scale. apply Rsum_ext.
      intros ((p & q) & l) Hp. apply in_cells in Hp. rewrite E1 by assumption. ring. }
    destruct (pools_channels s c mid Z Z' V V' out1 z z' Rn Pc Fp Hl HZ HZ' Ch Cm Cm') as (r & y & y' & D & HV & HV' & ChV).
    assert (S2 : r = in2) by (inversion C2 as [|? ? ? ? ? kz hz bz Xz xz Yz _ _ _ _ _ Hxz _| |]; subst; exact (holds_shape _ _ _ _ _ _ HV Hxz)). subst r.
    assert (HB2 : exists b2, forall u b, nth_error B2 (N.to_nat u) = Some b -> get_item bm b (mkIndex 0 0 0) = Done (b2 u)) by (inversion C2 as [|? ? ? ? ? kz hz bz Xz xz Yz _ _ _ Hbz _ _ _| |]; subst; exists bz; exact Hbz).
    destruct HB2 as (b2 & HB2).
    destruct (conv_out _ _ _ _ _ _ _ _ _ _ _ Hk2 HB2 HV C2) as (HY & Co2). destruct (conv_out _ _ _ _ _ _ _ _ _ _ _ Hk2' HB2 HV' C2') as (HY' & _).
    eapply holds_eq; [exact HY|exact HY'|]. intros i j k (Hi & Hj & Hk). cbv beta. f_equal. f_equal.
    pose proof (Co2 k Hk) as Cv. pose proof Cv as (Dk & _). unfold cells. rewrite !Rsum_flat_map.
    assert (Eu : dk ks2 = dk out1) by congruence.
    rewrite <- (Rsum_renumber (dk ks2) s _) by (rewrite Eu; exact Rn). apply Rsum_ext. intros u Hu. apply in_upto in Hu.
    rewrite !Rsum_flat_map. apply Rsum_ext. intros q Hq. apply in_upto in Hq. rewrite !map_map. apply Rsum_ext. intros p Hp. apply in_upto in Hp.
    assert (Hin : in_shape ks2 p q u) by (repeat split; assumption). pose proof (conv_inside _ _ _ _ _ _ _ _ _ _ Cv Hi Hj Hin) as Hx.
    rewrite E3 by assumption. destruct (ChV _ _ _ Hx) as (-> & _). assert (0 < c u) by (apply Pc; rewrite <- Eu; exact Hu). field. lra.
Qed.

Lemma network_rewired (BT : Bits R) (n n' : network R) (X : T) pre ps ps' post :
  well_built bm n -> well_built bm n' -> net_input_shape n' = net_input_shape n ->
  map params_of (layers n) = (pre ++ ps ++ post)%list -> map params_of (layers n') = (pre ++ ps' ++ post)%list -> rewired low bm ps ps' ->
  shaped X (net_input_shape n) ->
  exists n1 n1' Y, infer bm n X = Done (n1, Ok tt) /\ get_output n1 = Done (Ok Y) /\ infer bm n' X = Done (n1', Ok tt) /\ get_output n1' = Done (Ok Y).
Proof.
  intros W W' Si P P' Rw (WX & SX). pose proof (relu_agrees_R low) as RA.
  assert (NE : layers n <> []). { intros E. rewrite E in P. destruct pre; [|discriminate]. destruct Rw; discriminate. }
  assert (NE' : layers n' <> []). { intros E. rewrite E in P'. destruct pre; [|discriminate]. destruct Rw; discriminate. }
  destruct (infer_ok bm n X RA (built_ok bm n RA W) NE WX SX) as (n1 & Y & E1 & _ & _ & G1 & C1).
  destruct (infer_ok bm n' X RA (built_ok bm n' RA W') NE' WX) as (n1' & Y' & E1' & _ & _ & G1' & C1'); [congruence|].
  exists n1, n1', Y. do 3 (split; [assumption|]). rewrite G1'. do 2 f_equal.
  rewrite P in C1. rewrite P' in C1'. apply composes_split in C1, C1'. destruct C1 as (A & Ca & C1). destruct C1' as (A' & Ca' & C1').
  apply composes_split in C1, C1'. destruct C1 as (B & Cb & C1). destruct C1' as (B' & Cb' & C1').
  pose proof (composes_fun _ _ _ _ _ Ca Ca') as <-. pose proof (rewired_out _ _ _ _ _ Rw Cb Cb') as <-. symmetry. exact (composes_fun _ _ _ _ _ C1 C1').
Qed.

End Net.
