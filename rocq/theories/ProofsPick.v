(** * Proofs for C96: rows of the last layer *)
From Coq Require Import ZifyBool ZifyNat ZifyN.
From Verif Require Import Base Arith Helper Tensor Convolution Network Bincode Serial Float32 Spec SpecLayer SpecNet SpecRewire Loops TensorFacts.
From Verif Require Import ProofsTensor ProofsConv ProofsFloat LayerFacts NetFacts NetRun ProofsNetError.
Ltac Zify.zify_post_hook ::= Z.div_mod_to_equations.

Section Pick.
Context {F : Type} {AR : Arith F} {BT : Bits F} (bm : build).
Notation T := (tensor F).

Lemma composes_part ps1 ps2 : forall (X Y : T), composes bm (ps1 ++ ps2) X Y -> exists Z, composes bm ps1 X Z /\ composes bm ps2 Z Y.
Proof.
  induction ps1 as [|p ps1 IH]; intros X Y C; cbn [app composes] in *; [eauto|]. destruct C as (Z & C1 & C). destruct (IH _ _ C) as (Z1 & H1 & H2). eauto.
Qed.

Lemma picked_out s p p' (X Y Y' : T) : picked bm s p p' -> computes bm p X Y -> computes bm p' X Y' ->
  exists r r' y y', holds bm Y r y /\ holds bm Y' r' y'
    /\ forall i j k, in_shape r' i j k -> match p with PFC _ _ => y' i j k = y (s i) j k | _ => y' i j k = y i j (s k) end.
Proof.
  intros Pk C C'. destruct Pk as [W B W' B' m m' n w b w' b' Hs Hw Hb Hw' Hb' E1 E2|K B st ins outs K' B' outs' ks h h' bv bv' Hs Ei Ej Hk Hk' Hb Hb' E1 E2].
  - inversion C as [? ? m1 n1 wa ba Xa xa Ya Hwa Hba Hxa Hya| | |]; subst. inversion C' as [? ? m2 n2 wb bb Xb xb Yb Hwb Hbb Hxb Hyb| | |]; subst.
    pose proof (holds_shape _ _ _ _ _ _ Hwa Hw) as S1. injection S1 as -> ->. pose proof (holds_shape _ _ _ _ _ _ Hwb Hw') as S2. injection S2 as -> ->.
    pose proof (holds_fun _ _ _ _ _ Hwa Hw) as Q1. pose proof (holds_fun _ _ _ _ _ Hwb Hw') as Q2. pose proof (holds_fun _ _ _ _ _ Hba Hb) as Q3.
    pose proof (holds_fun _ _ _ _ _ Hbb Hb') as Q4. pose proof (holds_fun _ _ _ _ _ Hxb Hxa) as Q5.
    do 4 eexists. split; [exact Hya|]. split; [exact Hyb|]. intros i j k (Hi & Hj & Hk). cbn [di dj dk] in *. cbv beta. pose proof (Hs i Hi) as Hsi.
    rewrite (Q3 (s i) 0 0), (Q4 i 0 0) by (repeat split; cbn [di dj dk]; lia). rewrite E2 by exact Hi. do 2 f_equal. apply f_equal. apply map_ext_in. intros p Hp. apply in_upto in Hp.
    rewrite (Q1 (s i) p 0), (Q2 i p 0), (Q5 p 0 0) by (repeat split; cbn [di dj dk]; lia). rewrite E1 by assumption. reflexivity.
  - inversion C as [|? ? ? ? ? ks1 h1 bv1 X1 x1 Y1 Hk1 Hl11 Hl12 Hb1 Hc1 Hx1 Hy1| |]; subst.
    inversion C' as [|? ? ? ? ? ks2 h2 bv2 X2 x2 Y2 Hk2 Hl21 Hl22 Hb2 Hc2 Hx2 Hy2| |]; subst.
    pose proof (holds_fun _ _ _ _ _ Hx2 Hx1) as Q.
    assert (G : forall k, k < dk outs -> ks1 = ks /\ bv1 k = bv k /\ (forall i j l, in_shape ks i j l -> h1 k i j l = h k i j l)).
    { intros k Hkk. destruct (nth_error K (N.to_nat k)) as [tk|] eqn:Nk; [|apply nth_error_None in Nk; unfold len in Hl11; lia].
      pose proof (holds_shape _ _ _ _ _ _ (Hk1 k tk Nk) (Hk k tk Nk)) as ->. pose proof (holds_fun _ _ _ _ _ (Hk1 k tk Nk) (Hk k tk Nk)) as P1.
      destruct (nth_error B (N.to_nat k)) as [tb|] eqn:Nb; [|apply nth_error_None in Nb; unfold len in Hl12; lia].
      pose proof (Hb1 k tb Nb) as B1. rewrite (Hb k tb Nb) in B1. injection B1 as B1. auto. }
    assert (G' : forall k, k < dk outs' -> ks2 = ks /\ bv2 k = bv' k /\ (forall i j l, in_shape ks i j l -> h2 k i j l = h' k i j l)).
    { intros k Hkk. destruct (nth_error K' (N.to_nat k)) as [tk|] eqn:Nk; [|apply nth_error_None in Nk; unfold len in Hl21; lia].
      pose proof (holds_shape _ _ _ _ _ _ (Hk2 k tk Nk) (Hk' k tk Nk)) as ->. pose proof (holds_fun _ _ _ _ _ (Hk2 k tk Nk) (Hk' k tk Nk)) as P1.
      destruct (nth_error B' (N.to_nat k)) as [tb|] eqn:Nb; [|apply nth_error_None in Nb; unfold len in Hl22; lia].
      pose proof (Hb2 k tb Nb) as B1. rewrite (Hb' k tb Nb) in B1. injection B1 as B1. auto. }
    do 4 eexists. split; [exact Hy1|]. split; [exact Hy2|]. intros i j k (Hi & Hj & Hkk). cbv beta. pose proof (Hs k Hkk) as Hsk.
    destruct (G _ Hsk) as (-> & -> & P1). destruct (G' _ Hkk) as (-> & -> & P2). rewrite E2 by exact Hkk. do 2 f_equal. apply f_equal.
    unfold window_products. apply map_ext_in. intros ((p & q) & l) Hp. apply in_cells in Hp. rewrite P1, P2, E1 by assumption. f_equal. apply Q.
    exact (conv_inside _ _ _ _ _ _ _ _ _ _ (Hc2 k Hkk) Hi Hj Hp).
Qed.

Lemma network_picked (n n' : network F) (X : T) pre p p' s : relu_agrees F ->
  well_built bm n -> well_built bm n' -> net_input_shape n' = net_input_shape n ->
  map params_of (layers n) = (pre ++ [p])%list -> map params_of (layers n') = (pre ++ [p'])%list -> picked bm s p p' ->
  shaped X (net_input_shape n) ->
  exists n1 n1' Y Y' r r' y y', infer bm n X = Done (n1, Ok tt) /\ get_output n1 = Done (Ok Y) /\ infer bm n' X = Done (n1', Ok tt) /\ get_output n1' = Done (Ok Y')
    /\ holds bm Y r y /\ holds bm Y' r' y'
    /\ forall i j k, in_shape r' i j k -> match p with PFC _ _ => y' i j k = y (s i) j k | _ => y' i j k = y i j (s k) end.
Proof.
  intros RA W W' Si P P' Pk (WX & SX).
  assert (NE : layers n <> []) by (intros E; rewrite E in P; destruct pre; discriminate).
  assert (NE' : layers n' <> []) by (intros E; rewrite E in P'; destruct pre; discriminate).
  destruct (infer_ok bm n X RA (built_ok bm n RA W) NE WX SX) as (n1 & Y & E1 & _ & _ & G1 & C1).
  destruct (infer_ok bm n' X RA (built_ok bm n' RA W') NE' WX) as (n1' & Y' & E1' & _ & _ & G1' & C1'); [congruence|].
  rewrite P in C1. rewrite P' in C1'. apply composes_part in C1, C1'. destruct C1 as (A & Ca & C1). destruct C1' as (A' & Ca' & C1').
  pose proof (composes_fun _ _ _ _ _ Ca Ca') as <-. cbn [composes] in C1, C1'. destruct C1 as (Y0 & C1 & ->). destruct C1' as (Y0' & C1' & ->).
  destruct (picked_out s p p' A Y Y' Pk C1 C1') as (r & r' & y & y' & H1 & H2 & H3).
  exists n1, n1', Y, Y', r, r', y, y'. auto 10.
Qed.

End Pick.
