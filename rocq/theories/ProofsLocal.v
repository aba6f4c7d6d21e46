(** * Close to a smooth point the gradient predicts changes exactly *)
From Coq Require Import Reals Lra ZifyBool ZifyNat ZifyN.
From Verif Require Import Base Arith Helper Tensor Convolution Network Bincode Serial Spec SpecLayer SpecNet SpecReal SpecTrain SpecChain SpecLocal Loops TensorFacts OpsFacts.
From Verif Require Import ProofsTensor ProofsConv ProofsBackprop ProofsPool Layout LayerFacts BackFacts NetFacts NetRun NetBack ProofsLayer RealArith RealSums RealGrad RealConv ProofsReal ProofsGrad ProofsChain RealLocal.
Local Open Scope R_scope.

Section Real.
Context (m : R).
#[local] Hint Extern 0 (Arith R) => exact (R_arith m) : typeclass_instances.
Notation T := (tensor R).

Lemma layer_straight bm (l : layer R) (X Y : T) x : layer_ok l -> piecewise l -> computes bm (params_of l) X Y ->
  layer_smooth m bm (params_of l) X -> holds bm X (get_input_shape l) x ->
  straight (get_input_shape l) (get_output_shape l) (layer_map m (params_of l)) x
  /\ respects (get_input_shape l) (get_output_shape l) (layer_map m (params_of l)).
Proof.
  intros Ol Pw C Sm HX. destruct l as [l|l|l|l]; cbn [layer_ok piecewise get_input_shape get_output_shape params_of layer_smooth layer_map] in *; [| | |destruct Pw]; unfold layer_map.
  - inversion C as [|kernels biases stride ins outs ks h bv X' x' Yc Hk Ek Lb Hb P Hx Hy| |]; subst.
    destruct (N.eq_0_gt_0_cases (dk (cv_output_shape l))) as [Z|Z].
    { split; [intros e He; exists 1; split; [lra|]|intros y y' _]; intros i j k (_ & _ & Hk'); lia. }
    destruct (conv_params_read m bm _ _ _ _ _ _ Hk Ek Lb Hb 0%N Z) as (S0 & _ & _). rewrite S0.
    split; [|apply conv_respects; exact P]. apply conv_straight; [exact P|]. intros i j k Hin. pose proof Hin as (Hi & Hj & Lk).
    destruct (conv_params_read m bm _ _ _ _ _ _ Hk Ek Lb Hb k Lk) as (_ & Q1 & Q2).
    rewrite (conv_pre_ext (cv_input_shape l) ks (cv_stride l) (cv_output_shape l) _ _ x h bv x i j k Lk (P k Lk) Hi Hj Q2 Q1) by reflexivity.
    apply (Sm ks h bv x Hk Hb HX). exact Hin.
  - destruct Ol as (M & n & O). pose proof O as (Ow & Ob & _). unfold fc_input_shape, fc_output_shape, get_shape in *.
    rewrite (proj2 Ow) in *. rewrite (proj2 Ob) in *. cbn [dj] in *. split; [|apply fc_respects]. apply fc_straight_input.
    apply (Sm M n _ _ x (shaped_holds bm _ _ Ow) (shaped_holds bm _ _ Ob) HX).
  - destruct Sm as (x' & win & HX' & Hwin). destruct Ol as (_ & _ & P & _).
    assert (Bd : forall i j k c, in_shape (mp_output_shape l) i j k -> In c (window_positions (di (mp_mask_shape l)) (dj (mp_mask_shape l)) (mp_stride l) i j k) -> inside (mp_input_shape l) c).
    { intros i j k ((a & b) & c) Hin Hc. eapply window_in_shape; eassumption. }
    split; [|apply pool_respects; exact Bd].
    apply (pool_straight m _ _ _ _ x win Bd). intros i j k Hin. destruct (Hwin i j k Hin) as (Hc & Hl & Hu).
    assert (V : forall c, In c (window_positions (di (mp_mask_shape l)) (dj (mp_mask_shape l)) (mp_stride l) i j k) -> value_at x c = value_at x' c).
    { intros ((a & b) & c) Hc'. apply (holds_fun bm _ _ _ _ HX HX'). exact (Bd i j k (a, b, c) Hin Hc'). }
    split; [exact Hc|]. rewrite (V _ Hc). split; [exact Hl|]. intros c' Hc' Ne. rewrite (V _ Hc'). apply Hu; assumption.
Qed.

Lemma net_straight bm (ls : list (layer R)) : forall s (X Y : T) x, Forall layer_ok ls -> Forall piecewise ls -> linked s ls ->
  composes bm (map params_of ls) X Y -> smooth m bm (map params_of ls) X -> holds bm X s x ->
  straight s (last (map get_output_shape ls) s) (net_map m (map params_of ls)) x
  /\ respects s (last (map get_output_shape ls) s) (net_map m (map params_of ls)).
Proof.
  induction ls as [|l ls IH]; intros s X Y x Lo Pw Hl C Sm HX.
  - cbn [map last net_map fold_left]. split; [|intros y y' E; exact E]. intros e He. exists e. split; [exact He|]. intros i j k Hin x' Nx.
    split; [apply Nx; exact Hin|reflexivity].
  - cbn [linked] in Hl. destruct Hl as (Es & Hl). subst. cbn [map composes smooth] in C, Sm. destruct C as (Z & C1 & C2). destruct Sm as (S1 & S2).
    inversion Lo as [|? ? Ol Lo']; inversion Pw as [|? ? Pl Pw']; subst.
    destruct (layer_straight bm l X Z x Ol Pl C1 S1 HX) as (A1 & A2).
    pose proof (computes_map m bm _ X Z x C1) as HZ. rewrite pin_params, pout_params in HZ. specialize (HZ HX).
    destruct (IH _ Z Y _ Lo' Pw' Hl C2 (S2 Z C1) HZ) as (B1 & B2).
    assert (E : last (map get_output_shape (l :: ls)) (get_input_shape l) = last (map get_output_shape ls) (get_output_shape l)).
    { destruct ls as [|l' ls']; [reflexivity|]. cbn [map]. apply (last_shift _ (get_input_shape l) _ _ (fun q => q = _)). reflexivity. }
    rewrite E. change (net_map m (map params_of (l :: ls))) with (fun y => net_map m (map params_of ls) (layer_map m (params_of l) y)). split.
    + eapply straight_compose; eassumption.
    + intros y y' Ey. apply B2. apply A2. exact Ey.
Qed.

Lemma composes_app bm ps1 ps2 : forall (X Z Y : T), composes bm ps1 X Z -> composes bm (ps1 ++ ps2) X Y -> composes bm ps2 Z Y.
Proof.
  intros X Z Y C1 C. apply composes_split in C. destruct C as (Z' & C1' & C2). rewrite (composes_fun m _ _ _ _ _ C1 C1'). exact C2.
Qed.

Lemma smooth_app bm ps1 ps2 : forall (X Z : T), composes bm ps1 X Z -> smooth m bm (ps1 ++ ps2) X -> smooth m bm ps2 Z.
Proof.
  induction ps1 as [|p ps1 IH]; intros X Z C Sm; cbn [composes app smooth] in *; [subst; exact Sm|]. destruct C as (Z' & C1 & C2). destruct Sm as (_ & Sm).
  eapply IH; [exact C2|]. apply Sm. exact C1.
Qed.

(** C99, the input *)
Lemma predicts_input {BT : Bits R} bm n (X : T) x G g :
  training_built bm n -> layers n <> [] -> Forall backs_exactly (layers n) -> Forall piecewise (layers n) ->
  holds bm X (net_input_shape n) x -> holds bm G (net_output_shape n) g -> smooth m bm (map params_of (layers n)) X ->
  exists n1 n2 Y y D d r, infer bm n X = Done (n1, Ok tt) /\ get_output n1 = Done (Ok Y) /\ holds bm Y (net_output_shape n) y
    /\ net_backward bm n1 G = Done (n2, Ok tt)
    /\ nth_error (intermediate_gradients n2) 0 = Some D /\ holds bm D (net_input_shape n) d
    /\ 0 < r /\ forall X' x', holds bm X' (net_input_shape n) x' -> near (net_input_shape n) r x x' ->
         exists n' Y' y', infer bm n X' = Done (n', Ok tt) /\ get_output n' = Done (Ok Y') /\ holds bm Y' (net_output_shape n) y'
           /\ pairing (net_output_shape n) g y' - pairing (net_output_shape n) g y = pairing (net_input_shape n) d (change x x').
Proof.
  intros B NE Bk Pw HX HG Sm. pose proof (built_ok bm n (relu_agrees_R m) (training_built_well bm n B)) as Ok.
  destruct (net_chain m bm n X x G g Ok (training_built_in bm n (relu_agrees_R m) B) NE Bk HX HG Sm)
    as (n1 & n2 & D & d & E1 & E2 & ND & HD & Out & Gr & _).
  pose proof (holds_shaped _ _ _ _ HX) as SX.
  destruct (infer_ok bm n X (relu_agrees_R m) Ok NE (proj1 SX) (proj2 SX)) as (n1' & Y & E1' & _ & _ & EY & C).
  rewrite E1 in E1'. injection E1' as <-. pose proof Ok as ((H1 & H2 & H3 & H4) & Lo & _ & _).
  destruct (net_straight bm (layers n) _ X Y x Lo Pw H1 C Sm HX) as (St & _).
  rewrite (last_out _ _ (mkShape 0 0 0) NE), <- H3 in St.
  destruct (straight_gradient _ _ _ x g d St Gr) as (r & Pr & Hr).
  destruct (Out x X HX) as (n0 & Y0 & E0 & EY0 & HY0). rewrite E1 in E0. injection E0 as <-. rewrite EY in EY0. injection EY0 as <-.
  exists n1, n2, Y, (net_map m (map params_of (layers n)) x), D, d, r.
  do 7 (split; [assumption|]). intros X' x' HX' Nx. destruct (Out x' X' HX') as (n' & Y' & E' & EY' & HY').
  exists n', Y', (net_map m (map params_of (layers n)) x'). do 3 (split; [assumption|]). apply Hr. exact Nx.
Qed.

(** C99, the parameters of a fully connected layer *)
Lemma predicts_parameters {BT : Bits R} bm n (X : T) x G g i f M k w b wg bg :
  training_built bm n -> Forall backs_exactly (layers n) -> Forall piecewise (layers n) ->
  holds bm X (net_input_shape n) x -> holds bm G (net_output_shape n) g -> smooth m bm (map params_of (layers n)) X ->
  nth_error (layers n) i = Some (LFC f) ->
  holds bm (fc_weights f) (mkShape M k 1) w -> holds bm (fc_bias f) (mkShape M 1 1) b ->
  holds bm (fc_weights_gradients f) (mkShape M k 1) wg -> holds bm (fc_bias_gradients f) (mkShape M 1 1) bg ->
  exists n1 n2 Y y f2 dw db r, infer bm n X = Done (n1, Ok tt) /\ get_output n1 = Done (Ok Y) /\ holds bm Y (net_output_shape n) y
    /\ net_backward bm n1 G = Done (n2, Ok tt) /\ nth_error (layers n2) i = Some (LFC f2)
    /\ holds bm (fc_weights_gradients f2) (mkShape M k 1) (fun a b c => wg a b c + dw a b c)
    /\ holds bm (fc_bias_gradients f2) (mkShape M 1 1) (fun a b c => bg a b c + db a b c)
    /\ 0 < r /\ forall nt W B w' b', well_built bm nt -> map params_of (layers nt) = list_set (map params_of (layers n)) i (PFC W B) ->
         holds bm W (mkShape M k 1) w' -> holds bm B (mkShape M 1 1) b' ->
         exists n' Y' y', infer bm nt X = Done (n', Ok tt) /\ get_output n' = Done (Ok Y') /\ holds bm Y' (net_output_shape n) y'
           /\ (near (mkShape M k 1) r w w' -> B = fc_bias f ->
                 pairing (net_output_shape n) g y' - pairing (net_output_shape n) g y = pairing (mkShape M k 1) dw (change w w'))
           /\ (near (mkShape M 1 1) r b b' -> W = fc_weights f ->
                 pairing (net_output_shape n) g y' - pairing (net_output_shape n) g y = pairing (mkShape M 1 1) db (change b b')).
Proof.
  intros TB Bk Pw HX HG Sm Nf Hw Hb Hwg Hbg. assert (NE : layers n <> []) by (intros Q; rewrite Q in Nf; destruct i; discriminate).
  pose proof (built_ok bm n (relu_agrees_R m) (training_built_well bm n TB)) as Ok.
  destruct (net_chain m bm n X x G g Ok (training_built_in bm n (relu_agrees_R m) TB) NE Bk HX HG Sm) as (n1 & n2 & D & d & E1 & E2 & _ & _ & Out & _ & P).
  destruct (P i f Nf M k w b wg bg Hw Hb Hwg Hbg) as (f2 & dw & db & net & P1 & P2 & P3 & P4 & P5 & P6 & xi & Cx & Sxi & Enet).
  pose proof (holds_shaped _ _ _ _ HX) as SX.
  destruct (infer_ok bm n X (relu_agrees_R m) Ok NE (proj1 SX) (proj2 SX)) as (n1' & Y & E1' & _ & _ & EY & C).
  rewrite E1 in E1'. injection E1' as <-. pose proof Ok as ((H1 & H2 & H3 & H4) & Lo & _ & _).
  (* the network itself is one of those compared *)
  assert (Np : nth_error (map params_of (layers n)) i = Some (PFC (fc_weights f) (fc_bias f))) by (rewrite nth_error_map, Nf; reflexivity).
  assert (Self : map params_of (layers n) = list_set (map params_of (layers n)) i (PFC (fc_weights f) (fc_bias f))).
  { symmetry. clear - Np. revert i Np. induction (map params_of (layers n)) as [|a l IH]; intros [|i] Np; try discriminate; [injection Np as ->; reflexivity|].
    cbn. f_equal. apply IH. exact Np. }
  destruct (P4 n (fc_weights f) (fc_bias f) w b Ok Self Hw Hb) as (n1'' & Y'' & E1'' & EY'' & HY). rewrite E1 in E1''. injection E1'' as <-.
  rewrite EY in EY''. injection EY'' as <-.
  (* the layers from here on *)
  set (ps := map params_of (layers n)) in *. pose proof (skipn_cons _ _ _ Np) as Sk.
  assert (C' : composes bm (skipn i ps) xi Y) by (apply (composes_app bm (firstn i ps) _ X); [exact Cx|rewrite firstn_skipn; exact C]).
  assert (Sm' : smooth m bm (skipn i ps) xi) by (apply (smooth_app bm (firstn i ps) _ X); [exact Cx|rewrite firstn_skipn; exact Sm]).
  rewrite Sk in C', Sm'. cbn [composes smooth] in C', Sm'. destruct C' as (Z & C1 & C2). destruct Sm' as (S1 & S2). specialize (S2 Z C1).
  cbn [layer_smooth] in S1. specialize (S1 M k w b (val xi) Hw Hb (shaped_holds bm _ _ Sxi)).
  destruct (linked_skip (layers n) _ i _ H1 Nf) as (Lk & Last). cbn [get_output_shape] in Lk, Last. unfold fc_output_shape, get_shape in Lk, Last.
  rewrite (proj2 (holds_shaped _ _ _ _ Hb)) in Lk, Last.
  pose proof (computes_map m bm _ xi Z (val xi) C1) as HZ. cbn [pin pout layer_map] in HZ.
  rewrite (proj2 (holds_shaped _ _ _ _ Hw)), (proj2 (holds_shaped _ _ _ _ Hb)) in HZ. cbn [dj] in HZ. specialize (HZ (shaped_holds bm _ _ Sxi)).
  assert (HZ' : holds bm Z (mkShape M 1 1) (fc_map k w b (val xi))).
  { eapply holds_ext; [|exact HZ]. intros a c e Hin. apply column_in in Hin. destruct Hin as (Ha & -> & ->). unfold fc_map. f_equal.
    apply fc_pre_ext; [| |reflexivity].
    - intros q Hq. apply (holds_fun bm _ _ _ _ (shaped_holds bm _ _ (holds_shaped _ _ _ _ Hw)) Hw). repeat split; cbn; lia.
    - apply (holds_fun bm _ _ _ _ (shaped_holds bm _ _ (holds_shaped _ _ _ _ Hb)) Hb). repeat split; cbn; lia. }
  assert (Etail : skipn (S i) ps = map params_of (skipn (S i) (layers n))) by apply skipn_map. rewrite Etail in C2, S2, Enet.
  assert (Lo' : Forall layer_ok (skipn (S i) (layers n))) by (rewrite <- (firstn_skipn (S i) (layers n)) in Lo; apply Forall_app in Lo; apply Lo).
  assert (Pw' : Forall piecewise (skipn (S i) (layers n))) by (rewrite <- (firstn_skipn (S i) (layers n)) in Pw; apply Forall_app in Pw; apply Pw).
  destruct (net_straight bm (skipn (S i) (layers n)) _ Z Y _ Lo' Pw' Lk C2 S2 HZ') as (St & Re).
  rewrite Last, (last_out _ _ (mkShape 0 0 0) NE), <- H3 in St, Re. subst net. cbv beta in *.
  pose proof (straight_compose _ _ _ _ _ w (fc_straight_weights M k w b (val xi) S1) St Re) as Sw.
  pose proof (straight_compose _ _ _ _ _ b (fc_straight_bias M k w b (val xi) S1) St Re) as Sb.
  destruct (straight_gradient _ _ _ w g dw Sw P5) as (r1 & Pr1 & Hr1). destruct (straight_gradient _ _ _ b g db Sb P6) as (r2 & Pr2 & Hr2).
  exists n1, n2, Y, (net_map m (map params_of (skipn (S i) (layers n))) (fc_map k w b (val xi))), f2, dw, db, (Rmin r1 r2).
  do 7 (split; [assumption|]). split; [apply Rmin_pos; assumption|].
  intros nt W B w' b' Wt Pt HW HB. destruct (P4 nt W B w' b' (built_ok bm nt (relu_agrees_R m) Wt) Pt HW HB) as (n' & Y' & E' & EY' & HY').
  eexists n', Y', _. do 3 (split; [eassumption|]).
  assert (Ef : forall u v u' v', (forall a c, (a < M)%N -> (c < k)%N -> u a c 0%N = u' a c 0%N) -> (forall a, (a < M)%N -> v a 0%N 0%N = v' a 0%N 0%N) ->
    pairing (net_output_shape n) g (net_map m (map params_of (skipn (S i) (layers n))) (fc_map k u v (val xi)))
    = pairing (net_output_shape n) g (net_map m (map params_of (skipn (S i) (layers n))) (fc_map k u' v' (val xi)))).
  { intros u v u' v' Eu Ev. apply pairing_ext; [reflexivity|]. apply Re. intros a c e Hin. apply column_in in Hin. destruct Hin as (Ha & -> & ->).
    unfold fc_map. f_equal. apply fc_pre_ext; [intros q Hq; apply Eu; assumption|apply Ev; exact Ha|reflexivity]. }
  split.
  - intros Nw ->. rewrite <- (Hr1 w' (near_mono _ _ _ _ _ (Rmin_l _ _) Nw)). f_equal. apply Ef; [reflexivity|].
    intros a Ha. apply (holds_fun bm _ _ _ _ HB Hb). apply in_column. exact Ha.
  - intros Nb ->. rewrite <- (Hr2 b' (near_mono _ _ _ _ _ (Rmin_r _ _) Nb)). f_equal. apply Ef; [|reflexivity].
    intros a c Ha Hc. apply (holds_fun bm _ _ _ _ HW Hw). repeat split; cbn; lia.
Qed.

End Real.
