(** * C88: the gradient in all parameters at once *)
From Coq Require Import Reals Lra ZifyBool ZifyNat ZifyN.
From Verif Require Import Base Arith Helper Tensor Convolution Network Bincode Serial Spec SpecLayer SpecNet SpecReal SpecTrain SpecChain SpecBatch SpecModes SpecGridBack Loops TensorFacts OpsFacts.
From Verif Require Import ProofsTensor Layout LayerFacts BackFacts NetFacts NetRun NetBack ProofsLayer RealArith RealSums RealGrad ProofsReal ProofsGrad ProofsChain ProofsBatch ProofsDescent SpecJoint.
Local Open Scope R_scope.

Section Real.
Context (m : R).
#[local] Hint Extern 0 (Arith R) => exact (R_arith m) : typeclass_instances.
Notation T := (tensor R).

(** ** Slopes as a function *)
Definition slope (l : layer R) (v : velocity) : R :=
  match l with
  | LFC f => pairing (tshape (fc_weights_gradients f)) (val (fc_weights_gradients f)) (fst v) + pairing (tshape (fc_bias_gradients f)) (val (fc_bias_gradients f)) (snd v)
  | _ => 0
  end.
Definition slopes (ls : list (layer R)) (vs : list velocity) : R := Rsum (map (fun q => slope (fst q) (snd q)) (combine ls vs)).

Lemma slope_holds bm f M n wg bg wv bv : holds bm (fc_weights_gradients f) (mkShape M n 1) wg -> holds bm (fc_bias_gradients f) (mkShape M 1 1) bg ->
  slope (LFC f) (wv, bv) = pairing (mkShape M n 1) wg wv + pairing (mkShape M 1 1) bg bv.
Proof.
  intros H1 H2. cbn [slope fst snd]. pose proof (holds_shaped _ _ _ _ H1) as S1. pose proof (holds_shaped _ _ _ _ H2) as S2. rewrite (proj2 S1), (proj2 S2).
  f_equal; (apply pairing_ext; [|reflexivity]); intros i j k Hin.
  - exact (holds_fun bm _ _ _ _ (shaped_holds bm _ _ S1) H1 i j k Hin).
  - exact (holds_fun bm _ _ _ _ (shaped_holds bm _ _ S2) H2 i j k Hin).
Qed.

Lemma slope_not l v : is_fc (params_of l) = false -> slope l v = 0.
Proof. destruct l; try reflexivity. discriminate. Qed.

Lemma slopes_snoc ls vs i l v : nth_error ls i = Some l -> nth_error vs i = Some v ->
  slopes (firstn (S i) ls) (firstn (S i) vs) = slopes (firstn i ls) (firstn i vs) + slope l v.
Proof.
  revert ls vs. induction i as [|i IH]; intros [|a ls] [|b vs] Nl Nv; try discriminate.
  - injection Nl as ->. injection Nv as ->. unfold slopes. cbn. ring.
  - cbn [nth_error] in Nl, Nv. specialize (IH ls vs Nl Nv). unfold slopes in *. cbn [firstn combine map fst snd] in *. rewrite !Rsum_cons.
    rewrite IH. ring.
Qed.

Lemma slopes_all ls vs : slopes (firstn (length ls) ls) (firstn (length ls) vs) = slopes ls vs.
Proof. unfold slopes. rewrite <- combine_firstn. f_equal. f_equal. apply firstn_all2. rewrite combine_length. lia. Qed.

Lemma slopes_sum bm (ls : list (layer R)) : forall vs, length vs = length ls ->
  (forall i f, nth_error ls i = Some (LFC f) -> exists M n, shaped (fc_weights_gradients f) (mkShape M n 1) /\ shaped (fc_bias_gradients f) (mkShape M 1 1)) ->
  slope_sum m bm ls vs (slopes ls vs).
Proof.
  induction ls as [|l ls IH]; intros [|v vs] L H; try discriminate L; [constructor|].
  assert (R1 : slope_sum m bm ls vs (slopes ls vs)) by (apply IH; [injection L; auto|]; intros i f N; exact (H (S i) f N)).
  unfold slopes. cbn [combine map fst snd]. rewrite Rsum_cons. fold (slopes ls vs).
  destruct (is_fc (params_of l)) eqn:E.
  - destruct l as [|f| |]; try discriminate E. destruct (H 0%nat f eq_refl) as (M & n & S1 & S2). destruct v as (wv & bv). cbn [slope fst snd].
    rewrite (proj2 S1), (proj2 S2). exact (slope_fc m bm f ls wv bv vs M n _ _ _ (shaped_holds bm _ _ S1) (shaped_holds bm _ _ S2) R1).
  - rewrite (slope_not _ _ E), Rplus_0_l. apply slope_other; assumption.
Qed.

(** ** Curves through a layer *)
Lemma layer_curve bm l l1 (X Y0 Y : T) :
  layer_ok l -> get_run_mode l = Training -> backs_exactly l -> shaped X (get_input_shape l) -> shaped Y0 (get_output_shape l) ->
  layer_smooth m bm (params_of l) X -> forward bm l X Y0 = Done (l1, Y, Ok tt) ->
  forall Xc v, curve (get_input_shape l) Xc (val X) v ->
    exists w, curve (get_output_shape l) (fun t => layer_map m (params_of l) (Xc t)) (layer_map m (params_of l) (val X)) w.
Proof.
  intros O Mo B SX SY Sm EF Xc v C.
  destruct (layer_chain m bm l l1 X Y0 Y Y0 X (val X) (val Y0) O Mo B (shaped_holds bm _ _ SX) SY Sm EF (shaped_holds bm _ _ SY) SX) as (l2 & og & d & _ & _ & _ & Ch).
  destruct (Ch Xc v C) as (w & Cw & _). eauto.
Qed.

Definition loss_at (outs : shape) (g : N -> N -> N -> R) (ms : list ((R -> params R) * velocity)) (x : N -> N -> N -> R) (t : R) : R :=
  pairing outs g (net_map m (map (fun q => fst q t) ms) x).

Lemma net_map_snoc ps p x : net_map m (ps ++ [p]) x = layer_map m p (net_map m ps x).
Proof. unfold net_map. rewrite fold_left_app. reflexivity. Qed.

Lemma fc_moved bm W B M n w b x : holds bm W (mkShape M n 1) w -> holds bm B (mkShape M 1 1) b ->
  forall i j k, in_shape (mkShape M 1 1) i j k -> layer_map m (PFC W B) x i j k = fc_map n w b x i j k.
Proof.
  intros HW HB i j k Hin. apply column_in in Hin. destruct Hin as (Hi & -> & ->). cbn [layer_map]. rewrite (proj2 (holds_shaped _ _ _ _ HW)). cbn [dj].
  unfold fc_map. f_equal. apply fc_pre_ext; [| |reflexivity].
  - intros q Hq. apply (holds_fun bm _ _ _ _ (shaped_holds bm _ _ (holds_shaped _ _ _ _ HW)) HW). repeat split; cbn; lia.
  - apply (holds_fun bm _ _ _ _ (shaped_holds bm _ _ (holds_shaped _ _ _ _ HB)) HB). repeat split; cbn; lia.
Qed.

(** ** One sample *)
Lemma net_joint bm n (X : T) x G g ms :
  net_ok n -> in_training n -> layers n <> [] -> Forall backs_exactly (layers n) ->
  holds bm X (net_input_shape n) x -> holds bm G (net_output_shape n) g -> smooth m bm (map params_of (layers n)) X ->
  Forall2 (moves m bm) (map params_of (layers n)) ms ->
  exists n1 n2, infer bm n X = Done (n1, Ok tt) /\ net_backward bm n1 G = Done (n2, Ok tt)
    /\ derivable_pt_lim (loss_at (net_output_shape n) g ms x) 0 (slopes (layers n2) (map snd ms) - slopes (layers n) (map snd ms)).
Proof.
  intros Ok (R & Md & Gs) NE B HX HG Sm Mv. pose proof (holds_shaped _ _ _ _ HX) as SX. pose proof (holds_shaped _ _ _ _ HG) as SG.
  destruct (net_trace m bm n X Ok NE SX) as (n1 & E1 & Ok1 & N0 & Tr).
  pose proof (infer_kept _ _ _ _ _ E1) as (Id & KG & KI & KO & KR & KS). pose proof Ok as ((H1 & H2 & H3 & H4) & Lo & Sw & Gw).
  specialize (KS H4 H2). rewrite H4 in KS. pose proof Ok1 as (_ & _ & Sw1 & _).
  assert (Ll : length (layers n1) = length (layers n)) by (rewrite <- (map_length ident (layers n1)), Id, map_length; reflexivity).
  assert (L1 : (1 <= len (layers n))%N) by (destruct (layers n); [congruence|unfold len; cbn [length]; lia]).
  assert (Lg : len (intermediate_gradients n) = (len (layers n) + 1)%N) by (rewrite <- (len_map tshape), Gs; apply boundaries_length; exact NE).
  assert (Ln1 : len (layers n1) = len (layers n)) by (unfold len; rewrite Ll; reflexivity).
  pose proof (last_boundary (layers n) (mkShape 0 0 0) NE) as Nb. rewrite <- H3 in Nb.
  assert (Nb' := Nb). rewrite <- Gs in Nb'. apply map_nth_is in Nb'. destruct Nb' as (g0 & Ng0 & Sg0).
  destruct (nth_shaped _ _ _ _ KS Sw1 Nb) as (y & Ny & Sy).
  destruct (back_loop m bm (layers n) (layers n1) (intermediate_states n1) (net_input_shape n) (net_output_shape n) g X H1 Lo Md B KS Sw1 N0 Sm Tr
    (len (layers n)) ltac:(lia) (layers n1) (list_set (intermediate_gradients n) (N.to_nat (len (layers n))) G) G)
    as (ls' & gr' & D & EB & _ & _ & _ & P).
  - exact Ll.
  - reflexivity.
  - rewrite (map_list_set tshape _ _ G g0 Ng0); [exact Gs|]. rewrite Sg0. apply (proj2 SG).
  - apply Forall_list_set; [exact Gw|apply SG].
  - apply nth_error_list_set_same. unfold len in Lg. unfold len. lia.
  - exists y, g. split; [exact Ny|]. rewrite (proj2 Sy). split; [exact HG|]. unfold tail_loss.
    rewrite skipn_all2 by (rewrite map_length; unfold len; lia). intros Xc v C. cbn [net_map fold_left]. apply curve_pairing with (x := val y). exact C.
  - set (n2 := mkNet ls' (intermediate_states n1) gr' (net_input_shape n1) (net_output_shape n) Training).
    assert (E2 : net_backward bm n1 G = Done (n2, Base.Ok tt)).
    { unfold net_backward, get_shape. rewrite KO, (proj2 SG), shape_eqb_refl, KR, R, KG, Ln1. cbn [negb run_state_eqb].
      destruct (N.ltb_spec (len (layers n)) 1); [lia|]. rewrite vset_done by lia. cbn [bind]. rewrite Nrange_upto, EB. reflexivity. }
    exists n1, n2. split; [exact E1|]. split; [exact E2|].
    pose proof (net_backward_kept _ _ _ _ _ E2) as (Id2 & _). rewrite Id in Id2. cbn [n2 layers] in Id2.
    assert (Pa2 : map params_of ls' = map params_of (layers n)) by (apply ident_split; exact Id2).
    assert (Lm : length ms = length (layers n)).
    { clear - Mv. rewrite <- (map_length params_of). induction Mv; cbn; congruence. }
    (* forward, one layer after the other *)
    assert (FW : forall i xi, (i <= length (layers n))%nat -> nth_error (intermediate_states n1) i = Some xi ->
      exists v, curve (tshape xi) (fun t => net_map m (firstn i (map (fun q => fst q t) ms)) x) (val xi) v
        /\ derivable_pt_lim (fun t => tail_loss m (layers n) (net_output_shape n) g i (net_map m (firstn i (map (fun q => fst q t) ms)) x)) 0
             (slopes (firstn i ls') (firstn i (map snd ms)) - slopes (firstn i (layers n)) (firstn i (map snd ms)))).
    { induction i as [|i IH]; intros xi Hi Nxi.
      - rewrite N0 in Nxi. injection Nxi as <-. exists (fun _ _ _ => 0). cbn [firstn net_map fold_left]. split.
        + rewrite (proj2 SX). eapply curve_ext; [apply curve_const|]. intros a b c Hin. exact (holds_fun bm _ _ _ _ HX (shaped_holds bm _ _ SX) a b c Hin).
        + replace (slopes [] [] - slopes [] []) with 0 by ring. apply deriv_const.
      - destruct (nth_error (layers n) i) as [l0|] eqn:Nl; [|apply nth_error_None in Nl; lia].
        destruct (traced m bm (layers n) (layers n1) (intermediate_states n1) (net_input_shape n) H1 Lo KS Sw1 Tr i l0 Nl)
          as (l1 & xp & y0 & yi & _ & Nxp & Nyi & Sxp & Sy0 & Syi & EF & Ci).
        rewrite Nxi in Nyi. injection Nyi as <-.
        destruct (IH xp ltac:(lia) Nxp) as (v & Cv & Dv). rewrite (proj2 Sxp) in Cv. rewrite (proj2 Syi).
        pose proof (traced_smooth m bm (layers n) (layers n1) (intermediate_states n1) (net_input_shape n) X H1 Lo KS Sw1 N0 Sm Tr i l0 xp Nl Nxp) as SM.
        destruct (P i l0 ltac:(unfold len; lia) Nl) as (l2 & xp' & yi' & d & Nl2 & Nxp' & Nyi' & FG & Gi).
        rewrite Nxp in Nxp'. rewrite Nxi in Nyi'. injection Nxp' as <-. injection Nyi' as <-.
        destruct (nth_error ms i) as [(Pi & vi)|] eqn:Nm; [|apply nth_error_None in Nm; lia].
        assert (Mi : moves m bm (params_of l0) (Pi, vi)).
        { clear - Mv Nl Nm. revert ms i Mv Nm Nl. generalize (layers n). induction l as [|a l IHl]; intros ms i Mv Nm Nl; [destruct i; discriminate|].
          inversion Mv as [|? ? ? ? M1 M2]; subst. destruct i as [|i]; [injection Nl as <-; injection Nm as ->; exact M1|]. exact (IHl _ i M2 Nm Nl). }
        assert (Nv : nth_error (map snd ms) i = Some vi) by (rewrite nth_error_map, Nm; reflexivity).
        rewrite (slopes_snoc ls' _ i l2 vi Nl2 Nv), (slopes_snoc (layers n) _ i l0 vi Nl Nv).
        assert (FS : forall t, firstn (S i) (map (fun q => fst q t) ms) = (firstn i (map (fun q => fst q t) ms) ++ [Pi t])%list).
        { intros t. apply firstn_snoc. rewrite nth_error_map, Nm. reflexivity. }
        set (Xi := fun t => net_map m (firstn i (map (fun q => fst q t) ms)) x) in *.
        assert (XS : forall t, net_map m (firstn (S i) (map (fun q => fst q t) ms)) x = layer_map m (Pi t) (Xi t)) by (intros t; rewrite FS; apply net_map_snoc).
        assert (TL : forall z, tail_loss m (layers n) (net_output_shape n) g i z = tail_loss m (layers n) (net_output_shape n) g (S i) (layer_map m (params_of l0) z)).
        { intros z. unfold tail_loss. assert (Np : nth_error (map params_of (layers n)) i = Some (params_of l0)) by (rewrite nth_error_map, Nl; reflexivity).
          rewrite (skipn_cons _ _ _ Np). reflexivity. }
        assert (YV : forall a b c, in_shape (get_output_shape l0) a b c -> layer_map m (params_of l0) (val xp) a b c = val xi a b c).
        { intros a b c Hin. pose proof (computes_map m bm _ xp xi (val xp) Ci) as HY. rewrite pin_params, pout_params in HY.
          exact (holds_fun bm _ _ _ _ (HY (shaped_holds bm _ _ Sxp)) (shaped_holds bm _ _ Syi) a b c Hin). }
        destruct (is_fc (params_of l0)) eqn:Fc.
        + destruct l0 as [|f| |]; try discriminate Fc. cbn [params_of] in Mi.
          inversion Mi as [weights bias M k w b W Bc wv bv P0 AR0 Hw Hb CW CB HP|p P0 v0 Q]; subst; [|discriminate Q]. subst AR0.
          pose proof (proj2 (holds_shaped _ _ _ _ Hw)) as Ew. pose proof (proj2 (holds_shaped _ _ _ _ Hb)) as Eb.
          cbn [get_input_shape get_output_shape] in *. unfold fc_input_shape, fc_output_shape, get_shape in *. rewrite Ew in *. rewrite Eb in *. cbn [dj] in *.
          cbn [params_of layer_smooth] in SM. specialize (SM M k w b (val xp) Hw Hb (shaped_holds bm _ _ Sxp)).
          assert (CC : forall Wc' Bc' wv' bv', curve (mkShape M k 1) Wc' w wv' -> curve (mkShape M 1 1) Bc' b bv' ->
            curve (mkShape M 1 1) (fun t => fc_map k (Wc' t) (Bc' t) (Xi t)) (val xi) (fc_velocity k w b (val xp) wv' bv' v)).
          { intros Wc' Bc' wv' bv' C1 C2. eapply curve_ext; [exact (fc_curve M k _ _ _ w b (val xp) _ _ _ C1 C2 Cv SM)|].
            intros a b' c Hin. rewrite <- (YV a b' c Hin). symmetry. exact (fc_moved bm _ _ M k w b (val xp) Hw Hb a b' c Hin). }
          (* the part that comes from the layers before *)
          pose proof (CC (fun _ => w) (fun _ => b) _ _ (curve_const _ w) (curve_const _ b)) as C0.
          assert (C0' : curve (mkShape M 1 1) (fun t => layer_map m (PFC (fc_weights f) (fc_bias f)) (Xi t)) (val xi) (fc_velocity k w b (val xp) (fun _ _ _ => 0) (fun _ _ _ => 0) v)).
          { intros a b' c Hin. destruct (C0 a b' c Hin) as (Q1 & Q2). split; [rewrite (fc_moved bm _ _ M k w b (Xi 0) Hw Hb a b' c Hin); exact Q1|].
            eapply deriv_ext; [|exact Q2]. intros t. symmetry. exact (fc_moved bm _ _ M k w b (Xi t) Hw Hb a b' c Hin). }
          pose proof (Gi _ _ C0') as D0.
          assert (Dv' : derivable_pt_lim (fun t => tail_loss m (layers n) (net_output_shape n) g (S i) (layer_map m (PFC (fc_weights f) (fc_bias f)) (Xi t))) 0
            (slopes (firstn i ls') (firstn i (map snd ms)) - slopes (firstn i (layers n)) (firstn i (map snd ms)))).
          { eapply deriv_ext; [|exact Dv]. intros t. apply TL. }
          pose proof (uniqueness_limite _ _ _ _ D0 Dv') as U. rewrite fc_adjoint, !pairing_zero in U.
          (* everything *)
          pose proof (CC W Bc wv bv CW CB) as C1.
          assert (C1' : curve (mkShape M 1 1) (fun t => layer_map m (Pi t) (Xi t)) (val xi) (fc_velocity k w b (val xp) wv bv v)).
          { intros a b' c Hin. destruct (C1 a b' c Hin) as (Q1 & Q2).
            assert (EQ : forall t, layer_map m (Pi t) (Xi t) a b' c = fc_map k (W t) (Bc t) (Xi t) a b' c).
            { intros t. destruct (HP t) as (Wt & Bt & -> & HW & HB). exact (fc_moved bm _ _ M k _ _ (Xi t) HW HB a b' c Hin). }
            split; [rewrite EQ; exact Q1|]. eapply deriv_ext; [|exact Q2]. intros t. symmetry. apply EQ. }
          exists (fc_velocity k w b (val xp) wv bv v). split.
          * intros a b' c Hin. destruct (C1' a b' c Hin) as (Q1 & Q2). split; [rewrite XS; exact Q1|]. eapply deriv_ext; [|exact Q2]. intros t. cbv beta. rewrite XS. reflexivity.
          * pose proof (Gi _ _ C1') as D1. rewrite fc_adjoint in D1.
            destruct (FG f eq_refl) as (f2 & -> & FG2).
            destruct (Forall_nth _ _ _ _ Lo Nl) as (M' & k' & (O1 & O2 & O3)). rewrite (proj2 O1) in Ew. injection Ew as -> ->.
            destruct (O3 (Forall_nth _ _ _ _ Md Nl)) as (S1 & _ & S3 & _).
            destruct (FG2 M k w b _ _ Hw Hb (shaped_holds bm _ _ S1) (shaped_holds bm _ _ S3)) as (F1 & F2).
            rewrite (slope_holds bm f M k _ _ wv bv (shaped_holds bm _ _ S1) (shaped_holds bm _ _ S3)), (slope_holds bm f2 M k _ _ wv bv F1 F2), !pairing_plus.
            eapply deriv_eq; [|eapply deriv_ext; [|exact D1]]; [|intros t; cbv beta; rewrite XS; reflexivity]. lra.
        + assert (HP : forall t, Pi t = params_of l0).
          { inversion Mi as [weights bias M k w b W Bc wv bv P0 AR0 Hw Hb CW CB HP Q|p P0 v0 Q HP]; subst; [rewrite <- Q in Fc; discriminate Fc|exact HP]. }
          destruct (layer_curve bm l0 l1 xp y0 xi (Forall_nth _ _ _ _ Lo Nl) (Forall_nth _ _ _ _ Md Nl) (Forall_nth _ _ _ _ B Nl) Sxp Sy0 SM EF Xi v Cv) as (w & Cw).
          exists w. split.
          * eapply curve_ext; [|exact YV]. intros a b c Hin. destruct (Cw a b c Hin) as (Q1 & Q2). split; [rewrite XS, HP; exact Q1|].
            eapply deriv_ext; [|exact Q2]. intros t. cbv beta. rewrite XS, HP. reflexivity.
          * rewrite (slope_not l0 _ Fc), (slope_not l2).
            2: { assert (Q : nth_error (map params_of ls') i = nth_error (map params_of (layers n)) i) by (rewrite Pa2; reflexivity).
                 rewrite !nth_error_map, Nl, Nl2 in Q. injection Q as ->. exact Fc. }
            eapply deriv_eq; [|eapply deriv_ext; [|exact Dv]]; [ring|]. intros t. cbv beta. rewrite XS, HP. apply TL. }
    destruct (FW (length (layers n)) y ltac:(lia)) as (v & _ & Dl).
    { rewrite <- Ny. f_equal. unfold len. lia. }
    assert (Ll' : length ls' = length (layers n)) by (apply (f_equal (@length _)) in Pa2; rewrite !map_length in Pa2; exact Pa2).
    pose proof (slopes_all ls' (map snd ms)) as A1. rewrite Ll' in A1. rewrite A1, (slopes_all (layers n)) in Dl. cbn [n2 layers].
    eapply deriv_ext; [|exact Dl]. intros t. cbv beta. unfold loss_at, tail_loss.
    rewrite skipn_all2 by (rewrite map_length; lia). cbn [net_map fold_left].
    rewrite firstn_all2 by (rewrite map_length; lia). reflexivity.
Qed.


(** ** The loss along the way *)
Lemma moved_pins bm n (ms : list ((R -> params R) * velocity)) t : Forall2 (moves m bm) (map params_of n) ms ->
  map pin (map (fun q => fst q t) ms) = map pin (map params_of n) /\ map pout (map (fun q => fst q t) ms) = map pout (map params_of n).
Proof.
  intros H. induction H as [|p q ps qs Hm _ (IH1 & IH2)]; [split; reflexivity|]. cbn [map]. rewrite IH1, IH2.
  assert (Q : pin (fst q t) = pin p /\ pout (fst q t) = pout p); [|destruct Q as (-> & ->); split; reflexivity].
  inversion Hm as [weights bias M k w b W Bc wv bv P0 AR0 Hw Hb CW CB HP|p0 P0 v0 Q HP]; subst; cbn [fst].
  - subst AR0. destruct (HP t) as (Wt & Bt & -> & HW & HB). cbn [pin pout].
    rewrite (proj2 (holds_shaped _ _ _ _ HW)), (proj2 (holds_shaped _ _ _ _ HB)), (proj2 (holds_shaped _ _ _ _ Hw)), (proj2 (holds_shaped _ _ _ _ Hb)). split; reflexivity.
  - rewrite HP. split; reflexivity.
Qed.

Lemma moved_output bm n nt (X : T) x ms t : net_ok n -> net_ok nt -> layers n <> [] -> holds bm X (net_input_shape n) x ->
  Forall2 (moves m bm) (map params_of (layers n)) ms -> map params_of (layers nt) = map (fun q => fst q t) ms ->
  exists nt' Y, infer bm nt X = Done (nt', Ok tt) /\ get_output nt' = Done (Ok Y) /\ net_output_shape nt = net_output_shape n
    /\ holds bm Y (net_output_shape nt) (net_map m (map (fun q => fst q t) ms) x).
Proof.
  intros Okn Okt NE HX Mv Pt. pose proof Okn as ((H1 & H2 & H3 & _) & _). pose proof Okt as ((T1 & T2 & T3 & _) & _).
  destruct (moved_pins bm _ ms t Mv) as (P1 & P2). rewrite <- Pt in P1, P2. pose proof (boundaries_pins _ _ P1 P2) as Bt.
  assert (NEt : layers nt <> []).
  { intros Q. rewrite Q in P1. destruct (layers n); [congruence|discriminate P1]. }
  assert (SI : net_input_shape nt = net_input_shape n) by (rewrite T2, Bt, <- H2; reflexivity).
  pose proof (holds_shaped _ _ _ _ HX) as SX.
  destruct (infer_ok bm nt X (relu_agrees_R m) Okt NEt (proj1 SX)) as (nt' & Y & Et & _ & _ & EY & C); [rewrite SI; exact (proj2 SX)|].
  exists nt', Y. split; [exact Et|]. split; [exact EY|]. split; [rewrite T3, H3, Bt; reflexivity|].
  rewrite <- SI in HX. pose proof (composes_map m bm (layers nt) _ X Y x T1 C HX) as HY. rewrite (last_out _ _ (mkShape 0 0 0) NEt), <- T3, Pt in HY. exact HY.
Qed.

Lemma train_joint {BT : Bits R} bm ms batch : forall n,
  training_built bm n -> layers n <> [] -> Forall backs_exactly (layers n) -> Forall (sample_ok m bm n) batch ->
  Forall2 (moves m bm) (map params_of (layers n)) ms ->
  exists n' loss, train bm n batch = Done (n', Ok tt) /\ training_built bm n' /\ map params_of (layers n') = map params_of (layers n)
    /\ (forall t nt, well_built bm nt -> map params_of (layers nt) = map (fun q => fst q t) ms -> batch_loss m bm nt batch (loss t))
    /\ derivable_pt_lim loss 0 (slopes (layers n') (map snd ms) - slopes (layers n) (map snd ms)).
Proof.
  induction batch as [|(X & G) batch IH]; intros n TB NE Bk Sa Mv.
  - exists n, (fun _ => 0). split; [reflexivity|]. split; [exact TB|]. split; [reflexivity|]. split; [intros; constructor|].
    apply deriv_eq with 0; [ring|]. apply deriv_const.
  - inversion Sa as [|? ? (SX & SG & Sm) Sa']; subst. cbn [fst snd] in SX, SG, Sm.
    pose proof (built_ok bm n (relu_agrees_R m) (training_built_well bm n TB)) as Okn.
    destruct (net_joint bm n X _ G _ ms Okn (training_built_in bm n (relu_agrees_R m) TB) NE Bk (shaped_holds bm _ _ SX) (shaped_holds bm _ _ SG) Sm Mv)
      as (n1 & n2 & E1 & E2 & D1).
    pose proof (infer_kept _ _ _ _ _ E1) as (Id1 & _ & KI1 & KO1 & _). pose proof (net_backward_kept _ _ _ _ _ E2) as (Id2 & _ & KI2 & KO2 & _).
    assert (P2 : map params_of (layers n2) = map params_of (layers n)).
    { rewrite (proj1 (run_op_params bm n1 (OBackward G) n2 (Ok tt) E2 I)). exact (proj1 (run_op_params bm n (OInfer X) n1 (Ok tt) E1 I)). }
    assert (TB2 : training_built bm n2).
    { apply (SpecNet.train_step bm n1 (OBackward G) n2 (Ok tt)); [|exact (proj1 SG)|discriminate|exact E2].
      apply (SpecNet.train_step bm n (OInfer X) n1 (Ok tt)); [exact TB|exact (proj1 SX)|discriminate|exact E1]. }
    assert (SI : net_input_shape n2 = net_input_shape n) by congruence.
    assert (SO : net_output_shape n2 = net_output_shape n) by congruence.
    assert (Bk2 : Forall backs_exactly (layers n2)).
    { eapply Forall_params; [|exact P2|exact Bk]. intros l l'. apply backs_exactly_params. }
    assert (Sa2 : Forall (sample_ok m bm n2) batch).
    { eapply Forall_impl; [|exact Sa']. intros (X' & G'). unfold sample_ok. rewrite SI, SO, P2. auto. }
    assert (NE2 : layers n2 <> []).
    { intros Q. rewrite Q in P2. destruct (layers n); [congruence|discriminate P2]. }
    destruct (IH n2 TB2 NE2 Bk2 Sa2) as (n' & loss & E3 & TB' & P3 & L3 & D3); [rewrite P2; exact Mv|].
    exists n', (fun t => loss_at (net_output_shape n) (val G) ms (val X) t + loss t).
    split. { cbn [train]. rewrite E1. cbn [bind]. rewrite E2. exact E3. }
    split; [exact TB'|]. split; [congruence|]. split.
    + intros t nt Wt Pt. destruct (moved_output bm n nt X (val X) ms t Okn (built_ok bm nt (relu_agrees_R m) Wt) NE (shaped_holds bm _ _ SX) Mv Pt) as (nt' & Y & Et & EY & So & HY).
      unfold loss_at. rewrite <- So. eapply loss_one; [exact Et|exact EY|exact HY|rewrite So; apply shaped_holds; exact SG|]. exact (L3 t nt Wt Pt).
    + eapply deriv_eq; [|exact (deriv_plus _ _ _ _ _ D1 D3)]. ring.
Qed.

Lemma no_slopes bm n (vs : list velocity) : no_gradients bm n -> slopes (layers n) vs = 0.
Proof.
  unfold no_gradients. revert vs. induction (layers n) as [|l ls IH]; intros [|v vs] H; try reflexivity.
  unfold slopes. cbn [combine map fst snd]. rewrite Rsum_cons. fold (slopes ls vs). rewrite IH by (intros i f N; exact (H (S i) f N)). rewrite Rplus_0_r.
  destruct l as [|f| |]; try reflexivity. destruct (H 0%nat f eq_refl) as (Z1 & Z2). unfold zeros in Z1, Z2. cbn [slope].
  rewrite (proj2 (holds_shaped _ _ _ _ Z1)), (proj2 (holds_shaped _ _ _ _ Z2)).
  rewrite (pairing_ext _ (val (fc_weights_gradients f)) (fun _ _ _ => 0) (fst v) (fst v)), (pairing_ext _ (val (fc_bias_gradients f)) (fun _ _ _ => 0) (snd v) (snd v)).
  - unfold pairing. rewrite !Rsum_zero; [ring| |]; intros ((a & b) & c) _; ring.
  - intros i j k Hin. exact (holds_fun bm _ _ _ _ (shaped_holds bm _ _ (holds_shaped _ _ _ _ Z2)) Z2 i j k Hin).
  - reflexivity.
  - intros i j k Hin. exact (holds_fun bm _ _ _ _ (shaped_holds bm _ _ (holds_shaped _ _ _ _ Z1)) Z1 i j k Hin).
  - reflexivity.
Qed.

Lemma grads_shaped (n : network R) : net_ok n -> in_training n -> forall i f, nth_error (layers n) i = Some (LFC f) ->
  exists M k, shaped (fc_weights f) (mkShape M k 1) /\ shaped (fc_bias f) (mkShape M 1 1)
    /\ shaped (fc_weights_gradients f) (mkShape M k 1) /\ shaped (fc_bias_gradients f) (mkShape M 1 1).
Proof.
  intros (_ & Lo & _) (_ & Md & _) i f N. destruct (Forall_nth _ _ _ _ Lo N) as (M & k & (O1 & O2 & O3)).
  destruct (O3 (Forall_nth _ _ _ _ Md N)) as (S1 & _ & S3 & _). exists M, k. auto.
Qed.

Lemma joint_gradient {BT : Bits R} bm batch n ms :
  training_built bm n -> layers n <> [] -> Forall backs_exactly (layers n) -> Forall (sample_ok m bm n) batch -> no_gradients bm n ->
  Forall2 (moves m bm) (map params_of (layers n)) ms ->
  exists n' loss r, train bm n batch = Done (n', Ok tt)
    /\ (forall t nt, well_built bm nt -> map params_of (layers nt) = map (fun q => fst q t) ms -> batch_loss m bm nt batch (loss t))
    /\ slope_sum m bm (layers n') (map snd ms) r /\ derivable_pt_lim loss 0 r.
Proof.
  intros TB NE Bk Sa NG Mv. destruct (train_joint bm ms batch n TB NE Bk Sa Mv) as (n' & loss & E & TB' & P & L & D).
  rewrite (no_slopes bm n _ NG), Rminus_0_r in D. exists n', loss, (slopes (layers n') (map snd ms)). split; [exact E|]. split; [exact L|]. split; [|exact D].
  apply slopes_sum.
  - rewrite map_length. apply (f_equal (@length _)) in P. rewrite !map_length in P. rewrite P. clear - Mv. rewrite <- (map_length params_of). induction Mv; cbn; congruence.
  - intros i f N. destruct (grads_shaped n' (built_ok bm n' (relu_agrees_R m) (training_built_well bm n' TB')) (training_built_in bm n' (relu_agrees_R m) TB') i f N) as (M & k & _ & _ & S3 & S4). eauto.
Qed.

(** ** A step on all layers *)
Definition along (bm : build) (l : layer R) : (R -> params R) * velocity :=
  match l with
  | LFC f => (fun t => PFC (of_fun (tshape (fc_weights f)) (fun i j k => val (fc_weights f) i j k - t * val (fc_weights_gradients f) i j k))
                        (of_fun (tshape (fc_bias f)) (fun i j k => val (fc_bias f) i j k - t * val (fc_bias_gradients f) i j k)),
              (fun i j k => - val (fc_weights_gradients f) i j k, fun i j k => - val (fc_bias_gradients f) i j k))
  | _ => (fun _ => params_of l, (fun _ _ _ => 0, fun _ _ _ => 0))
  end.

Lemma line_curve s x d : curve s (fun t i j k => x i j k - t * d i j k) x (fun i j k => - d i j k).
Proof.
  intros a b c _. split; [ring|]. apply deriv_eq with (0 + (- d a b c) * 1); [ring|].
  apply deriv_ext with (fun t => x a b c + (- d a b c) * t); [intros t; ring|].
  apply deriv_plus; [apply deriv_const|]. apply deriv_scale, derivable_pt_lim_id.
Qed.

Lemma shaped_of_fun bm (t : T) s (f : N -> N -> N -> R) : shaped t s -> holds bm (of_fun s f) s f.
Proof. intros S. apply holds_of_fun. exact (proj1 (@shaped_eq R (R_arith m) _ _ S)). Qed.

Lemma along_moves bm n : net_ok n -> in_training n -> Forall2 (moves m bm) (map params_of (layers n)) (map (along bm) (layers n)).
Proof.
  intros Ok Tr. pose proof (grads_shaped n Ok Tr) as H. clear Ok Tr. revert H. induction (layers n) as [|l ls IH]; intros H; [constructor|].
  constructor; [|apply IH; intros i f N; exact (H (S i) f N)].
  destruct (is_fc (params_of l)) eqn:E.
  - destruct l as [|f| |]; try discriminate E. destruct (H 0%nat f eq_refl) as (M & k & S1 & S2 & S3 & S4). cbn [along params_of].
    eapply (MoveFC m bm _ _ M k); [apply shaped_holds; exact S1|apply shaped_holds; exact S2|apply line_curve|apply line_curve|].
    intros t. eexists _, _. split; [reflexivity|]. rewrite (proj2 S1), (proj2 S2). split; eapply shaped_of_fun; eassumption.
  - replace (along bm l) with (fun _ : R => params_of l, ((fun _ _ _ => 0, fun _ _ _ => 0) : velocity)) by (destruct l; [reflexivity|discriminate E|reflexivity|reflexivity]).
    apply MoveNot; [exact E|reflexivity].
Qed.

Lemma along_stepped bm eta ls ls' : stepped m bm eta ls ls' -> map params_of ls' = map (fun q => fst q eta) (map (along bm) ls).
Proof.
  induction 1 as [|f f' ls ls' M k w b dw db AR Hw Hb Hdw Hdb Hw' Hb' _ IH|l l' ls ls' E P _ IH]; [reflexivity| |]; cbn [map]; rewrite IH; f_equal.
  - subst AR. cbn [along params_of fst].
    pose proof (proj2 (holds_shaped _ _ _ _ Hw)) as Ew. pose proof (proj2 (holds_shaped _ _ _ _ Hb)) as Eb. rewrite Ew, Eb.
    assert (V : forall (t : T) s (f g : N -> N -> N -> R), holds bm t s f -> (forall i j k, in_shape s i j k -> f i j k = g i j k) -> t = of_fun s g).
    { intros t s f0 g Ht Hg. apply (proj1 (holds_iff bm _ _ _)). eapply holds_ext; eassumption. }
    assert (Q : forall (t : T) s (f : N -> N -> N -> R), holds bm t s f -> forall i j k, in_shape s i j k -> f i j k = val t i j k).
    { intros t s f1 Ht i j q Hin. exact (holds_fun bm _ _ _ _ Ht (shaped_holds bm _ _ (holds_shaped _ _ _ _ Ht)) i j q Hin). }
    f_equal; (eapply V; [eassumption|]); intros i j q Hin; cbv beta; f_equal; try f_equal; eapply Q; eassumption.
  - rewrite P. destruct l; [reflexivity|discriminate E|reflexivity|reflexivity].
Qed.

Definition sq (l : layer R) : R := match l with
  | LFC f => pairing (tshape (fc_weights_gradients f)) (val (fc_weights_gradients f)) (val (fc_weights_gradients f)) + pairing (tshape (fc_bias_gradients f)) (val (fc_bias_gradients f)) (val (fc_bias_gradients f))
  | _ => 0 end.

Lemma pairing_neg s d : pairing s d (fun i j k => - d i j k) = - pairing s d d.
Proof. replace (- pairing s d d) with ((-1) * pairing s d d) by ring. unfold pairing. rewrite <- Rsum_scale. apply Rsum_ext. intros ((a & b) & c) _. ring. Qed.

Lemma along_slopes bm ls : slopes ls (map snd (map (along bm) ls)) = - Rsum (map sq ls).
Proof.
  induction ls as [|l ls IH]; [unfold slopes; cbn; ring|]. unfold slopes in *. cbn [map combine fst snd]. rewrite !Rsum_cons, IH.
  destruct l as [|f| |]; cbn [slope along snd fst sq]; try ring. rewrite !pairing_neg. ring.
Qed.

Lemma pairing_sq s d : 0 <= pairing s d d.
Proof. apply Rsum_nonneg. intros ((a & b) & c) _. nra. Qed.

Lemma pairing_pos s d : (exists i j k, in_shape s i j k /\ d i j k <> 0) -> 0 < pairing s d d.
Proof.
  intros (i & j & k & Hin & Nz). assert (Q : forall c, In c (cells s) -> 0 <= (fun '(i, j, k) => d i j k * d i j k) c) by (intros ((a & b) & c) _; nra).
  destruct (Rle_lt_or_eq_dec _ _ (Rsum_nonneg _ (cells s) Q)) as [H|H]; [exact H|exfalso].
  apply in_cells in Hin. pose proof (Rsum_zero_inv _ _ Q (eq_sym H) _ Hin) as Z. cbn in Z. apply Nz. nra.
Qed.

Lemma sq_nonneg l : 0 <= sq l.
Proof. destruct l as [|f| |]; cbn [sq]; try lra. pose proof (pairing_sq (tshape (fc_weights_gradients f)) (val (fc_weights_gradients f))). pose proof (pairing_sq (tshape (fc_bias_gradients f)) (val (fc_bias_gradients f))). lra. Qed.

Lemma sq_pos bm ls : some_gradient m bm ls -> 0 < Rsum (map sq ls).
Proof.
  intros (i & f & M & k & wg & bg & Ne & H1 & H2 & Nz).
  assert (Q : forall (t : T) s (g : N -> N -> N -> R), holds bm t s g -> forall i j k, in_shape s i j k -> g i j k = val t i j k).
  { intros t s g Ht a b c Hin. exact (holds_fun bm _ _ _ _ Ht (shaped_holds bm _ _ (holds_shaped _ _ _ _ Ht)) a b c Hin). }
  assert (P : 0 < sq (LFC f)).
  { cbn [sq]. rewrite (proj2 (holds_shaped _ _ _ _ H1)), (proj2 (holds_shaped _ _ _ _ H2)).
    pose proof (pairing_sq (mkShape M k 1) (val (fc_weights_gradients f))). pose proof (pairing_sq (mkShape M 1 1) (val (fc_bias_gradients f))).
    destruct Nz as [(a & b & c & Hin & Nz)|(a & b & c & Hin & Nz)].
    - assert (0 < pairing (mkShape M k 1) (val (fc_weights_gradients f)) (val (fc_weights_gradients f))); [|lra].
      apply pairing_pos. exists a, b, c. split; [exact Hin|]. rewrite <- (Q _ _ _ H1 a b c Hin). exact Nz.
    - assert (0 < pairing (mkShape M 1 1) (val (fc_bias_gradients f)) (val (fc_bias_gradients f))); [|lra].
      apply pairing_pos. exists a, b, c. split; [exact Hin|]. rewrite <- (Q _ _ _ H2 a b c Hin). exact Nz. }
  revert i Ne. induction ls as [|l ls IH]; intros [|i] Ne; try discriminate; cbn [map]; rewrite Rsum_cons.
  - injection Ne as ->. assert (0 <= Rsum (map sq ls)); [|lra]. apply Rsum_nonneg. intros l _. apply sq_nonneg.
  - pose proof (IH i Ne). pose proof (sq_nonneg l). lra.
Qed.

Lemma falls f r : derivable_pt_lim f 0 r -> r < 0 -> exists e0, 0 < e0 /\ forall e, 0 < e < e0 -> f e < f 0.
Proof.
  intros D Hr. destruct (D (- r / 2)) as (del & Hd); [lra|]. exists (pos del). split; [apply cond_pos|]. intros e (E1 & E2).
  specialize (Hd e ltac:(lra)). rewrite (Rabs_right e) in Hd by lra. specialize (Hd E2). rewrite Rplus_0_l in Hd. apply Rabs_def2 in Hd.
  assert (Q : f e - f 0 = e * ((f e - f 0) / e)) by (field; lra). assert ((f e - f 0) / e < 0) by lra. nra.
Qed.

Lemma joint_step {BT : Bits R} bm batch n :
  training_built bm n -> layers n <> [] -> Forall backs_exactly (layers n) -> Forall (sample_ok m bm n) batch -> no_gradients bm n ->
  exists n', train bm n batch = Done (n', Ok tt) /\ (some_gradient m bm (layers n') ->
    exists eta0, 0 < eta0 /\ forall eta nt, 0 < eta < eta0 -> well_built bm nt -> stepped m bm eta (layers n') (layers nt) ->
      exists l l', batch_loss m bm n batch l /\ batch_loss m bm nt batch l' /\ l' < l).
Proof.
  intros TB NE Bk Sa NG.
  destruct (train_joint bm (map (along bm) (layers n)) batch n TB NE Bk Sa) as (n' & _ & E & TB' & P & _).
  { apply along_moves; [exact (built_ok bm n (relu_agrees_R m) (training_built_well bm n TB))|exact (training_built_in bm n (relu_agrees_R m) TB)]. }
  exists n'. split; [exact E|]. intros SGr.
  pose proof (along_moves bm n' (built_ok bm n' (relu_agrees_R m) (training_built_well bm n' TB')) (training_built_in bm n' (relu_agrees_R m) TB')) as Mv. rewrite P in Mv.
  destruct (train_joint bm _ batch n TB NE Bk Sa Mv) as (n'' & loss & E' & _ & _ & L & D). rewrite E in E'. injection E' as <-.
  rewrite along_slopes, (no_slopes bm n _ NG), Rminus_0_r in D. pose proof (sq_pos bm _ SGr) as Pos.
  destruct (falls loss _ D ltac:(lra)) as (e0 & He & F). exists e0. split; [exact He|]. intros eta nt Heta Wt St.
  exists (loss 0), (loss eta). split; [|split; [|exact (F eta Heta)]].
  - apply L; [exact (training_built_well bm n TB)|]. rewrite <- P. apply along_stepped.
    pose proof (grads_shaped n' (built_ok bm n' (relu_agrees_R m) (training_built_well bm n' TB')) (training_built_in bm n' (relu_agrees_R m) TB')) as H.
    clear - H. induction (layers n') as [|l ls IH]; [constructor|]. assert (R1 : stepped m bm 0 ls ls) by (apply IH; intros i f N; exact (H (S i) f N)).
    destruct (is_fc (params_of l)) eqn:Fc; [|apply step_other; auto]. destruct l as [|f| |]; try discriminate Fc.
    destruct (H 0%nat f eq_refl) as (M & k & S1 & S2 & S3 & S4).
    eapply (step_fc m bm 0 f f ls ls M k); try (apply shaped_holds; eassumption); [| |exact R1].
    + eapply holds_ext; [|apply shaped_holds; exact S1]. intros i j q _. cbv beta. ring.
    + eapply holds_ext; [|apply shaped_holds; exact S2]. intros i j q _. cbv beta. ring.
  - apply L; [exact Wt|]. apply along_stepped. exact St.
Qed.

End Real.
