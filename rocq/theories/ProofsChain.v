(** * Network backward is the chain rule *)
From Coq Require Import Reals Lra ZifyBool ZifyNat ZifyN.
From Verif Require Import Base Arith Helper Tensor Convolution Network Bincode Serial Spec SpecLayer SpecNet SpecReal SpecTrain SpecChain Loops TensorFacts OpsFacts.
From Verif Require Import ProofsTensor ProofsConv ProofsBackprop ProofsPool Layout LayerFacts BackFacts NetFacts NetRun NetBack ProofsLayer RealArith RealSums RealGrad RealConv ProofsReal ProofsGrad.
Ltac Zify.zify_post_hook ::= Z.div_mod_to_equations.

(** ** What the forward loop leaves behind, any arithmetic *)
Section Any.
Context {F : Type} {AR : Arith F}.
Notation T := (tensor F).

(** Layer [i] of [ls1] and state [i + 1] of [st] come from running layer [i] of [ls0] on state [i]. *)
Definition step_at (bm : build) (ls0 ls1 : list (layer F)) (st : list T) (i : nat) : Prop :=
  exists l0 l1 x y0 y, nth_error ls0 i = Some l0 /\ nth_error ls1 i = Some l1 /\ nth_error st i = Some x /\ nth_error st (S i) = Some y
    /\ layout y = layout y0 /\ shaped y0 (get_output_shape l0) /\ forward bm l0 x y0 = Done (l1, y, Ok tt).

Lemma infer_trace bm (ls : list (layer F)) states s0 k :
  linked s0 ls -> map tshape states = boundaries ls -> Forall wf states -> k <= len ls ->
  forall ls' st', tryM (upto k) (infer_step bm) (ls, states) = Done ((ls', st'), Ok tt) ->
  map layout st' = map layout states /\ map ident ls' = map ident ls /\ nth_error st' 0 = nth_error states 0
  /\ (forall i, (i < N.to_nat k)%nat -> step_at bm ls ls' st' i)
  /\ (forall i, (N.to_nat k <= i)%nat -> nth_error ls' i = nth_error ls i).
Proof.
  intros Hl Hs Hw. induction k as [|k IH] using N.peano_ind; intros Hk ls' st' E.
  - rewrite upto_0 in E. injection E as <- <-. do 3 (split; [reflexivity|]). split; [lia|reflexivity].
  - rewrite upto_succ, tryM_app in E. apply bind_done in E. destruct E as (((ls1 & st1) & r1) & E1 & E). destruct r1 as [[]|e]; [|discriminate].
    destruct (IH ltac:(lia) ls1 st1 E1) as (L1 & I1 & Z1 & S1 & K1). cbn [tryM] in E. apply bind_done in E. destruct E as (((ls2 & st2) & r2) & E2 & E).
    destruct r2 as [[]|e]; [|discriminate]. injection E as -> ->.
    unfold infer_step in E2. apply bind_done in E2. destruct E2 as (l & Vl & E2). apply bind_done in E2. destruct E2 as (x & Vx & E2).
    apply bind_done in E2. destruct E2 as (y0 & Vy & E2). apply bind_done in E2. destruct E2 as (((l1 & y) & r) & EF & E2).
    apply bind_done in E2. destruct E2 as (lsx & Sl & E2). apply bind_done in E2. destruct E2 as (stx & Ss & E2). injection E2 as -> -> ->.
    apply vget_done in Vl. destruct Vl as (Ll & Nl). apply get_or_unwrap_done in Vx, Vy. destruct Vx as (Nx & Lx), Vy as (Ny & Ly).
    rewrite vset_done in Sl by exact Ll. rewrite vset_done in Ss by exact Ly. injection Sl as <-. injection Ss as <-.
    pose proof (forward_kept _ _ _ _ _ _ _ EF) as (LY & Il).
    replace (N.to_nat (k + 1)) with (S (N.to_nat k)) in * by lia. replace (N.to_nat (N.succ k)) with (S (N.to_nat k)) by lia.
    assert (Nl0 : nth_error ls (N.to_nat k) = Some l) by (rewrite <- K1 by lia; exact Nl).
    split; [rewrite (map_list_set layout st1 _ y y0 Ny LY); exact L1|]. split; [rewrite (map_list_set ident ls1 _ l1 l Nl Il); exact I1|].
    split; [rewrite nth_error_list_set_other by lia; exact Z1|]. split.
    + intros i Hi. destruct (Nat.eq_dec i (N.to_nat k)) as [->|Ne].
      * exists l, l1, x, y0, y. split; [exact Nl0|].
        split; [apply nth_error_list_set_same; apply nth_error_Some_lt in Nl; exact Nl|].
        split; [rewrite nth_error_list_set_other by lia; exact Nx|].
        split; [apply nth_error_list_set_same; apply nth_error_Some_lt in Ny; exact Ny|]. split; [exact LY|]. split; [|exact EF].
        assert (Nb := nth_boundaries ls s0 (N.to_nat k) l Hl). destruct Nb as (B1 & B2); [|exact Nl0|].
        { destruct ls as [|a ls]; [left; reflexivity|right]. cbn [linked] in Hl. destruct Hl as (<- & _). reflexivity. }
        destruct (nth_shaped st1 ls _ _ ltac:(rewrite (layout_shapes _ _ L1); exact Hs) (Forall_wf_layout _ _ L1 Hw) B2) as (t & Nt & St).
        rewrite Ny in Nt. injection Nt as <-. exact St.
      * destruct (S1 i ltac:(lia)) as (a & b & c & d & e & H1 & H2 & H3 & H4 & H5). exists a, b, c, d, e.
        split; [exact H1|]. split; [rewrite nth_error_list_set_other by lia; exact H2|].
        split; [rewrite nth_error_list_set_other by lia; exact H3|]. split; [rewrite nth_error_list_set_other by lia; exact H4|exact H5].
    + intros i Hi. rewrite nth_error_list_set_other by lia. apply K1. lia.
Qed.

End Any.

Local Open Scope R_scope.

Section Real.
Context (m : R).
#[local] Hint Extern 0 (Arith R) => exact (R_arith m) : typeclass_instances.
Notation T := (tensor R).

(** ** Layers as functions *)
Definition no_tensor : T := of_fun (mkShape 0 0 0) (fun _ _ _ => fzero).
Definition first_of (b : T) : R := match get_item Debug b (mkIndex 0 0 0) with Done v => v | Panic _ => 0 end.
Definition layer_map (p : params R) (x : N -> N -> N -> R) : N -> N -> N -> R :=
  match p with
  | PFC weights bias => fc_map (dj (tshape weights)) (val weights) (val bias) x
  | PConv kernels biases stride ins outs => conv_map (tshape (nth 0 kernels no_tensor)) stride
      (fun n => val (nth (N.to_nat n) kernels no_tensor)) (fun n => first_of (nth (N.to_nat n) biases no_tensor)) x
  | PMaxPool ins mask outs stride => pool_map m mask stride x
  | PSoftmax s => softmax_map s x
  end.

Definition pin (p : params R) : shape :=
  match p with PFC weights bias => mkShape (dj (tshape weights)) 1 1 | PConv _ _ _ ins _ => ins | PMaxPool ins _ _ _ => ins | PSoftmax s => s end.
Definition pout (p : params R) : shape :=
  match p with PFC weights bias => tshape bias | PConv _ _ _ _ outs => outs | PMaxPool _ _ outs _ => outs | PSoftmax s => s end.

Lemma get_first bm (b : T) v : get_item bm b (mkIndex 0 0 0) = Done v -> first_of b = v.
Proof.
  assert (E : forall bm', stride_mul bm' (strides b) (mkIndex 0 0 0) = Done 0%N).
  { intros bm'. unfold stride_mul, u32_mul, u32_add. cbn [ix jx kx]. rewrite ?N.mul_0_l, ?N.mul_0_r. reflexivity. }
  unfold first_of, get_item, get_data_index. rewrite !E. destruct (fits_index _ _); [|congruence]. cbn [bind]. intros ->. reflexivity.
Qed.

(** A convolution's kernels and biases, as [layer_map] reads them. *)
Lemma conv_params_read bm (kernels biases : list T) ks h bv outs :
  all_hold bm kernels ks h -> dk outs = len kernels -> (dk outs <= len biases)%N ->
  (forall n b, nth_error biases (N.to_nat n) = Some b -> get_item bm b (mkIndex 0 0 0) = Done (bv n)) ->
  forall k, (k < dk outs)%N ->
    tshape (nth 0 kernels no_tensor) = ks /\ first_of (nth (N.to_nat k) biases no_tensor) = bv k
    /\ forall a e c, in_shape ks a e c -> val (nth (N.to_nat k) kernels no_tensor) a e c = h k a e c.
Proof.
  intros Hk Ek Lb Hb k Lk. assert (Gk : forall n, (n < dk outs)%N -> exists t, nth_error kernels (N.to_nat n) = Some t /\ nth (N.to_nat n) kernels no_tensor = t).
  { intros n Hn. destruct (nth_error kernels (N.to_nat n)) as [t|] eqn:E; [|apply nth_error_None in E; unfold len in Ek; lia].
    exists t. split; [reflexivity|exact (nth_error_nth _ _ _ E)]. }
  split; [|split].
  - destruct (Gk 0%N ltac:(lia)) as (t & Nt & Et). change (N.to_nat 0) with 0%nat in Et. rewrite Et. apply (holds_shaped _ _ _ _ (Hk 0%N t Nt)).
  - destruct (nth_error biases (N.to_nat k)) as [b|] eqn:E; [|apply nth_error_None in E; unfold len in Lb; lia].
    rewrite (nth_error_nth _ _ _ E). eapply get_first, Hb, E.
  - destruct (Gk k Lk) as (t & Nt & Et). rewrite Et. pose proof (Hk k t Nt) as Ht.
    intros a e c Hc. apply (holds_fun bm _ _ _ _ (shaped_holds bm _ _ (holds_shaped _ _ _ _ Ht)) Ht a e c Hc).
Qed.

Lemma computes_map bm p (X Y : T) x : computes bm p X Y -> holds bm X (pin p) x -> holds bm Y (pout p) (layer_map p x).
Proof.
  intros C HX. destruct C as [weights bias M n w b X x' Y Hw Hb Hx Hy|kernels biases stride ins outs ks h bv X x' Y Hk Ek Lb Hb P Hx Hy
    |ins mask outs stride X x' Y P Hx Hy|s X x' Y Hx Hy]; cbn [pin pout layer_map] in *.
  - pose proof (holds_shaped _ _ _ _ Hw) as Sw. pose proof (holds_shaped _ _ _ _ Hb) as Sb. rewrite (proj2 Sw) in *. rewrite (proj2 Sb). cbn [dj] in *.
    eapply holds_ext; [|exact Hy]. intros i j k Hin. apply column_in in Hin. destruct Hin as (Hi & -> & ->). cbv beta.
    change (fadd (sum (map (fun p => fmul (w i p 0%N) (x' p 0%N 0%N)) (upto n))) (b i 0%N 0%N)) with (pre_activation n w b x' i).
    rewrite relu_R, pre_activation_R. unfold fc_map. f_equal. apply fc_pre_ext.
    + intros q Hq. apply (holds_fun bm _ _ _ _ Hw (shaped_holds bm _ _ Sw)). repeat split; cbn; lia.
    + apply (holds_fun bm _ _ _ _ Hb (shaped_holds bm _ _ Sb)). repeat split; cbn; lia.
    + intros q Hq. apply (holds_fun bm _ _ _ _ Hx HX). repeat split; cbn; lia.
  - eapply holds_ext; [|exact Hy]. intros i j k Hin. pose proof Hin as (Hi & Hj & Lk).
    destruct (conv_params_read bm kernels biases ks h bv outs Hk Ek Lb Hb k Lk) as (S & B & V). cbv beta.
    rewrite relu_R, sum_Rsum. unfold conv_map. f_equal. rewrite S.
    rewrite (conv_pre_ext ins ks stride outs _ _ x h bv x' i j k Lk (P k Lk) Hi Hj V B).
    + unfold conv_pre, conv_linear, window_products. cbn [fadd fmul R_arith]. f_equal.
    + intros a b c Hc. apply (holds_fun bm _ _ _ _ HX Hx a b c Hc).
  - eapply holds_ext; [|exact Hy]. intros i j k Hin. cbv beta. rewrite running_max_R. unfold pool_map. f_equal. unfold window_values.
    apply map_ext_in. intros ((a & b) & c) Hc. apply (holds_fun bm _ _ _ _ Hx HX). eapply window_in_shape; eassumption.
  - eapply holds_ext; [|exact Hy]. intros i j k Hin. cbv beta. unfold softmax_map. cbn [fdiv fexp R_arith]. rewrite sum_Rsum.
    rewrite (holds_fun bm _ _ _ _ Hx HX i j k Hin). f_equal. apply Rsum_ext. intros ((a & b) & c) Hc. apply in_cells in Hc.
    rewrite (holds_fun bm _ _ _ _ Hx HX a b c Hc). reflexivity.
Qed.

Lemma pin_params (l : layer R) : pin (params_of l) = get_input_shape l.
Proof. destruct l; reflexivity. Qed.
Lemma pout_params (l : layer R) : pout (params_of l) = get_output_shape l.
Proof. destruct l; reflexivity. Qed.

(** ** One layer *)
(** What backward adds to a fully connected layer's gradients. *)
Definition fc_grows (bm : build) (l l2 : layer R) (x g : N -> N -> N -> R) : Prop :=
  forall f, l = LFC f -> exists f2, l2 = LFC f2 /\ forall M n w b wg bg,
    holds bm (fc_weights f) (mkShape M n 1) w -> holds bm (fc_bias f) (mkShape M 1 1) b ->
    holds bm (fc_weights_gradients f) (mkShape M n 1) wg -> holds bm (fc_bias_gradients f) (mkShape M 1 1) bg ->
    holds bm (fc_weights_gradients f2) (mkShape M n 1) (fun i j k => wg i j k + fc_back_weights n w b x g i j k)
    /\ holds bm (fc_bias_gradients f2) (mkShape M 1 1) (fun i j k => bg i j k + fc_back_bias n w b x g i j k).

Lemma layer_chain bm l l1 (X Y0 Y G og : T) x g :
  layer_ok l -> get_run_mode l = Training -> backs_exactly l ->
  holds bm X (get_input_shape l) x -> shaped Y0 (get_output_shape l) -> layer_smooth m bm (params_of l) X ->
  forward bm l X Y0 = Done (l1, Y, Ok tt) -> holds bm G (get_output_shape l) g -> shaped og (get_input_shape l) ->
  exists l2 og' d, backward bm l1 X Y G og = Done (l2, og', Ok tt) /\ holds bm og' (get_input_shape l) d
    /\ fc_grows bm l l2 x g
    /\ forall Xc v, curve (get_input_shape l) Xc x v ->
       exists w, curve (get_output_shape l) (fun t => layer_map (params_of l) (Xc t)) (layer_map (params_of l) x) w
         /\ pairing (get_output_shape l) g w = pairing (get_input_shape l) d v.
Proof.
  intros Ol R B HX HY Sm EF HG Ho. destruct l as [l|l|l|l];
    cbn [layer_ok get_run_mode backs backs_exactly get_input_shape get_output_shape params_of layer_smooth forward layer_map] in *.
  - destruct Ol as (ks & Ak & O). destruct B as (S1 & NK & KD & Zi & Zj & Bi & Bj).
    destruct (conv_forward_ok bm ks l X Y0 (relu_agrees_R m) O (holds_shaped _ _ _ _ HX) HY) as (c1 & Y' & E1 & C & O1 & _ & P1 & _ & R1).
    rewrite E1 in EF. cbn [lift3 bind] in EF. injection EF as <- <-. rewrite <- R1 in R.
    pose proof O as (Hk & Ek & Lb & _ & _ & _ & P & _).
    cbn [params_of] in P1. injection P1 as K1 K2 K3 K4 K5.
    set (h := fun n => val (nth (N.to_nat n) (cv_kernels l) no_tensor)).
    pose proof (shaped_all_hold bm (cv_kernels l) ks Hk) as AH.
    assert (Dk : di (cv_output_shape l) = di ks /\ dj (cv_output_shape l) = dj ks).
    { destruct (cv_kernels l) as [|k0 kl]; [congruence|]. apply Forall_inv in KD, Hk. rewrite <- (proj2 Hk). destruct KD; split; congruence. }
    destruct Dk as (Di & Dj). rewrite S1 in P.
    destruct (outgoing_stride1 bm G og (cv_kernels l) (cv_input_shape l) (cv_output_shape l) ks g h (val og) HG (shaped_holds bm _ _ Ho) AH
      ltac:(symmetry; exact Ek) P Di Dj Bi Bj ltac:(lia) ltac:(lia)) as (og' & E2 & H5).
    assert (EB : exists l2, backward bm (LConv c1) X Y' G og = Done (LConv l2, og', Ok tt)).
    { cbn [backward]. rewrite (cv_backward_values bm ks c1 X Y' G og O1 R ltac:(rewrite K4; apply (holds_shaped _ _ _ _ HX)) ltac:(rewrite K5; apply (holds_shaped _ _ _ _ HG))).
      rewrite K1, K3, S1, E2. cbn [bind lift3]. eauto. }
    destruct EB as (l2 & EB). exists (LConv l2), og', (fun a b c => sum (covering_products (cv_output_shape l) ks 1 h g a b c)).
    split; [exact EB|]. split; [exact H5|]. split; [intros f [=]|].
    intros Xc v Cv.
    inversion C as [|kernels biases stride ins outs ks' h' bv X' x' Yc Hk' Ek' Lb' Hb' P' Hx' Hy'| |]; subst.
    assert (Dl : (0 < dk (cv_output_shape l))%N) by (rewrite Ek; destruct (cv_kernels l); [congruence|unfold len; cbn; lia]).
    assert (Eks : ks' = ks).
    { destruct (conv_params_read bm _ _ _ _ _ _ Hk' Ek' Lb' Hb' 0%N Dl) as (<- & _ & _).
      destruct (cv_kernels l) as [|k0 kl]; [congruence|]. apply Forall_inv in Hk. apply (proj2 Hk). }
    subst ks'. specialize (Sm ks h' bv x Hk' Hb' HX).
    set (b0 := fun n => first_of (nth (N.to_nat n) (cv_biases l) no_tensor)).
    assert (RD : forall k, (k < dk (cv_output_shape l))%N -> b0 k = bv k /\ forall a e c, in_shape ks a e c -> h k a e c = h' k a e c).
    { intros k Lk. destruct (conv_params_read bm _ _ _ _ _ _ Hk' Ek' Lb' Hb' k Lk) as (_ & Q1 & Q2). auto. }
    assert (S0 : tshape (nth 0 (cv_kernels l) no_tensor) = ks) by (destruct (conv_params_read bm _ _ _ _ _ _ Hk' Ek' Lb' Hb' 0%N Dl) as (Q & _); exact Q).
    exists (conv_velocity ks 1 h (fun _ _ _ _ => 0) (fun _ => 0) x v). rewrite S0, S1. split.
    + apply (conv_curve (cv_input_shape l) ks 1 (cv_output_shape l) (fun _ => h) (fun _ => b0) Xc h (fun _ _ _ _ => 0) b0 (fun _ => 0) x v P); [| |exact Cv|].
      * intros k _. apply curve_const.
      * intros k _. split; [reflexivity|apply deriv_const].
      * intros i j k Hin. pose proof Hin as (Hi & Hj & Lk). destruct (RD k Lk) as (Q1 & Q2).
        rewrite (conv_pre_ext (cv_input_shape l) ks 1 (cv_output_shape l) h b0 x h' bv x i j k Lk (P k Lk) Hi Hj Q2 Q1) by reflexivity.
        rewrite <- S1. apply Sm. exact Hin.
    + rewrite <- (conv_adjoint m (cv_input_shape l) ks 1 (cv_output_shape l) h g v P). apply pairing_ext; [reflexivity|].
      intros i j k _. unfold conv_velocity, conv_linear. rewrite Rplus_0_r. apply Rsum_ext. intros ((a & e) & c) _. ring.
  - destruct Ol as (M & n & O). pose proof O as (Ow & Ob & Ot). unfold fc_input_shape, fc_output_shape, get_shape in *.
    rewrite (proj2 Ow) in *. rewrite (proj2 Ob) in *. cbn [dj] in *. destruct (Ot R) as (H1 & H2 & H3 & H4).
    pose proof (shaped_holds bm _ _ Ow) as Hw. pose proof (shaped_holds bm _ _ Ob) as Hb.
    destruct (fc_exact m bm l M n _ _ x g _ _ X Y0 G og O R Hw Hb (shaped_holds bm _ _ H1) (shaped_holds bm _ _ H3) HX HY HG Ho)
      as (l1' & Y' & l2 & og' & E1 & _ & E2 & H5 & _).
    rewrite E1 in EF. cbn [lift3 bind] in EF. injection EF as <- <-. cbn [backward]. rewrite E2. cbn [lift3 bind].
    exists (LFC l2), og', (fc_back M n (val (fc_weights l)) (val (fc_bias l)) x g). split; [reflexivity|]. split; [exact H5|]. split.
    { intros f [= <-]. exists l2. split; [reflexivity|]. intros M' n' w b wg bg Hw' Hb' Hwg Hbg.
      pose proof (proj2 (holds_shaped _ _ _ _ Hw')) as S. rewrite (proj2 Ow) in S. injection S as <- <-.
      destruct (fc_exact m bm l M n w b x g wg bg X Y0 G og O R Hw' Hb' Hwg Hbg HX HY HG Ho)
        as (l1b & Yb & l2b & ogb & E1' & _ & E2' & _ & H6 & H7).
      rewrite E1' in E1. injection E1 as -> ->. specialize (E2 Y'). rewrite E2' in E2. injection E2 as -> ->. auto. }
    intros Xc v C. specialize (Sm M n _ _ x Hw Hb HX).
    pose proof (fc_curve M n _ _ Xc _ _ x _ _ v (curve_const _ (val (fc_weights l))) (curve_const _ (val (fc_bias l))) C Sm) as C'.
    eexists. split; [exact C'|]. rewrite fc_adjoint, !pairing_zero. ring.
  - destruct Sm as (x' & win & HX' & Hwin).
    destruct (mp_exact m bm l x' g X Y0 G og Ol R B HX' HY HG Ho) as (l1' & Y' & og' & E1 & _ & E2 & H5).
    rewrite E1 in EF. cbn [lift3 bind] in EF. injection EF as <- <-. cbn [backward]. rewrite E2. cbn [lift3 bind].
    eexists _, og', _. split; [reflexivity|]. split; [exact H5|]. split; [intros f [=]|].
    intros Xc v C.
    assert (C' : curve (mp_input_shape l) Xc x' v).
    { intros i j k Hin. destruct (C i j k Hin) as (C0 & CD). split; [|exact CD]. rewrite C0. apply (holds_fun bm _ _ _ _ HX HX' i j k Hin). }
    pose proof (mp_curve m l Xc x' v win Ol Hwin C') as C2. exists (fun i j k => value_at v (win i j k)). split.
    + intros i j k Hin. destruct (C2 i j k Hin) as (C3 & C4). split; [|exact C4]. rewrite C3. unfold pool_map. f_equal. unfold window_values.
      apply map_ext_in. intros ((a & b) & c) Hc. apply (holds_fun bm _ _ _ _ HX' HX). destruct Ol as (_ & _ & P & _). eapply window_in_shape; eassumption.
    + apply (pool_adjoint m l x' win g v Ol Hwin).
  - destruct B as (B1 & B2). unfold get_shape in *. assert (S : sm_shape l = mkShape (di (sm_shape l)) 1 1) by (destruct (sm_shape l); cbn in *; congruence).
    rewrite S in HX, HY, HG, Ho |- *. set (n := di (sm_shape l)) in *.
    destruct (sm_exact m bm l n x g X Y0 G og Ol R S HX HY HG Ho) as (Y' & l2 & og' & E1 & _ & E2 & H5).
    rewrite E1 in EF. cbn [lift3 bind] in EF. injection EF as <- <-. cbn [backward]. rewrite E2. cbn [lift3 bind].
    eexists _, og', _. split; [reflexivity|]. split; [exact H5|]. split; [intros f [=]|].
    intros Xc v C. eexists. split; [apply softmax_curve; exact C|]. apply softmax_adjoint.
Qed.

(** ** The whole network *)
Definition net_map (ps : list (params R)) (x : N -> N -> N -> R) : N -> N -> N -> R := fold_left (fun x p => layer_map p x) ps x.

Lemma last_shift {A} (a b c : A) (ls : list A) (P : A -> Prop) : P (last (c :: ls) a) -> P (last (a :: c :: ls) b).
Proof.
  change (last (a :: c :: ls) b) with (last (c :: ls) b). revert c; induction ls as [|d ls IH]; intros c; [exact (fun H => H)|]. exact (IH d).
Qed.

Lemma composes_map bm (ls : list (layer R)) : forall s (X Y : T) x, linked s ls -> composes bm (map params_of ls) X Y ->
  holds bm X s x -> holds bm Y (last (map get_output_shape ls) s) (net_map (map params_of ls) x).
Proof.
  induction ls as [|l ls IH]; intros s X Y x Hl C HX.
  - cbn in *. subst. exact HX.
  - cbn [linked] in Hl. destruct Hl as (Es & Hl). subst. cbn [map composes] in C. destruct C as (Z & C1 & C2).
    pose proof (computes_map bm _ X Z x C1) as HZ. rewrite pin_params, pout_params in HZ. specialize (HZ HX).
    specialize (IH _ Z Y _ Hl C2 HZ). destruct ls as [|l' ls]; [exact IH|]. exact (last_shift _ (get_input_shape l) _ _ (fun s => holds bm Y s _) IH).
Qed.

(** ** The backward loop *)
Lemma computes_smooth bm : forall ps (st : list T) X,
  nth_error st 0 = Some X -> smooth m bm ps X ->
  (forall i p, nth_error ps i = Some p -> exists x y, nth_error st i = Some x /\ nth_error st (S i) = Some y /\ computes bm p x y) ->
  forall i p x, nth_error ps i = Some p -> nth_error st i = Some x -> layer_smooth m bm p x.
Proof.
  induction ps as [|q ps IH]; intros st X H0 Sm H i p x Np Nx; [destruct i; discriminate|]. destruct st as [|s st]; [discriminate|].
  destruct Sm as (S1 & S2). injection H0 as ->. destruct i as [|i].
  - cbn in Np, Nx. injection Np as <-. injection Nx as <-. exact S1.
  - destruct (H 0%nat q eq_refl) as (x0 & z & [= <-] & Nz & C). cbn in Np, Nx, Nz.
    apply (IH st z Nz (S2 z C)) with (i := i); [|exact Np|exact Nx]. intros j p' Nj. exact (H (S j) p' Nj).
Qed.

Lemma curve_ext s Xc x x' v : curve s Xc x v -> (forall i j k, in_shape s i j k -> x i j k = x' i j k) -> curve s Xc x' v.
Proof. intros C E i j k Hin. destruct (C i j k Hin) as (C0 & CD). split; [rewrite C0; auto|exact CD]. Qed.

Lemma skipn_cons {A} (l : list A) n x : nth_error l n = Some x -> skipn n l = x :: skipn (S n) l.
Proof. revert n; induction l as [|a l IH]; intros [|n] E; try discriminate; [injection E as ->; reflexivity|]. cbn. rewrite (IH n E). reflexivity. Qed.

Section Loop.
Context (bm : build) (ls0 ls1 : list (layer R)) (st : list T) (s0 outs : shape) (g : N -> N -> N -> R) (X : T).
Hypothesis (Hl : linked s0 ls0) (Ho : Forall layer_ok ls0) (Hm : Forall (fun l => get_run_mode l = Training) ls0) (Hb : Forall backs_exactly ls0).
Hypothesis (Hs : map tshape st = boundaries ls0) (Hw : Forall wf st) (H0 : nth_error st 0 = Some X) (Sm : smooth m bm (map params_of ls0) X).
Hypothesis (Tr : forall i, (i < length ls0)%nat -> step_at bm ls0 ls1 st i).

(** The rest of the network from layer [k] on, paired with the output gradient. *)
Definition tail_loss (k : nat) (z : N -> N -> N -> R) : R := pairing outs g (net_map (skipn k (map params_of ls0)) z).

Definition grad_at (G : T) (k : nat) : Prop :=
  exists x d, nth_error st k = Some x /\ holds bm G (tshape x) d /\ gradient (tshape x) (tail_loss k) (val x) d.

(** What the trace says about layer [i]. *)
Lemma traced i l0 : nth_error ls0 i = Some l0 ->
  exists l1 x y0 y, nth_error ls1 i = Some l1 /\ nth_error st i = Some x /\ nth_error st (S i) = Some y
    /\ shaped x (get_input_shape l0) /\ shaped y0 (get_output_shape l0) /\ shaped y (get_output_shape l0)
    /\ forward bm l0 x y0 = Done (l1, y, Ok tt) /\ computes bm (params_of l0) x y.
Proof.
  intros Nl. destruct (Tr i (nth_error_Some_lt _ _ _ Nl)) as (l & l1 & x & y0 & y & N1 & N2 & N3 & N4 & _ & Sy0 & E).
  rewrite Nl in N1. injection N1 as <-. exists l1, x, y0, y.
  destruct (nth_boundaries ls0 s0 i l0 Hl) as (B1 & B2); [|exact Nl|].
  { clear - Hl. destruct ls0 as [|a ls]; [left; reflexivity|right]. cbn [linked] in Hl. destruct Hl as (<- & _). reflexivity. }
  destruct (nth_shaped st ls0 _ _ Hs Hw B1) as (x' & Nx & Sx). destruct (nth_shaped st ls0 _ _ Hs Hw B2) as (y' & Ny & Sy).
  rewrite N3 in Nx. rewrite N4 in Ny. injection Nx as <-. injection Ny as <-.
  destruct (forward_ok bm l0 x y0 (relu_agrees_R m) (Forall_nth _ _ _ _ Ho Nl) Sx Sy0) as (l' & Y & E' & C & _).
  rewrite E in E'. injection E' as <- <-. auto 10.
Qed.

Lemma traced_smooth i l0 x : nth_error ls0 i = Some l0 -> nth_error st i = Some x -> layer_smooth m bm (params_of l0) x.
Proof.
  intros Nl Nx. apply (computes_smooth bm _ st X H0 Sm) with (i := i); [|rewrite nth_error_map, Nl; reflexivity|exact Nx].
  intros j p Np. rewrite nth_error_map in Np. destruct (nth_error ls0 j) as [l|] eqn:Nj; [|discriminate]. injection Np as <-.
  destruct (traced j l Nj) as (l1 & a & y0 & y & _ & Na & Ny & _ & _ & _ & _ & C). eauto.
Qed.

Lemma back_step k l0 ls (grads : list T) G :
  nth_error ls0 (N.to_nat k) = Some l0 -> nth_error ls (N.to_nat k) = nth_error ls1 (N.to_nat k) ->
  map tshape grads = boundaries ls0 -> Forall wf grads ->
  nth_error grads (S (N.to_nat k)) = Some G -> grad_at G (S (N.to_nat k)) ->
  exists l2 og x y d, backward_step bm st k (ls, grads) = Done ((list_set ls (N.to_nat k) l2, list_set grads (N.to_nat k) og), Ok tt)
    /\ shaped og (get_input_shape l0) /\ grad_at og (N.to_nat k)
    /\ nth_error st (N.to_nat k) = Some x /\ nth_error st (S (N.to_nat k)) = Some y /\ fc_grows bm l0 l2 (val x) d
    /\ gradient (get_output_shape l0) (tail_loss (S (N.to_nat k))) (val y) d.
Proof.
  intros Nl Nls Sg Wg NG (y' & d & Ny' & HG & GG). destruct (traced _ _ Nl) as (l1 & x & y0 & y & N1 & Nx & Ny & Sx & Sy0 & Sy & E & C).
  rewrite Ny in Ny'. injection Ny' as <-. rewrite (proj2 Sy) in HG, GG.
  destruct (nth_boundaries ls0 s0 (N.to_nat k) l0 Hl) as (B1 & _); [|exact Nl|].
  { clear - Hl. destruct ls0 as [|a ls']; [left; reflexivity|right]. cbn [linked] in Hl. destruct Hl as (<- & _). reflexivity. }
  destruct (nth_shaped grads ls0 _ _ Sg Wg B1) as (og & No & So).
  destruct (layer_chain bm l0 l1 x y0 y G og (val x) d (Forall_nth _ _ _ _ Ho Nl) (Forall_nth _ _ _ _ Hm Nl) (Forall_nth _ _ _ _ Hb Nl)
    (shaped_holds bm _ _ Sx) Sy0 (traced_smooth _ _ _ Nl Nx) E HG So) as (l2 & og' & d' & EB & Hd & FG & Ch).
  assert (V : forall (A : Type) (l : list A) i a, nth_error l (N.to_nat i) = Some a -> vget l i = Done a).
  { intros A l i a Q. destruct (vget_some l i) as (a' & Q' & ->); [|congruence]. apply nth_error_Some_lt in Q. unfold len. lia. }
  exists l2, og', x, y, d. split.
  - rewrite N1 in Nls. replace (S (N.to_nat k)) with (N.to_nat (k + 1)) in * by lia. unfold backward_step, get_or_unwrap.
    rewrite (V _ _ _ _ Nls), (V _ _ _ _ Nx), (V _ _ _ _ Ny), (V _ _ _ _ NG), (V _ _ _ _ No). cbn [bind]. rewrite EB. cbn [bind].
    rewrite vset_done by (apply nth_error_Some_lt in Nls; unfold len; lia). cbn [bind].
    rewrite vset_done by (apply nth_error_Some_lt in No; unfold len; lia). reflexivity.
  - split; [apply (holds_shaped _ _ _ _ Hd)|]. split; [|auto 10]. exists x, d'. rewrite (proj2 Sx). split; [exact Nx|]. split; [exact Hd|].
    intros Xc v Cv. destruct (Ch Xc v Cv) as (w & Cw & Ew). rewrite <- Ew. unfold tail_loss.
    assert (Np : nth_error (map params_of ls0) (N.to_nat k) = Some (params_of l0)) by (rewrite nth_error_map, Nl; reflexivity).
    rewrite (skipn_cons _ _ _ Np). apply (GG (fun t => layer_map (params_of l0) (Xc t))). eapply curve_ext; [exact Cw|].
    intros i j q Hin. pose proof (computes_map bm _ x y (val x) C) as HY.
    rewrite pin_params, pout_params in HY. apply (holds_fun bm _ _ _ _ (HY (shaped_holds bm _ _ Sx)) (shaped_holds bm _ _ Sy) i j q Hin).
Qed.

Lemma back_loop k : (k <= len ls0)%N -> forall ls (grads : list T) G,
  length ls = length ls0 -> (forall i, (i < N.to_nat k)%nat -> nth_error ls i = nth_error ls1 i) ->
  map tshape grads = boundaries ls0 -> Forall wf grads -> nth_error grads (N.to_nat k) = Some G -> grad_at G (N.to_nat k) ->
  exists ls' grads' D, tryM (rev (upto k)) (backward_step bm st) (ls, grads) = Done ((ls', grads'), Ok tt)
    /\ nth_error grads' 0 = Some D /\ grad_at D 0
    /\ (forall i, (N.to_nat k <= i)%nat -> nth_error ls' i = nth_error ls i)
    /\ (forall i l0, (i < N.to_nat k)%nat -> nth_error ls0 i = Some l0 -> exists l2 x y d, nth_error ls' i = Some l2
         /\ nth_error st i = Some x /\ nth_error st (S i) = Some y /\ fc_grows bm l0 l2 (val x) d
         /\ gradient (get_output_shape l0) (tail_loss (S i)) (val y) d).
Proof.
  induction k as [|k IH] using N.peano_ind; intros Hk ls grads G Ll Hls Sg Wg NG HG.
  - rewrite upto_0. exists ls, grads, G. cbn [rev tryM]. split; [reflexivity|]. split; [exact NG|]. split; [exact HG|]. split; [auto|lia].
  - rewrite rev_upto_succ. cbn [tryM]. destruct (nth_error ls0 (N.to_nat k)) as [l0|] eqn:Nl.
    2: { apply nth_error_None in Nl. unfold len in Hk. lia. }
    replace (N.to_nat (N.succ k)) with (S (N.to_nat k)) in * by lia.
    destruct (back_step k l0 ls grads G Nl (Hls (N.to_nat k) ltac:(lia)) Sg Wg NG HG) as (l2 & og & x & y & d & E & So & Go & Nx & Ny & FG & Gr).
    rewrite E. cbn [bind].
    assert (No : nth_error (boundaries ls0) (N.to_nat k) = Some (get_input_shape l0)).
    { destruct (nth_boundaries ls0 s0 (N.to_nat k) l0 Hl) as (B1 & _); [|exact Nl|exact B1].
      clear - Hl. destruct ls0 as [|a ls']; [left; reflexivity|right]. cbn [linked] in Hl. destruct Hl as (<- & _). reflexivity. }
    destruct (nth_shaped grads ls0 _ _ Sg Wg No) as (og0 & Nog & Sog).
    destruct (IH ltac:(lia) (list_set ls (N.to_nat k) l2) (list_set grads (N.to_nat k) og) og) as (ls' & gr' & D & E' & ND & GD & K & P).
    + rewrite length_list_set. exact Ll.
    + intros i Hi. rewrite nth_error_list_set_other by lia. apply Hls. lia.
    + rewrite (map_list_set tshape grads _ og og0 Nog); [exact Sg|]. rewrite (proj2 So), (proj2 Sog). reflexivity.
    + apply Forall_list_set; [exact Wg|apply So].
    + apply nth_error_list_set_same. apply nth_error_Some_lt in Nog. exact Nog.
    + exact Go.
    + exists ls', gr', D. split; [exact E'|]. split; [exact ND|]. split; [exact GD|]. split.
      * intros i Hi. rewrite K by lia. apply nth_error_list_set_other. lia.
      * intros i l Hi Ni. destruct (Nat.eq_dec i (N.to_nat k)) as [->|Ne]; [|apply P; [lia|exact Ni]].
        rewrite Nl in Ni. injection Ni as <-. exists l2, x, y, d. split; [|auto].
        rewrite K by lia. apply nth_error_list_set_same. apply nth_error_Some_lt in Nl. lia.
Qed.

End Loop.

(** ** Networks *)
Lemma net_trace bm n (X : T) : net_ok n -> layers n <> [] -> shaped X (net_input_shape n) ->
  exists n1, infer bm n X = Done (n1, Ok tt) /\ net_ok n1 /\ nth_error (intermediate_states n1) 0 = Some X
    /\ (forall i, (i < length (layers n))%nat -> step_at bm (layers n) (layers n1) (intermediate_states n1) i).
Proof.
  intros Ok NE SX. pose proof Ok as (St & Lo & Sw & Gw).
  destruct (infer_ok bm n X (relu_agrees_R m) Ok NE (proj1 SX) (proj2 SX)) as (n1 & Y & E & Ok1 & _ & _ & _).
  exists n1. split; [exact E|]. split; [exact Ok1|]. unfold infer in E. unfold get_shape in E. rewrite (proj2 SX), shape_eqb_refl in E. cbn [negb] in E.
  pose proof (states_length n St) as Ls. destruct (N.ltb_spec (len (intermediate_states n)) 2) as [L|L]; [discriminate|].
  rewrite vset_done in E by lia. cbn [bind] in E. rewrite Nrange_upto in E. apply bind_done in E. destruct E as (((ls & st) & r) & E & H).
  injection H as <- ->. cbn [layers intermediate_states]. change (N.to_nat 0) with 0%nat in E.
  destruct (intermediate_states n) as [|s0 ss] eqn:Es; [unfold len in L; cbn in L; lia|]. cbn [list_set] in E.
  destruct St as (H1 & H2 & H3 & H4).
  destruct (infer_trace bm (layers n) (X :: ss) (net_input_shape n) (len (layers n)) H1) with (ls' := ls) (st' := st) as (_ & _ & Z & S & _).
  - rewrite Es in H4. cbn [map] in *. rewrite <- H4. f_equal. rewrite (proj2 SX), H2, <- H4. reflexivity.
  - constructor; [exact (proj1 SX)|]. inversion Sw; assumption.
  - lia.
  - exact E.
  - split; [exact Z|]. intros i Hi. apply S. unfold len. lia.
Qed.

Lemma linked_skip (ls : list (layer R)) : forall s i l, linked s ls -> nth_error ls i = Some l ->
  linked (get_output_shape l) (skipn (S i) ls) /\ last (map get_output_shape (skipn (S i) ls)) (get_output_shape l) = last (map get_output_shape ls) s.
Proof.
  induction ls as [|a ls IH]; intros s i l Hl Nl; [destruct i; discriminate|]. cbn [linked] in Hl. destruct Hl as (E & Hl). destruct i as [|i].
  - injection Nl as <-. cbn [skipn]. split; [exact Hl|]. destruct ls as [|b ls]; [reflexivity|]. cbn [map].
    apply (last_shift (get_output_shape a) s (get_output_shape b) _ (fun q => last _ _ = q)). reflexivity.
  - cbn in Nl. destruct (IH _ i l Hl Nl) as (L & E'). split; [exact L|]. change (skipn (S (S i)) (a :: ls)) with (skipn (S i) ls). rewrite E'.
    destruct ls as [|b ls]; [destruct i; discriminate|]. cbn [map]. apply (last_shift (get_output_shape a) s (get_output_shape b) _ (fun q => last _ _ = q)). reflexivity.
Qed.

Lemma last_out (ls : list (layer R)) s d : ls <> [] -> last (map get_output_shape ls) s = last (boundaries ls) d.
Proof.
  destruct ls as [|a ls]; [congruence|]. intros _. unfold boundaries. cbn [map].
  change (last (get_input_shape a :: get_output_shape a :: map get_output_shape ls) d) with (last (get_output_shape a :: map get_output_shape ls) d).
  generalize (get_output_shape a). induction (map get_output_shape ls) as [|b q IH]; intros c; [reflexivity|]. exact (IH b).
Qed.

Lemma composes_fun bm ps : forall (X Y Y' : T), composes bm ps X Y -> composes bm ps X Y' -> Y = Y'.
Proof.
  induction ps as [|p ps IH]; intros X Y Y'; cbn [composes]; [congruence|]. intros (Z & C1 & C2) (Z' & C1' & C2').
  rewrite (computes_fun _ _ _ _ _ C1 C1') in *. eapply IH; eassumption.
Qed.

Lemma composes_split bm ps1 ps2 : forall (X Y : T), composes bm (ps1 ++ ps2) X Y -> exists Z, composes bm ps1 X Z /\ composes bm ps2 Z Y.
Proof.
  induction ps1 as [|p ps1 IH]; intros X Y C; cbn [app composes] in *; [exists X; auto|]. destruct C as (Z & C1 & C2).
  destruct (IH Z Y C2) as (Z' & C3 & C4). eauto 6.
Qed.

Lemma list_set_split {A} (l : list A) i x : (i < length l)%nat -> list_set l i x = (firstn i l ++ x :: skipn (S i) l)%list.
Proof. revert i; induction l as [|a l IH]; intros [|i] H; cbn [length] in H; try lia; [reflexivity|]. cbn. f_equal. apply IH. lia. Qed.

Lemma boundaries_pins (ls ls' : list (layer R)) :
  map pin (map params_of ls') = map pin (map params_of ls) -> map pout (map params_of ls') = map pout (map params_of ls) -> boundaries ls' = boundaries ls.
Proof.
  rewrite !map_map, !(map_ext _ _ pin_params), !(map_ext _ _ pout_params). intros E1 E2.
  destruct ls as [|l ls], ls' as [|l' ls']; try discriminate; [reflexivity|]. unfold boundaries. rewrite E2. f_equal. cbn [map] in E1. congruence.
Qed.

Lemma trace_composes bm (ls0 ls1 : list (layer R)) st (X : T) s0 :
  linked s0 ls0 -> Forall layer_ok ls0 -> map tshape st = boundaries ls0 -> Forall wf st -> nth_error st 0 = Some X ->
  (forall i, (i < length ls0)%nat -> step_at bm ls0 ls1 st i) ->
  forall i x, (i <= length ls0)%nat -> nth_error st i = Some x -> composes bm (firstn i (map params_of ls0)) X x.
Proof.
  intros Hl Ho Hs Hw H0 Tr. induction i as [|i IH]; intros x Hi Nx; [cbn; congruence|].
  destruct (nth_error ls0 i) as [l|] eqn:Nl; [|apply nth_error_None in Nl; lia].
  destruct (traced bm ls0 ls1 st s0 Hl Ho Hs Hw Tr i l Nl) as (l1 & z & y0 & y & _ & Nz & Ny & _ & _ & _ & _ & C).
  rewrite Nx in Ny. injection Ny as <-.
  assert (Np : nth_error (map params_of ls0) i = Some (params_of l)) by (rewrite nth_error_map, Nl; reflexivity).
  rewrite (firstn_snoc _ _ _ Np). eapply composes_snoc; [apply IH; [lia|exact Nz]|exact C].
Qed.

(** Backward gives the gradient of every fully connected layer's parameters. *)
Definition params_gradient (bm : build) (n n2 : network R) (X : T) (g : N -> N -> N -> R) : Prop :=
  forall i f, nth_error (layers n) i = Some (LFC f) -> forall M k w b wg bg,
    holds bm (fc_weights f) (mkShape M k 1) w -> holds bm (fc_bias f) (mkShape M 1 1) b ->
    holds bm (fc_weights_gradients f) (mkShape M k 1) wg -> holds bm (fc_bias_gradients f) (mkShape M 1 1) bg ->
    exists f2 dw db net, nth_error (layers n2) i = Some (LFC f2)
      /\ holds bm (fc_weights_gradients f2) (mkShape M k 1) (fun a b c => wg a b c + dw a b c)
      /\ holds bm (fc_bias_gradients f2) (mkShape M 1 1) (fun a b c => bg a b c + db a b c)
      /\ (forall nt W B w' b', net_ok nt -> map params_of (layers nt) = list_set (map params_of (layers n)) i (PFC W B) ->
            holds bm W (mkShape M k 1) w' -> holds bm B (mkShape M 1 1) b' ->
            exists nt' Y, infer bm nt X = Done (nt', Ok tt) /\ get_output nt' = Done (Ok Y) /\ holds bm Y (net_output_shape n) (net w' b'))
      /\ gradient (mkShape M k 1) (fun w' => pairing (net_output_shape n) g (net w' b)) w dw
      /\ gradient (mkShape M 1 1) (fun b' => pairing (net_output_shape n) g (net w b')) b db
      /\ exists xi, composes bm (firstn i (map params_of (layers n))) X xi /\ shaped xi (mkShape k 1 1)
           /\ net = (fun w' b' => net_map (skipn (S i) (map params_of (layers n))) (fc_map k w' b' (val xi))).

Lemma net_chain bm n (X : T) x G g :
  net_ok n -> in_training n -> layers n <> [] -> Forall backs_exactly (layers n) ->
  holds bm X (net_input_shape n) x -> holds bm G (net_output_shape n) g -> smooth m bm (map params_of (layers n)) X ->
  exists n1 n2 D d, infer bm n X = Done (n1, Ok tt) /\ net_backward bm n1 G = Done (n2, Ok tt)
    /\ nth_error (intermediate_gradients n2) 0 = Some D /\ holds bm D (net_input_shape n) d
    /\ (forall x' X', holds bm X' (net_input_shape n) x' ->
          exists n' Y, infer bm n X' = Done (n', Ok tt) /\ get_output n' = Done (Ok Y)
            /\ holds bm Y (net_output_shape n) (net_map (map params_of (layers n)) x'))
    /\ gradient (net_input_shape n) (fun x' => pairing (net_output_shape n) g (net_map (map params_of (layers n)) x')) x d
    /\ params_gradient bm n n2 X g.
Proof.
  intros Ok (R & M & Gs) NE B HX HG Sm. pose proof (holds_shaped _ _ _ _ HX) as SX. pose proof (holds_shaped _ _ _ _ HG) as SG.
  destruct (net_trace bm n X Ok NE SX) as (n1 & E1 & Ok1 & N0 & Tr).
  pose proof (infer_kept _ _ _ _ _ E1) as (Id & KG & KI & KO & KR & KS). pose proof Ok as ((H1 & H2 & H3 & H4) & Lo & Sw & Gw).
  specialize (KS H4 H2). rewrite H4 in KS. pose proof Ok1 as (_ & _ & Sw1 & _).
  assert (Ll : length (layers n1) = length (layers n)) by (rewrite <- (map_length ident (layers n1)), Id, map_length; reflexivity).
  assert (L1 : (1 <= len (layers n))%N) by (destruct (layers n); [congruence|unfold len; cbn [length]; lia]).
  assert (Lg : len (intermediate_gradients n) = (len (layers n) + 1)%N) by (rewrite <- (len_map tshape), Gs; apply boundaries_length; exact NE).
  assert (Ln1 : len (layers n1) = len (layers n)) by (unfold len; rewrite Ll; reflexivity).
  pose proof (last_boundary (layers n) (mkShape 0 0 0) NE) as Nb. rewrite <- H3 in Nb.
  assert (Nb' := Nb). rewrite <- Gs in Nb'. apply map_nth_is in Nb'. destruct Nb' as (g0 & Ng0 & Sg0).
  destruct (nth_shaped _ _ _ _ KS Sw1 Nb) as (y & Ny & Sy).
  destruct (back_loop bm (layers n) (layers n1) (intermediate_states n1) (net_input_shape n) (net_output_shape n) g X H1 Lo M B KS Sw1 N0 Sm Tr
    (len (layers n)) ltac:(lia) (layers n1) (list_set (intermediate_gradients n) (N.to_nat (len (layers n))) G) G)
    as (ls' & gr' & D & EB & ND & (x0 & d & Nx0 & HD & GD) & _ & P).
  - exact Ll.
  - reflexivity.
  - rewrite (map_list_set tshape _ _ G g0 Ng0); [exact Gs|]. rewrite Sg0. apply (proj2 SG).
  - apply Forall_list_set; [exact Gw|apply SG].
  - apply nth_error_list_set_same. unfold len in Lg. unfold len. lia.
  - exists y, g. split; [exact Ny|]. rewrite (proj2 Sy). split; [exact HG|]. unfold tail_loss.
    rewrite skipn_all2 by (rewrite map_length; unfold len; lia). intros Xc v C. cbn [net_map fold_left]. apply curve_pairing with (x := val y). exact C.
  - rewrite N0 in Nx0. injection Nx0 as <-. rewrite (proj2 SX) in HD, GD.
    exists n1, (mkNet ls' (intermediate_states n1) gr' (net_input_shape n1) (net_output_shape n1) (net_run_state n1)), D, d.
    split; [exact E1|]. split.
    { unfold net_backward, get_shape. rewrite KO, (proj2 SG), shape_eqb_refl, KR, R, KG, Ln1. cbn [negb run_state_eqb].
      destruct (N.ltb_spec (len (layers n)) 1); [lia|]. rewrite vset_done by lia. cbn [bind]. rewrite Nrange_upto, EB. reflexivity. }
    split; [exact ND|]. split; [exact HD|]. split; [|split].
    + intros x' X' HX'. pose proof (holds_shaped _ _ _ _ HX') as SX'.
      destruct (infer_ok bm n X' (relu_agrees_R m) Ok NE (proj1 SX') (proj2 SX')) as (n' & Y & E' & _ & _ & EY & C).
      exists n', Y. split; [exact E'|]. split; [exact EY|].
      pose proof (composes_map bm (layers n) _ X' Y x' H1 C HX') as HY. rewrite (last_out _ _ (mkShape 0 0 0) NE), <- H3 in HY. exact HY.
    + intros Xc v C. unfold tail_loss in GD. cbn [skipn] in GD. apply (GD Xc v). eapply curve_ext; [exact C|].
      intros i j k Hin. apply (holds_fun bm _ _ _ _ HX (shaped_holds bm _ _ SX) i j k Hin).
    + intros i f Nf Mo k w b wg bg Hw Hb Hwg Hbg. pose proof (nth_error_Some_lt _ _ _ Nf) as Hi.
      destruct (P i (LFC f) ltac:(unfold len; lia) Nf) as (l2 & xi & yi & di & Nl2 & Nxi & Nyi & FG & Gi). cbn [layers].
      destruct (FG f eq_refl) as (f2 & -> & FG2). destruct (FG2 Mo k w b wg bg Hw Hb Hwg Hbg) as (F1 & F2).
      pose proof (proj2 (holds_shaped _ _ _ _ Hw)) as Ew. pose proof (proj2 (holds_shaped _ _ _ _ Hb)) as Eb.
      destruct (traced bm (layers n) (layers n1) (intermediate_states n1) (net_input_shape n) H1 Lo KS Sw1 Tr i _ Nf)
        as (l1 & xi' & y0 & yi' & _ & Nxi' & Nyi' & Sxi & _ & Syi & _ & Ci).
      rewrite Nxi in Nxi'. rewrite Nyi in Nyi'. injection Nxi' as <-. injection Nyi' as <-.
      cbn [get_input_shape get_output_shape] in Sxi, Syi, Gi. unfold fc_input_shape, fc_output_shape, get_shape in Sxi, Syi, Gi.
      rewrite Ew in Sxi. rewrite Eb in Syi, Gi. cbn [dj] in Sxi.
      pose proof (traced_smooth bm (layers n) (layers n1) (intermediate_states n1) (net_input_shape n) X H1 Lo KS Sw1 N0 Sm Tr i _ xi Nf Nxi) as SM.
      cbn [params_of layer_smooth] in SM. specialize (SM Mo k w b (val xi) Hw Hb (shaped_holds bm _ _ Sxi)).
      set (tail := skipn (S i) (map params_of (layers n))) in *.
      assert (Yi : forall a c e, in_shape (mkShape Mo 1 1) a c e -> fc_map k w b (val xi) a c e = val yi a c e).
      { intros a c e Hin. pose proof (computes_map bm (params_of (LFC f)) xi yi (val xi) Ci) as HY. cbn [pin pout params_of layer_map] in HY. rewrite Ew, Eb in HY.
        cbn [dj] in HY. specialize (HY (shaped_holds bm _ _ Sxi)). rewrite <- (holds_fun bm _ _ _ _ HY (shaped_holds bm _ _ Syi) a c e Hin).
        apply column_in in Hin. destruct Hin as (Ha & -> & ->). unfold fc_map. f_equal. apply fc_pre_ext; [| |reflexivity].
        - intros q Hq. apply (holds_fun bm _ _ _ _ Hw (shaped_holds bm _ _ (holds_shaped _ _ _ _ Hw))). repeat split; cbn; lia.
        - apply (holds_fun bm _ _ _ _ Hb (shaped_holds bm _ _ (holds_shaped _ _ _ _ Hb))). repeat split; cbn; lia. }
      exists f2, (fc_back_weights k w b (val xi) di), (fc_back_bias k w b (val xi) di), (fun w' b' => net_map tail (fc_map k w' b' (val xi))).
      split; [exact Nl2|]. split; [exact F1|]. split; [exact F2|]. split; [|split; [|split]].
      * intros nt W B' w' b' Okt Pt HW HB. pose proof (proj2 (holds_shaped _ _ _ _ HW)) as EW. pose proof (proj2 (holds_shaped _ _ _ _ HB)) as EB'.
        assert (Bt : boundaries (layers nt) = boundaries (layers n)).
        { assert (Np : nth_error (map params_of (layers n)) i = Some (params_of (LFC f))) by (rewrite nth_error_map, Nf; reflexivity).
          apply boundaries_pins; rewrite Pt; eapply map_list_set; try exact Np; cbn [pin pout params_of]; congruence. }
        pose proof Okt as ((_ & T2 & _ & _) & _).
        assert (NEt : layers nt <> []).
        { intros Q. rewrite Q in Pt. apply (f_equal (@length _)) in Pt. rewrite length_list_set, !map_length in Pt. cbn in Pt. lia. }
        destruct (infer_ok bm nt X (relu_agrees_R m) Okt NEt (proj1 SX)) as (nt' & Y & Et & _ & _ & EY & C).
        { rewrite (proj2 SX), T2, Bt, <- H2. reflexivity. }
        exists nt', Y. split; [exact Et|]. split; [exact EY|]. rewrite Pt, list_set_split in C by (rewrite map_length; exact Hi).
        apply composes_split in C. destruct C as (Z & C1 & Z' & C2 & C3).
        pose proof (trace_composes bm (layers n) (layers n1) (intermediate_states n1) X _ H1 Lo KS Sw1 N0 Tr i xi ltac:(lia) Nxi) as C1'.
        rewrite (composes_fun _ _ _ _ _ C1 C1') in *. clear C1 C1' Z.
        pose proof (computes_map bm (PFC W B') xi Z' (val xi) C2) as HZ. cbn [pin pout layer_map] in HZ. rewrite EW, EB' in HZ. cbn [dj] in HZ.
        specialize (HZ (shaped_holds bm _ _ Sxi)).
        destruct (linked_skip (layers n) _ i _ H1 Nf) as (Lk & Last). cbn [get_output_shape] in Lk, Last. unfold fc_output_shape, get_shape in Lk, Last. rewrite Eb in Lk, Last.
        assert (HZ' : holds bm Z' (mkShape Mo 1 1) (fc_map k w' b' (val xi))).
        { eapply holds_ext; [|exact HZ]. intros a c e Hin. apply column_in in Hin. destruct Hin as (Ha & -> & ->). unfold fc_map. f_equal.
          apply fc_pre_ext; [| |reflexivity].
          - intros q Hq. apply (holds_fun bm _ _ _ _ (shaped_holds bm _ _ (holds_shaped _ _ _ _ HW)) HW). repeat split; cbn; lia.
          - apply (holds_fun bm _ _ _ _ (shaped_holds bm _ _ (holds_shaped _ _ _ _ HB)) HB). repeat split; cbn; lia. }
        unfold tail. rewrite skipn_map in C3 |- *.
        pose proof (composes_map bm (skipn (S i) (layers n)) _ Z' Y _ Lk C3 HZ') as HY.
        rewrite Last, (last_out _ _ (mkShape 0 0 0) NE), <- H3 in HY. exact HY.
      * intros Wc wv C. pose proof (fc_curve Mo k Wc _ _ w b (val xi) wv _ _ C (curve_const _ b) (curve_const _ (val xi)) SM) as C'.
        pose proof (fc_adjoint Mo k w b (val xi) wv (fun _ _ _ => 0) (fun _ _ _ => 0) di) as A. rewrite !pairing_zero in A.
        replace (pairing (mkShape Mo k 1) (fc_back_weights k w b (val xi) di) wv) with (pairing (mkShape Mo 1 1) di (fc_velocity k w b (val xi) wv (fun _ _ _ => 0) (fun _ _ _ => 0)))
          by (rewrite A; ring).
        apply (Gi (fun t => fc_map k (Wc t) b (val xi))). eapply curve_ext; [exact C'|exact Yi].
      * intros Bc bv C. pose proof (fc_curve Mo k _ Bc _ w b (val xi) _ bv _ (curve_const _ w) C (curve_const _ (val xi)) SM) as C'.
        pose proof (fc_adjoint Mo k w b (val xi) (fun _ _ _ => 0) bv (fun _ _ _ => 0) di) as A. rewrite !pairing_zero in A.
        replace (pairing (mkShape Mo 1 1) (fc_back_bias k w b (val xi) di) bv) with (pairing (mkShape Mo 1 1) di (fc_velocity k w b (val xi) (fun _ _ _ => 0) bv (fun _ _ _ => 0)))
          by (rewrite A; ring).
        apply (Gi (fun t => fc_map k w (Bc t) (val xi))). eapply curve_ext; [exact C'|exact Yi].
      * exists xi. split; [|split; [exact Sxi|reflexivity]].
        apply (trace_composes bm (layers n) (layers n1) (intermediate_states n1) X _ H1 Lo KS Sw1 N0 Tr i xi ltac:(lia) Nxi).
Qed.

(** C37 *)
Lemma chain_rule {BT : Bits R} bm n (X : T) x G g :
  training_built bm n -> layers n <> [] -> Forall backs_exactly (layers n) ->
  holds bm X (net_input_shape n) x -> holds bm G (net_output_shape n) g -> smooth m bm (map params_of (layers n)) X ->
  exists n1 n2 D d net, infer bm n X = Done (n1, Ok tt) /\ net_backward bm n1 G = Done (n2, Ok tt)
    /\ nth_error (intermediate_gradients n2) 0 = Some D /\ holds bm D (net_input_shape n) d
    /\ (forall x' X', holds bm X' (net_input_shape n) x' ->
          exists n' Y, infer bm n X' = Done (n', Ok tt) /\ get_output n' = Done (Ok Y) /\ holds bm Y (net_output_shape n) (net x'))
    /\ gradient (net_input_shape n) (fun x' => pairing (net_output_shape n) g (net x')) x d.
Proof.
  intros B NE Bk HX HG Sm.
  destruct (net_chain bm n X x G g (built_ok bm n (relu_agrees_R m) (training_built_well bm n B)) (training_built_in bm n (relu_agrees_R m) B) NE Bk HX HG Sm)
    as (n1 & n2 & D & d & H1 & H2 & H3 & H4 & H5 & H6 & _).
  exists n1, n2, D, d, (net_map (map params_of (layers n))). auto 10.
Qed.

(** C57 *)
Lemma chain_params {BT : Bits R} bm n (X : T) x G g i f M k w b wg bg :
  training_built bm n -> Forall backs_exactly (layers n) ->
  holds bm X (net_input_shape n) x -> holds bm G (net_output_shape n) g -> smooth m bm (map params_of (layers n)) X ->
  nth_error (layers n) i = Some (LFC f) ->
  holds bm (fc_weights f) (mkShape M k 1) w -> holds bm (fc_bias f) (mkShape M 1 1) b ->
  holds bm (fc_weights_gradients f) (mkShape M k 1) wg -> holds bm (fc_bias_gradients f) (mkShape M 1 1) bg ->
  exists n1 n2 f2 dw db net, infer bm n X = Done (n1, Ok tt) /\ net_backward bm n1 G = Done (n2, Ok tt)
    /\ nth_error (layers n2) i = Some (LFC f2)
    /\ holds bm (fc_weights_gradients f2) (mkShape M k 1) (fun a b c => wg a b c + dw a b c)
    /\ holds bm (fc_bias_gradients f2) (mkShape M 1 1) (fun a b c => bg a b c + db a b c)
    /\ (forall nt W B w' b', well_built bm nt -> map params_of (layers nt) = list_set (map params_of (layers n)) i (PFC W B) ->
          holds bm W (mkShape M k 1) w' -> holds bm B (mkShape M 1 1) b' ->
          exists n' Y, infer bm nt X = Done (n', Ok tt) /\ get_output n' = Done (Ok Y) /\ holds bm Y (net_output_shape n) (net w' b'))
    /\ gradient (mkShape M k 1) (fun w' => pairing (net_output_shape n) g (net w' b)) w dw
    /\ gradient (mkShape M 1 1) (fun b' => pairing (net_output_shape n) g (net w b')) b db.
Proof.
  intros B Bk HX HG Sm Nf Hw Hb Hwg Hbg. assert (NE : layers n <> []) by (intros Q; rewrite Q in Nf; destruct i; discriminate).
  destruct (net_chain bm n X x G g (built_ok bm n (relu_agrees_R m) (training_built_well bm n B)) (training_built_in bm n (relu_agrees_R m) B) NE Bk HX HG Sm)
    as (n1 & n2 & D & d & H1 & H2 & _ & _ & _ & _ & P).
  destruct (P i f Nf M k w b wg bg Hw Hb Hwg Hbg) as (f2 & dw & db & net & P1 & P2 & P3 & P4 & P5 & P6 & _).
  exists n1, n2, f2, dw, db, net. do 5 (split; [assumption|]). split; [|auto]. intros nt W B' w' b' Wt.
  apply P4. apply (built_ok bm nt (relu_agrees_R m) Wt).
Qed.

End Real.
