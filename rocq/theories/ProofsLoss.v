(** * C103: losses other than linear ones *)
From Coq Require Import Reals Lra ZifyBool ZifyNat ZifyN.
From Verif Require Import Base Arith Helper Tensor Convolution Network Bincode Serial Spec SpecLayer SpecNet SpecReal SpecTrain SpecChain SpecBatch SpecModes SpecGridBack Loops TensorFacts OpsFacts.
From Verif Require Import ProofsTensor Layout LayerFacts BackFacts NetFacts NetRun NetBack ProofsLayer RealArith RealSums RealGrad ProofsReal ProofsGrad ProofsChain ProofsBatch ProofsDescent SpecJoint ProofsJoint SpecLoss.
Local Open Scope R_scope.

(** ** Choosing one number for every element *)
Lemma choose_list (P : N * N * N -> R -> Prop) l : (forall c, In c l -> exists d, P c d) -> exists v, forall c, In c l -> P c (v c).
Proof.
  induction l as [|a l IH]; intros H; [exists (fun _ => 0); intros c []|].
  destruct (H a (or_introl eq_refl)) as (d & Hd). destruct IH as (v & Hv); [intros c Hc; apply H; right; exact Hc|].
  assert (De : forall x y : N * N * N, {x = y} + {x <> y}) by (repeat decide equality).
  exists (fun c => if De c a then d else v c). intros c Hc. destruct (De c a) as [->|Ne]; [exact Hd|].
  destruct Hc as [->|Hc]; [congruence|]. exact (Hv c Hc).
Qed.

Lemma choose_shape (P : N -> N -> N -> R -> Prop) s : (forall i j k, in_shape s i j k -> exists d, P i j k d) ->
  exists v, forall i j k, in_shape s i j k -> P i j k (v i j k).
Proof.
  intros H. destruct (choose_list (fun '(i, j, k) d => P i j k d) (cells s)) as (v & Hv).
  - intros ((i & j) & k) Hc. apply H. apply in_cells. exact Hc.
  - exists (fun i j k => v (i, j, k)). intros i j k Hin. apply in_cells in Hin. exact (Hv _ Hin).
Qed.

Definition unit_at (i j k a b c : N) : R := if ((i =? a) && (j =? b) && (k =? c))%N then 1 else 0.

Lemma pairing_unit s i j k y : in_shape s i j k -> pairing s (unit_at i j k) y = y i j k.
Proof.
  intros Hin. unfold pairing. rewrite (Rsum_single _ _ (i, j, k)).
  - unfold unit_at. rewrite !N.eqb_refl. cbn [andb]. ring.
  - apply NoDup_cells.
  - apply in_cells. exact Hin.
  - intros ((a & b) & c) _ Ne. unfold unit_at. destruct (N.eqb_spec i a), (N.eqb_spec j b), (N.eqb_spec k c); cbn [andb]; try ring. subst. congruence.
Qed.

Lemma curve_base s X x x' v : (forall i j k, in_shape s i j k -> x i j k = x' i j k) -> curve s X x v -> curve s X x' v.
Proof. intros E C i j k Hin. rewrite <- (E i j k Hin). exact (C i j k Hin). Qed.

Lemma gradient_base s L x x' d : (forall i j k, in_shape s i j k -> x i j k = x' i j k) -> gradient s L x d -> gradient s L x' d.
Proof. intros E G X v C. apply G. eapply curve_base; [|exact C]. intros i j k Hin. symmetry. exact (E i j k Hin). Qed.

Lemma gradient_value s L x d d' : (forall i j k, in_shape s i j k -> d i j k = d' i j k) -> gradient s L x d -> gradient s L x d'.
Proof. intros E G X v C. rewrite <- (pairing_ext s d d' v v E (fun _ _ _ _ => eq_refl)). exact (G X v C). Qed.

Section Real.
Context (m : R).
#[local] Hint Extern 0 (Arith R) => exact (R_arith m) : typeclass_instances.
Notation T := (tensor R).

Lemma moves_start bm ps ms : Forall2 (moves m bm) ps ms -> map (fun q => fst q 0) ms = ps.
Proof.
  induction 1 as [|p q ps qs Hm _ IH]; [reflexivity|]. cbn [map]. rewrite IH. f_equal.
  inversion Hm as [weights bias M k w b W Bc wv bv P0 AR0 Hw Hb CW CB HP|p0 P0 v0 Q HP]; subst; cbn [fst]; [|apply HP].
  subst AR0. destruct (HP 0) as (Wt & Bt & -> & HW & HB).
  f_equal.
  - exact (holds_eq bm _ _ _ _ _ HW Hw (fun i j q Hin => proj1 (CW i j q Hin))).
  - exact (holds_eq bm _ _ _ _ _ HB Hb (fun i j q Hin => proj1 (CB i j q Hin))).
Qed.

(** The output moves along a differentiable curve. *)
Lemma net_curve bm n (X : T) x ms :
  net_ok n -> in_training n -> layers n <> [] -> Forall backs_exactly (layers n) ->
  holds bm X (net_input_shape n) x -> smooth m bm (map params_of (layers n)) X ->
  (exists G : T, shaped G (net_output_shape n)) ->
  Forall2 (moves m bm) (map params_of (layers n)) ms ->
  exists v, curve (net_output_shape n) (fun t => net_map m (map (fun q => fst q t) ms) x) (net_map m (map params_of (layers n)) x) v.
Proof.
  intros Okn Tr NE B HX Sm (G0 & SG0) Mv. set (outs := net_output_shape n) in *.
  destruct (choose_shape (fun i j k d => derivable_pt_lim (fun t => net_map m (map (fun q => fst q t) ms) x i j k) 0 d) outs) as (v & Hv).
  - intros i j k Hin. pose proof (shaped_of_fun m bm G0 outs (unit_at i j k) SG0) as HG.
    destruct (net_joint m bm n X x _ _ ms Okn Tr NE B HX HG Sm Mv) as (n1 & n2 & _ & _ & D). eexists. eapply deriv_ext; [|exact D].
    intros t. unfold loss_at. apply pairing_unit. exact Hin.
  - exists v. intros i j k Hin. split; [|exact (Hv i j k Hin)]. cbv beta. rewrite (moves_start _ _ _ Mv). reflexivity.
Qed.

(** What the network outputs, as a function of its parameters. *)
Lemma outputs_map bm n X x : net_ok n -> layers n <> [] -> holds bm X (net_input_shape n) x ->
  outputs m bm n X (net_map m (map params_of (layers n)) x).
Proof.
  intros Okn NE HX. pose proof Okn as ((H1 & H2 & H3 & _) & _). pose proof (holds_shaped _ _ _ _ HX) as SX.
  destruct (infer_ok bm n X (relu_agrees_R m) Okn NE (proj1 SX) (proj2 SX)) as (n' & Y & E & _ & _ & EY & C).
  exists n', Y. split; [exact E|]. split; [exact EY|].
  pose proof (composes_map m bm (layers n) _ X Y x H1 C HX) as HY. rewrite (last_out _ _ (mkShape 0 0 0) NE), <- H3 in HY. exact HY.
Qed.

Lemma outputs_fun bm n X y y' : outputs m bm n X y -> outputs m bm n X y' -> forall i j k, in_shape (net_output_shape n) i j k -> y i j k = y' i j k.
Proof.
  intros (n1 & Y1 & E1 & O1 & H1) (n2 & Y2 & E2 & O2 & H2). rewrite E1 in E2. injection E2 as <-. rewrite O1 in O2. injection O2 as <-.
  exact (holds_fun bm _ _ _ _ H1 H2).
Qed.

Definition good (bm : build) (n : network R) (s : sample) : Prop :=
  let '(X, G, L) := s in
  sample_ok m bm n (X, G) /\ looks_at (net_output_shape n) L
  /\ gradient (net_output_shape n) L (net_map m (map params_of (layers n)) (val X)) (val G).

Lemma aimed_good bm n s : net_ok n -> layers n <> [] -> aimed m bm n s -> good bm n s.
Proof.
  intros Okn NE. destruct s as ((X & G) & L). intros (SO & LA & y & g & Oy & HG & Gr). split; [exact SO|]. split; [exact LA|].
  destruct SO as (SX & SG & _). cbn [fst snd] in SX, SG.
  eapply gradient_value; [|eapply gradient_base; [|exact Gr]].
  - intros i j k Hin. exact (holds_fun bm _ _ _ _ HG (shaped_holds bm _ _ SG) i j k Hin).
  - exact (outputs_fun bm n X _ _ Oy (outputs_map bm n X _ Okn NE (shaped_holds bm _ _ SX))).
Qed.

Lemma train_loss {BT : Bits R} bm ms (batch : list sample) : forall n,
  training_built bm n -> layers n <> [] -> Forall backs_exactly (layers n) -> Forall (good bm n) batch ->
  Forall2 (moves m bm) (map params_of (layers n)) ms ->
  exists n' loss, train bm n (map fst batch) = Done (n', Ok tt) /\ training_built bm n' /\ map params_of (layers n') = map params_of (layers n)
    /\ (forall t nt, well_built bm nt -> map params_of (layers nt) = map (fun q => fst q t) ms -> total_loss m bm nt batch (loss t))
    /\ derivable_pt_lim loss 0 (slopes m (layers n') (map snd ms) - slopes m (layers n) (map snd ms)).
Proof.
  induction batch as [|((X & G) & L) batch IH]; intros n TB NE Bk Sa Mv.
  - exists n, (fun _ => 0). split; [reflexivity|]. split; [exact TB|]. split; [reflexivity|]. split; [intros; constructor|].
    apply deriv_eq with 0; [ring|]. apply deriv_const.
  - inversion Sa as [|? ? Hg Sa']; subst. cbn [good] in Hg. destruct Hg as ((SX & SG & Sm) & LA & Gr). cbn [fst snd] in SX, SG, Sm.
    pose proof (built_ok bm n (relu_agrees_R m) (training_built_well bm n TB)) as Okn.
    destruct (net_joint m bm n X _ G _ ms Okn (training_built_in bm n (relu_agrees_R m) TB) NE Bk (shaped_holds bm _ _ SX) (shaped_holds bm _ _ SG) Sm Mv)
      as (n1 & n2 & E1 & E2 & D1).
    destruct (net_curve bm n X _ ms Okn (training_built_in bm n (relu_agrees_R m) TB) NE Bk (shaped_holds bm _ _ SX) Sm (ex_intro _ G SG) Mv) as (v & Cv).
    pose proof (uniqueness_limite _ _ _ _ (curve_pairing _ _ _ _ (val G) Cv) D1) as U.
    pose proof (Gr _ _ Cv) as D1'. rewrite U in D1'. clear D1 U.
    pose proof (infer_kept _ _ _ _ _ E1) as (Id1 & _ & KI1 & KO1 & _). pose proof (net_backward_kept _ _ _ _ _ E2) as (Id2 & _ & KI2 & KO2 & _).
    assert (P2 : map params_of (layers n2) = map params_of (layers n)).
    { rewrite (proj1 (run_op_params bm n1 (OBackward G) n2 (Ok tt) E2 I)). exact (proj1 (run_op_params bm n (OInfer X) n1 (Ok tt) E1 I)). }
    assert (TB2 : training_built bm n2).
    { apply (SpecNet.train_step bm n1 (OBackward G) n2 (Ok tt)); [|exact (proj1 SG)|discriminate|exact E2].
      apply (SpecNet.train_step bm n (OInfer X) n1 (Ok tt)); [exact TB|exact (proj1 SX)|discriminate|exact E1]. }
    assert (SI : net_input_shape n2 = net_input_shape n) by congruence.
    assert (SO : net_output_shape n2 = net_output_shape n) by congruence.
    assert (Bk2 : Forall backs_exactly (layers n2)).
    { eapply Forall_params; [|exact P2|exact Bk]. intros l l'. apply backs_exactly_params. }
    assert (Sa2 : Forall (good bm n2) batch).
    { eapply Forall_impl; [|exact Sa']. intros ((X' & G') & L'). unfold good, sample_ok. rewrite SI, SO, P2. auto. }
    assert (NE2 : layers n2 <> []).
    { intros Q. rewrite Q in P2. destruct (layers n); [congruence|discriminate P2]. }
    destruct (IH n2 TB2 NE2 Bk2 Sa2) as (n' & loss & E3 & TB' & P3 & L3 & D3); [rewrite P2; exact Mv|].
    exists n', (fun t => L (net_map m (map (fun q => fst q t) ms) (val X)) + loss t).
    split. { cbn [map fst train]. rewrite E1. cbn [bind]. rewrite E2. exact E3. }
    split; [exact TB'|]. split; [congruence|]. split.
    + intros t nt Wt Pt. destruct (moved_output m bm n nt X (val X) ms t Okn (built_ok bm nt (relu_agrees_R m) Wt) NE (shaped_holds bm _ _ SX) Mv Pt) as (nt' & Y & Et & EY & So & HY).
      assert (Oy : outputs m bm nt X (net_map m (map (fun q => fst q t) ms) (val X))) by (exists nt', Y; auto).
      eapply total_one; [exact Oy| |exact (L3 t nt Wt Pt)].
      intros y' Oy'. apply LA. rewrite <- So. exact (outputs_fun bm nt X _ _ Oy' Oy).
    + eapply deriv_eq; [|exact (deriv_plus _ _ _ _ _ D1' D3)]. ring.
Qed.

Lemma loss_gradient {BT : Bits R} bm (batch : list sample) n ms :
  training_built bm n -> layers n <> [] -> Forall backs_exactly (layers n) -> Forall (aimed m bm n) batch -> no_gradients bm n ->
  Forall2 (moves m bm) (map params_of (layers n)) ms ->
  exists n' loss r, train bm n (map fst batch) = Done (n', Ok tt)
    /\ (forall t nt, well_built bm nt -> map params_of (layers nt) = map (fun q => fst q t) ms -> total_loss m bm nt batch (loss t))
    /\ slope_sum m bm (layers n') (map snd ms) r /\ derivable_pt_lim loss 0 r.
Proof.
  intros TB NE Bk Sa NG Mv.
  assert (Sg : Forall (good bm n) batch).
  { eapply Forall_impl; [|exact Sa]. intros s. apply aimed_good; [exact (built_ok bm n (relu_agrees_R m) (training_built_well bm n TB))|exact NE]. }
  destruct (train_loss bm ms batch n TB NE Bk Sg Mv) as (n' & loss & E & TB' & P & L & D).
  rewrite (no_slopes m bm n _ NG), Rminus_0_r in D. exists n', loss, (slopes m (layers n') (map snd ms)). split; [exact E|]. split; [exact L|]. split; [|exact D].
  apply (slopes_sum m).
  - rewrite map_length. apply (f_equal (@length _)) in P. rewrite !map_length in P. rewrite P. clear - Mv. rewrite <- (map_length params_of). induction Mv; cbn; congruence.
  - intros i f N. destruct (grads_shaped n' (built_ok bm n' (relu_agrees_R m) (training_built_well bm n' TB')) (training_built_in bm n' (relu_agrees_R m) TB') i f N) as (M & k & _ & _ & S3 & S4). eauto.
Qed.

Lemma stepped_still bm (ls : list (layer R)) : (forall i f, nth_error ls i = Some (LFC f) -> exists M k, shaped (fc_weights f) (mkShape M k 1) /\ shaped (fc_bias f) (mkShape M 1 1)
    /\ shaped (fc_weights_gradients f) (mkShape M k 1) /\ shaped (fc_bias_gradients f) (mkShape M 1 1)) -> stepped m bm 0 ls ls.
Proof.
  induction ls as [|l ls IH]; intros H; [constructor|]. assert (R1 : stepped m bm 0 ls ls) by (apply IH; intros i f N; exact (H (S i) f N)).
  destruct (is_fc (params_of l)) eqn:Fc; [|apply step_other; auto]. destruct l as [|f| |]; try discriminate Fc.
  destruct (H 0%nat f eq_refl) as (M & k & S1 & S2 & S3 & S4).
  eapply (step_fc m bm 0 f f ls ls M k); try (apply shaped_holds; eassumption); [| |exact R1].
  - eapply holds_ext; [|apply shaped_holds; exact S1]. intros i j q _. cbv beta. ring.
  - eapply holds_ext; [|apply shaped_holds; exact S2]. intros i j q _. cbv beta. ring.
Qed.

Lemma loss_step {BT : Bits R} bm (batch : list sample) n :
  training_built bm n -> layers n <> [] -> Forall backs_exactly (layers n) -> Forall (aimed m bm n) batch -> no_gradients bm n ->
  exists n', train bm n (map fst batch) = Done (n', Ok tt) /\ (some_gradient m bm (layers n') ->
    exists eta0, 0 < eta0 /\ forall eta nt, 0 < eta < eta0 -> well_built bm nt -> stepped m bm eta (layers n') (layers nt) ->
      exists l l', total_loss m bm n batch l /\ total_loss m bm nt batch l' /\ l' < l).
Proof.
  intros TB NE Bk Sa NG.
  assert (Sg : Forall (good bm n) batch).
  { eapply Forall_impl; [|exact Sa]. intros s. apply aimed_good; [exact (built_ok bm n (relu_agrees_R m) (training_built_well bm n TB))|exact NE]. }
  destruct (train_loss bm (map (along m bm) (layers n)) batch n TB NE Bk Sg) as (n' & _ & E & TB' & P & _).
  { apply along_moves; [exact (built_ok bm n (relu_agrees_R m) (training_built_well bm n TB))|exact (training_built_in bm n (relu_agrees_R m) TB)]. }
  exists n'. split; [exact E|]. intros SGr.
  pose proof (along_moves m bm n' (built_ok bm n' (relu_agrees_R m) (training_built_well bm n' TB')) (training_built_in bm n' (relu_agrees_R m) TB')) as Mv. rewrite P in Mv.
  destruct (train_loss bm _ batch n TB NE Bk Sg Mv) as (n'' & loss & E' & _ & _ & L & D). rewrite E in E'. injection E' as <-.
  rewrite along_slopes, (no_slopes m bm n _ NG), Rminus_0_r in D. pose proof (sq_pos m bm _ SGr) as Pos.
  destruct (falls loss _ D ltac:(lra)) as (e0 & He & F). exists e0. split; [exact He|]. intros eta nt Heta Wt St.
  exists (loss 0), (loss eta). split; [|split; [|exact (F eta Heta)]].
  - apply L; [exact (training_built_well bm n TB)|]. rewrite <- P. apply (along_stepped m). apply stepped_still.
    exact (grads_shaped n' (built_ok bm n' (relu_agrees_R m) (training_built_well bm n' TB')) (training_built_in bm n' (relu_agrees_R m) TB')).
  - apply L; [exact Wt|]. apply (along_stepped m). exact St.
Qed.

(** The gradient at the input. *)
Lemma loss_at_input {BT : Bits R} bm n (X : T) x G (L : loss_fun) :
  training_built bm n -> layers n <> [] -> Forall backs_exactly (layers n) -> holds bm X (net_input_shape n) x -> aimed m bm n (X, G, L) ->
  exists n1 n2 D d net, infer bm n X = Done (n1, Ok tt) /\ net_backward bm n1 G = Done (n2, Ok tt)
    /\ nth_error (intermediate_gradients n2) 0 = Some D /\ holds bm D (net_input_shape n) d
    /\ (forall X' x', holds bm X' (net_input_shape n) x' -> outputs m bm n X' (net x'))
    /\ gradient (net_input_shape n) (fun x' => L (net x')) x d.
Proof.
  intros TB NE Bk HX ((SX & SG & Sm) & LA & y & g & Oy & HG & Gr). cbn [fst snd] in SX, SG, Sm.
  destruct (chain_rule m bm n X x G g TB NE Bk HX HG Sm) as (n1 & n2 & D & d & net & E1 & E2 & ND & HD & Out & GD).
  assert (Ot : forall X' x', holds bm X' (net_input_shape n) x' -> outputs m bm n X' (net x')).
  { intros X' x' H'. destruct (Out x' X' H') as (n' & Y & Q). exists n', Y. exact Q. }
  exists n1, n2, D, d, net. do 5 (split; [assumption|]). intros Xc v C.
  destruct (choose_shape (fun i j k w => derivable_pt_lim (fun t => net (Xc t) i j k) 0 w) (net_output_shape n)) as (w & Hw).
  { intros i j k Hin. pose proof (shaped_of_fun m bm G _ (unit_at i j k) SG) as HU.
    destruct (chain_rule m bm n X x _ _ TB NE Bk HX HU Sm) as (_ & _ & _ & d' & net' & _ & _ & _ & _ & Out' & GD').
    eexists. eapply deriv_ext; [|exact (GD' Xc v C)]. intros t. cbv beta. rewrite pairing_unit by exact Hin.
    pose proof (shaped_of_fun m bm X _ (Xc t) SX) as Ht. destruct (Out' _ _ Ht) as (n' & Y & Q).
    assert (Ot' : outputs m bm n (of_fun (net_input_shape n) (Xc t)) (net' (Xc t))) by (exists n', Y; exact Q).
    exact (outputs_fun bm n _ _ _ Ot' (Ot _ _ Ht) i j k Hin). }
  assert (Cw : curve (net_output_shape n) (fun t => net (Xc t)) y w).
  { intros i j k Hin. split; [|exact (Hw i j k Hin)].
    assert (H0 : holds bm X (net_input_shape n) (Xc 0)) by (eapply holds_ext; [|exact HX]; intros a b c Ha; symmetry; exact (proj1 (C a b c Ha))).
    exact (outputs_fun bm n X _ _ (Ot _ _ H0) Oy i j k Hin). }
  rewrite (uniqueness_limite _ _ _ _ (GD Xc v C) (curve_pairing _ _ _ _ g Cw)). exact (Gr _ _ Cw).
Qed.

(** ** Two losses *)
Lemma sum_gradient s (f : N -> N -> N -> R -> R) (d y : N -> N -> N -> R) :
  (forall i j k, in_shape s i j k -> derivable_pt_lim (f i j k) (y i j k) (d i j k)) ->
  gradient s (fun y => Rsum (map (fun '(i, j, k) => f i j k (y i j k)) (cells s))) y d.
Proof.
  intros H X v C. unfold pairing.
  assert (Q : forall c, In c (cells s) -> derivable_pt_lim (fun t => (fun '(i, j, k) => f i j k (X t i j k)) c) 0 ((fun '(i, j, k) => d i j k * v i j k) c)).
  { intros ((i & j) & k) Hc. apply in_cells in Hc. destruct (C i j k Hc) as (E & D). apply (derivable_pt_lim_comp (fun t => X t i j k) (f i j k)); [exact D|].
    cbv beta. rewrite E. exact (H i j k Hc). }
  induction (cells s) as [|c l IH]; cbn [map].
  - apply deriv_const.
  - eapply deriv_ext; [|eapply deriv_eq; [|exact (deriv_plus _ _ _ _ _ (Q c (or_introl eq_refl)) (IH (fun c' H' => Q c' (or_intror H'))))]].
    + intros t. cbv beta. rewrite Rsum_cons. reflexivity.
    + rewrite Rsum_cons. reflexivity.
Qed.

Lemma squared_gradient s target y : looks_at s (squared_error s target) /\ gradient s (squared_error s target) y (fun i j k => y i j k - target i j k).
Proof.
  split.
  - intros z z' E. unfold squared_error. f_equal. apply map_ext_in. intros ((i & j) & k) Hc. apply in_cells in Hc. rewrite (E i j k Hc). reflexivity.
  - apply (sum_gradient s (fun i j k z => (z - target i j k) * (z - target i j k) / 2)). intros i j k _.
    assert (D : derivable_pt_lim (fun z => z - target i j k) (y i j k) 1).
    { eapply deriv_ext; [|eapply deriv_eq; [|exact (deriv_plus _ _ _ _ _ (derivable_pt_lim_id (y i j k)) (deriv_const (- target i j k) (y i j k)))]]; [intros t; unfold id; ring|ring]. }
    eapply deriv_ext; [|eapply deriv_eq; [|exact (deriv_scale (/ 2) _ _ _ (derivable_pt_lim_mult _ _ _ _ _ D D))]]; [intros t; unfold mult_fct; field|cbv beta; lra].
Qed.

Lemma entropy_gradient s target y : (forall i j k, in_shape s i j k -> 0 < y i j k) ->
  looks_at s (cross_entropy s target) /\ gradient s (cross_entropy s target) y (fun i j k => - (target i j k / y i j k)).
Proof.
  intros P. split.
  - intros z z' E. unfold cross_entropy. f_equal. apply map_ext_in. intros ((i & j) & k) Hc. apply in_cells in Hc. rewrite (E i j k Hc). reflexivity.
  - apply (sum_gradient s (fun i j k z => - (target i j k * ln z))). intros i j k Hin. specialize (P i j k Hin).
    eapply deriv_ext; [|eapply deriv_eq; [|exact (deriv_scale (- target i j k) _ _ _ (derivable_pt_lim_ln _ P))]]; [intros t; cbv beta; lra|]. cbv beta. field. lra.
Qed.

(** Behind softmax the cross entropy gradient is output minus target. *)
Lemma softmax_entropy bm (l : sm_layer R) n x target (X Y0 G og : T) :
  sm_ok l -> sm_run_state l = Training -> sm_shape l = mkShape n 1 1 ->
  holds bm X (mkShape n 1 1) x -> shaped Y0 (mkShape n 1 1) -> shaped og (mkShape n 1 1) ->
  Rsum (map (fun i => target i 0%N 0%N) (upto n)) = 1 ->
  holds bm G (mkShape n 1 1) (fun i j k => - (target i j k / softmax_map (mkShape n 1 1) x i j k)) ->
  exists Y l2 og', sm_forward l X Y0 = Done (l, Y, Ok tt) /\ sm_backward bm l X Y G og = Done (l2, og', Ok tt)
    /\ holds bm og' (mkShape n 1 1) (fun i j k => softmax_map (mkShape n 1 1) x i j k - target i j k).
Proof.
  intros O Tr Sh HX SY So St HG. set (p := softmax_map (mkShape n 1 1) x) in *.
  destruct (sm_true_gradient m bm l n x _ X Y0 G og O Tr Sh HX SY HG So) as (Y & l2 & og1 & d & E1 & HY & _ & _ & _). fold p in HY.
  destruct (sm_backward_formula bm l n p _ X Y G og O Tr Sh HY HG So) as (l' & og' & E2 & Ho).
  exists Y, l', og'. split; [exact E1|]. split; [exact E2|].
  assert (Pp : forall i, (i < n)%N -> p i 0%N 0%N <> 0).
  { intros i Hi. unfold p, softmax_map. apply Rgt_not_eq, Rdiv_lt_0_compat; [apply exp_pos|]. apply Rsum_pos; [|intros ((a & b) & c) _; apply exp_pos].
    intros Q. assert (Hc : In (i, 0%N, 0%N) (cells (mkShape n 1 1))) by (apply in_cells; repeat split; cbn; lia). rewrite Q in Hc. destruct Hc. }
  eapply holds_ext; [|exact Ho]. intros i j k Hin. apply column_in in Hin. destruct Hin as (Hi & -> & ->).
  assert (Su : @sum R (R_arith m) (map (fun p0 => fmul (p p0 0%N 0%N) (- (target p0 0%N 0%N / p p0 0%N 0%N))) (upto n)) = -1).
  { rewrite sum_Rsum. replace (-1) with ((-1) * Rsum (map (fun i => target i 0%N 0%N) (upto n))) by (rewrite St; ring). rewrite <- Rsum_scale.
    apply Rsum_ext. intros q Hq. apply in_upto in Hq. cbn. field. exact (Pp q Hq). }
  rewrite Su. cbn. field. exact (Pp i Hi).
Qed.

End Real.
