(** * Turned networks on turned images *)
From Coq Require Import Reals Lra ZifyBool ZifyNat ZifyN.
From Verif Require Import Base Arith Helper Tensor Convolution Network Bincode Serial Spec SpecLayer SpecNet SpecReal SpecTrain SpecChain SpecTurn Loops TensorFacts OpsFacts.
From Verif Require Import ProofsTensor ProofsConv ProofsBackprop ProofsPool Layout LayerFacts BackFacts NetFacts NetRun NetBack ProofsLayer RealArith RealSums RealGrad RealConv ProofsReal ProofsGrad ProofsChain RealLocal.
Ltac Zify.zify_post_hook ::= Z.div_mod_to_equations.
Local Open Scope R_scope.

(** ** Sums and positions *)
Lemma Rsum_rev {A} (f : A -> R) l : Rsum (map f (rev l)) = Rsum (map f l).
Proof. induction l as [|a l IH]; [reflexivity|]. cbn [rev map]. rewrite map_app, Rsum_app, IH, Rsum_cons. cbn [map Rsum fold_right]. ring. Qed.

Lemma rev_upto n : rev (upto n) = map (fun i => (n - 1 - i)%N) (upto n).
Proof.
  unfold upto. rewrite map_map, <- map_rev. set (q := N.to_nat n). replace n with (N.of_nat q) by lia. clearbody q.
  apply nth_ext with (d := 0%N) (d' := 0%N); [rewrite !map_length, rev_length; reflexivity|]. intros i Hi.
  rewrite map_length, rev_length, seq_length in Hi.
  rewrite (nth_indep _ _ (N.of_nat 0)) by (rewrite map_length, rev_length, seq_length; exact Hi). rewrite map_nth, rev_nth, seq_length, seq_nth by (rewrite ?seq_length; lia).
  rewrite (nth_indep (map _ _) 0%N ((fun x => (N.of_nat q - 1 - N.of_nat x)%N) 0%nat)) by (rewrite map_length, seq_length; exact Hi).
  rewrite (map_nth (fun x => (N.of_nat q - 1 - N.of_nat x)%N)), seq_nth by exact Hi. lia.
Qed.

Lemma Rsum_flip f n : Rsum (map (fun i => f (n - 1 - i)%N) (upto n)) = Rsum (map f (upto n)).
Proof. rewrite <- (Rsum_rev f), rev_upto, map_map. reflexivity. Qed.

Lemma turn_sum v s (f : N * N * N -> R) :
  Rsum (map f (cells (turn v s))) = Rsum (map (fun '(i, j, k) => f (fst (goes v s i j), snd (goes v s i j), k)) (cells s)).
Proof.
  rewrite !Rsum_cells. destruct v; cbn [turn goes fst snd di dj dk].
  - apply Rsum_ext. intros k _. apply Rsum_swap.
  - apply Rsum_ext. intros k _. apply Rsum_ext. intros j _. symmetry. apply (Rsum_flip (fun i => f (i, j, k))).
  - apply Rsum_ext. intros k _. symmetry. apply (Rsum_flip (fun j => Rsum (map (fun i => f (i, j, k)) (upto (di s))))).
Qed.

Lemma goes_in v s i j k : in_shape s i j k -> in_shape (turn v s) (fst (goes v s i j)) (snd (goes v s i j)) k.
Proof. intros (Hi & Hj & Hk). destruct v; cbn; repeat split; cbn; lia. Qed.

Lemma turned_at {A} v s (x x' : N -> N -> N -> A) i j k : turned v s x x' -> in_shape s i j k -> x' (fst (goes v s i j)) (snd (goes v s i j)) k = x i j k.
Proof. intros H Hin. specialize (H i j k Hin). destruct (goes v s i j). exact H. Qed.

Lemma to_turned {A} v s (x x' : N -> N -> N -> A) :
  (forall i j k, in_shape s i j k -> x' (fst (goes v s i j)) (snd (goes v s i j)) k = x i j k) -> turned v s x x'.
Proof. intros H i j k Hin. specialize (H i j k Hin). destruct (goes v s i j). exact H. Qed.

(** Windows go to windows because they fill the image exactly. *)
Lemma goes_window v ins ks stride outs i j a e :
  tiles (di ins) (di ks) stride (di outs) -> tiles (dj ins) (dj ks) stride (dj outs) ->
  (i < di outs)%N -> (j < dj outs)%N -> (a < di ks)%N -> (e < dj ks)%N ->
  goes v ins (i * stride + a) (j * stride + e)
  = ((fst (goes v outs i j) * stride + fst (goes v ks a e))%N, (snd (goes v outs i j) * stride + snd (goes v ks a e))%N).
Proof.
  intros Ti Tj Hi Hj Ha He.
  assert (A : forall m q n x c, tiles m q stride n -> (x < n)%N -> (c < q)%N -> (m - 1 - (x * stride + c) = (n - 1 - x) * stride + (q - 1 - c))%N).
  { clear. intros m q n x c (S0 & Lq & Md & En) Hx Hc. assert (E : (m - q = (m - q) / stride * stride)%N) by (pose proof (N.div_mod (m - q) stride S0); lia).
    set (d := ((m - q) / stride)%N) in *. clearbody d. subst n. assert (x <= d)%N by lia. assert (m = q + d * stride)%N by lia. subst m. clear E Md Lq.
    replace (d + 1 - 1 - x)%N with (d - x)%N by lia. rewrite N.mul_sub_distr_r. assert (x * stride <= d * stride)%N by (apply N.mul_le_mono_r; lia). lia. }
  destruct v; cbn [goes fst snd]; [reflexivity| |]; f_equal; eapply A; eassumption.
Qed.

Lemma tiles_turn v ins ks stride outs : tiles (di ins) (di ks) stride (di outs) -> tiles (dj ins) (dj ks) stride (dj outs) ->
  tiles (di (turn v ins)) (di (turn v ks)) stride (di (turn v outs)) /\ tiles (dj (turn v ins)) (dj (turn v ks)) stride (dj (turn v outs)).
Proof. intros A B. destruct v; cbn; auto. Qed.

Lemma window_inside ins ks stride outs i j k a e c :
  tiles (di ins) (di ks) stride (di outs) -> tiles (dj ins) (dj ks) stride (dj outs) -> in_shape outs i j k -> (a < di ks)%N -> (e < dj ks)%N -> (c < dk ins)%N ->
  in_shape ins (i * stride + a) (j * stride + e) c.
Proof.
  intros Ti Tj (Hi & Hj & _) Ha He Hc.
  assert (A : forall m q n x c, tiles m q stride n -> (x < n)%N -> (c < q)%N -> (x * stride + c < m)%N).
  { clear. intros m q n x c (S0 & Lq & Md & ->) Hx Hc. assert (x * stride <= (m - q) / stride * stride)%N by (apply N.mul_le_mono_r; lia).
    pose proof (N.mul_div_le (m - q) stride S0). lia. }
  repeat split; [eapply A; eassumption|eapply A; eassumption|exact Hc].
Qed.

(** ** Layers as functions *)
Lemma conv_turned v ins ks stride outs h h' b b' x x' :
  (forall k, (k < dk outs)%N -> conv_ok ins ks stride outs k) -> (forall k, (k < dk outs)%N -> turned v ks (h k) (h' k) /\ b' k = b k) -> turned v ins x x' ->
  turned v outs (conv_map ks stride h b x) (conv_map (turn v ks) stride h' b' x').
Proof.
  intros P Hh Hx. apply to_turned. intros i j k Hin. pose proof Hin as (Hi & Hj & Hk). destruct (Hh k Hk) as (Hk' & Eb).
  destruct (P k Hk) as (D & Ti & Tj & _). unfold conv_map, conv_pre, conv_linear. rewrite Eb. f_equal. f_equal. rewrite turn_sum. apply Rsum_ext.
  intros ((a & e) & c) Hc. apply in_cells in Hc. pose proof Hc as (Ha & He & Hc'). rewrite (turned_at v ks _ _ a e c Hk' Hc). f_equal.
  pose proof (goes_window v ins ks stride outs i j a e Ti Tj Hi Hj Ha He) as W.
  rewrite <- (turned_at v ins x x' (i * stride + a) (j * stride + e) c Hx) by (eapply window_inside; try eassumption; rewrite D; exact Hc').
  rewrite W. reflexivity.
Qed.

Lemma fold_max_same low l l' : (forall z, In z l <-> In z l') -> fold_right Rmax low l = fold_right Rmax low l'.
Proof.
  assert (U : forall l l', (forall z, In z l -> In z l') -> fold_right Rmax low l <= fold_right Rmax low l').
  { induction l0 as [|a l0 IH]; intros l1 H.
    - cbn. clear. induction l1 as [|b l1 IH]; cbn; [lra|]. eapply Rle_trans; [exact IH|apply Rmax_r].
    - cbn [fold_right]. apply Rmax_lub; [|apply IH; intros; apply H; right; assumption]. specialize (H a (or_introl eq_refl)). clear - H.
      induction l1 as [|b l1 IH]; [destruct H|]. destruct H as [->|H]; cbn [fold_right]; [apply Rmax_l|]. eapply Rle_trans; [apply IH; exact H|apply Rmax_r]. }
  intros H. apply Rle_antisym; apply U; intros z; apply H.
Qed.

Lemma goes_back v s i' j' k : in_shape (turn v s) i' j' k -> exists i j, in_shape s i j k /\ goes v s i j = (i', j').
Proof.
  intros (Hi & Hj & Hk). destruct v; cbn in *.
  - exists j', i'. repeat split; cbn; lia.
  - exists (di s - 1 - i')%N, j'. repeat split; cbn; try lia. f_equal. lia.
  - exists i', (dj s - 1 - j')%N. repeat split; cbn; try lia. f_equal. lia.
Qed.

Lemma pool_turned low v ins mask stride outs x x' : pool_ok ins mask stride outs -> turned v ins x x' ->
  turned v outs (pool_map low mask stride x) (pool_map low (turn v mask) stride x').
Proof.
  intros (D & Ti & Tj) Hx. apply to_turned. intros i j k Hin. pose proof Hin as (Hi & Hj & Hk). unfold pool_map. apply fold_max_same. intros z.
  unfold window_values. rewrite !in_map_iff.
  assert (V : forall a e, (a < di mask)%N -> (e < dj mask)%N ->
    x' (fst (goes v outs i j) * stride + fst (goes v mask a e))%N (snd (goes v outs i j) * stride + snd (goes v mask a e))%N k = x (i * stride + a)%N (j * stride + e)%N k).
  { intros a e Ha He. pose proof (goes_window v ins mask stride outs i j a e Ti Tj Hi Hj Ha He) as W.
    rewrite <- (turned_at v ins x x' (i * stride + a) (j * stride + e) k Hx) by (eapply window_inside; try eassumption; rewrite <- D; exact Hk).
    rewrite W. reflexivity. }
  split.
  - intros (((p & q) & c) & Ez & Hp). apply in_window in Hp. destruct Hp as (a' & e' & Ha & He & -> & -> & ->).
    destruct (goes_back v (mkShape (di mask) (dj mask) 1) a' e' 0) as (a & e & (Ha' & He' & _) & G).
    { destruct v; cbn in *; repeat split; cbn; lia. }
    exists ((i * stride + a)%N, (j * stride + e)%N, k). split.
    + rewrite <- (V a e Ha' He'). assert (G' : goes v mask a e = (a', e')) by (rewrite <- G; destruct v; reflexivity). rewrite G'. exact Ez.
    + apply in_window. exists a, e. auto.
  - intros (((p & q) & c) & Ez & Hp). apply in_window in Hp. destruct Hp as (a & e & Ha & He & -> & -> & ->).
    eexists (_, _, k). split; [rewrite <- Ez; apply (V a e Ha He)|]. apply in_window. eexists _, _. split; [|split; [|auto]].
    + destruct v; cbn; lia.
    + destruct v; cbn; lia.
Qed.

Lemma softmax_turned v s x x' : turned v s x x' -> turned v s (softmax_map s x) (softmax_map (turn v s) x').
Proof.
  intros Hx. apply to_turned. intros i j k Hin. unfold softmax_map. rewrite (turned_at v s x x' i j k Hx Hin). f_equal. rewrite turn_sum. apply Rsum_ext.
  intros ((a & e) & c) Hc. apply in_cells in Hc. rewrite (turned_at v s x x' a e c Hx Hc). reflexivity.
Qed.

(** ** Turning functions, and pairings *)
Definition pull {A} (v : turning) (s : shape) (x : N -> N -> N -> A) : N -> N -> N -> A :=
  fun i j k => x (fst (goes v (turn v s) i j)) (snd (goes v (turn v s) i j)) k.

Lemma pull_turned {A} v s (x : N -> N -> N -> A) : turned v s x (pull v s x).
Proof.
  apply to_turned. intros i j k (Hi & Hj & Hk). unfold pull. destruct v; cbn [goes turn fst snd]; [reflexivity| |].
  - replace (di s - 1 - (di s - 1 - i))%N with i by lia. reflexivity.
  - replace (dj s - 1 - (dj s - 1 - j))%N with j by lia. reflexivity.
Qed.

Lemma pairing_turned v s f f' h h' : turned v s f f' -> turned v s h h' -> pairing (turn v s) f' h' = pairing s f h.
Proof.
  intros Hf Hh. unfold pairing. rewrite turn_sum. apply Rsum_ext. intros ((i & j) & k) Hin. apply in_cells in Hin.
  rewrite (turned_at v s _ _ i j k Hf Hin), (turned_at v s _ _ i j k Hh Hin). reflexivity.
Qed.

Lemma gradient_unique s phi x d d' : gradient s phi x d -> gradient s phi x d' -> forall i j k, in_shape s i j k -> d i j k = d' i j k.
Proof.
  intros G G' i j k Hin. set (e := fun a b c => if (N.eqb a i && N.eqb b j && N.eqb c k)%bool then 1 else 0).
  assert (P : forall u, pairing s u e = u i j k).
  { intros u. unfold pairing. rewrite (Rsum_single _ _ (i, j, k)).
    - unfold e. rewrite !N.eqb_refl. cbn. ring.
    - apply NoDup_cells.
    - apply in_cells. exact Hin.
    - intros ((a & b) & c) _ Ne. unfold e. destruct (N.eqb_spec a i), (N.eqb_spec b j), (N.eqb_spec c k); cbn; try ring. subst. congruence. }
  assert (C : curve s (fun t a b c => x a b c + t * e a b c) x e).
  { intros a b c _. split; [ring|]. intros q Hq. exists (mkposreal 1 Rlt_0_1). intros h Nh _.
    match goal with |- Rabs ?z < _ => replace z with 0 by (field; exact Nh) end. rewrite Rabs_R0. exact Hq. }
  rewrite <- (P d), <- (P d'). eapply uniqueness_limite; [apply (G _ _ C)|apply (G' _ _ C)].
Qed.

Section Real.
Context (m : R).
#[local] Hint Extern 0 (Arith R) => exact (R_arith m) : typeclass_instances.
Notation T := (tensor R).

Lemma turned_val bm v (t t' : T) : turned_tensor bm v t t' -> tshape t' = turn v (tshape t) /\ turned v (tshape t) (val t) (val t').
Proof.
  intros (f & f' & Hf & Hf' & H). pose proof (holds_shaped _ _ _ _ Hf) as S. pose proof (holds_shaped _ _ _ _ Hf') as S'. split; [apply S'|].
  apply to_turned. intros i j k Hin. rewrite (holds_fun bm _ _ _ _ (shaped_holds bm _ _ S') Hf' _ _ _ (goes_in v _ i j k Hin)).
  rewrite (holds_fun bm _ _ _ _ (shaped_holds bm _ _ S) Hf i j k Hin). apply turned_at; assumption.
Qed.

Lemma layer_turned bm v (p p' : params R) (X Y : T) x x' : turned_layer bm v p p' -> computes bm p X Y -> turned v (pin p) x x' ->
  pin p' = turn v (pin p) /\ pout p' = turn v (pout p) /\ turned v (pout p) (layer_map m p x) (layer_map m p' x').
Proof.
  intros Hp C Hx. destruct C as [weights bias M n w b X x0 Y Hw Hb Hx0 Hy|kernels biases stride ins outs ks h bv X x0 Y Hk Ek Lb Hb P Hx0 Hy
    |ins mask outs stride X x0 Y P Hx0 Hy|s X x0 Y Hx0 Hy]; destruct p' as [|kernels' biases' stride' ins' outs'|ins' mask' outs' stride'|s']; try exact (False_ind _ Hp);
    cbn [turned_layer pin pout layer_map] in *.
  - destruct Hp as (-> & -> & -> & -> & Kt). split; [reflexivity|]. split; [reflexivity|].
    destruct (N.eq_0_gt_0_cases (dk outs)) as [Z|Z]; [intros i j k (_ & _ & Hk'); lia|].
    destruct (conv_params_read m bm _ _ _ _ _ _ Hk Ek Lb Hb 0%N Z) as (S0 & _ & _).
    assert (N' : forall k, (k < dk outs)%N -> exists t t', nth (N.to_nat k) kernels (no_tensor m) = t /\ nth (N.to_nat k) kernels' (no_tensor m) = t'
      /\ tshape t = ks /\ turned_tensor bm v t t').
    { intros k Lk. destruct (nth_error kernels (N.to_nat k)) as [t|] eqn:E; [|apply nth_error_None in E; unfold len in Ek; lia].
      assert (Q : exists t', nth_error kernels' (N.to_nat k) = Some t' /\ turned_tensor bm v t t').
      { clear - Kt E. revert E. generalize (N.to_nat k). induction Kt as [|a b l l' Hab Kt IH]; intros [|q] E; try discriminate; [injection E as <-; exists b; split; [reflexivity|exact Hab]|]. apply IH. exact E. }
      destruct Q as (t' & E' & Tt). exists t, t'. split; [exact (nth_error_nth _ _ _ E)|]. split; [exact (nth_error_nth _ _ _ E')|]. split; [|exact Tt].
      apply (holds_shaped _ _ _ _ (Hk k t E)). }
    assert (S0' : tshape (nth 0 kernels' (no_tensor m)) = turn v ks).
    { destruct (N' 0%N Z) as (t & t' & _ & Q1 & Q2 & Tt). change (N.to_nat 0) with 0%nat in Q1. rewrite Q1, <- Q2. apply (turned_val bm v t t' Tt). }
    rewrite S0, S0'. apply (conv_turned v ins ks stride outs); [exact P| |exact Hx]. intros k Lk. split; [|reflexivity].
    destruct (N' k Lk) as (t & t' & -> & -> & <- & Tt). apply (turned_val bm v t t' Tt).
  - destruct Hp as (-> & -> & -> & ->). split; [reflexivity|]. split; [reflexivity|]. apply (pool_turned m v ins); assumption.
  - subst s'. split; [reflexivity|]. split; [reflexivity|]. apply softmax_turned. exact Hx.
Qed.

Lemma net_turned bm v : forall (ls ls' : list (layer R)) s (X Y : T) x x', Forall2 (turned_layer bm v) (map params_of ls) (map params_of ls') -> linked s ls ->
  composes bm (map params_of ls) X Y -> turned v s x x' ->
  last (map get_output_shape ls') (turn v s) = turn v (last (map get_output_shape ls) s)
  /\ turned v (last (map get_output_shape ls) s) (net_map m (map params_of ls) x) (net_map m (map params_of ls') x').
Proof.
  induction ls as [|l ls IH]; intros [|l' ls'] s X Y x x' Tw Hl C Hx; cbn [map] in Tw; inversion Tw as [|? ? ? ? Tl Tw']; subst.
  - split; [reflexivity|exact Hx].
  - cbn [linked] in Hl. destruct Hl as (Es & Hl). subst. cbn [map composes] in C. destruct C as (Z & C1 & C2).
    rewrite <- pin_params in Hx. destruct (layer_turned bm v _ _ X Z x x' Tl C1 Hx) as (Pi & Po & Ht). rewrite !pout_params in *.
    destruct (IH ls' _ Z Y _ _ Tw' Hl C2 Ht) as (B1 & B2).
    assert (E : forall (l : layer R) ls s, last (map get_output_shape (l :: ls)) s = last (map get_output_shape ls) (get_output_shape l)).
    { intros q qs s. destruct qs as [|l1 qs']; [reflexivity|]. cbn [map]. apply (last_shift _ s _ _ (fun q => q = _)). reflexivity. }
    rewrite !E, Po. split; [exact B1|exact B2].
Qed.

Lemma input_turned bm v n n' (X Y : T) (x x' : N -> N -> N -> R) : net_ok n -> net_ok n' -> layers n <> [] -> composes bm (map params_of (layers n)) X Y ->
  Forall2 (turned_layer bm v) (map params_of (layers n)) (map params_of (layers n')) -> turned v (net_input_shape n) x x' ->
  net_input_shape n' = turn v (net_input_shape n).
Proof.
  intros ((H1 & _) & _) ((H1' & _) & _) NE C Tw Hx.
  destruct (layers n) as [|l ls] eqn:El; [congruence|]. destruct (layers n') as [|l' ls'] eqn:El'; cbn [map] in Tw; inversion Tw as [|? ? ? ? Tl _]; subst.
  cbn [linked] in H1, H1'. destruct H1 as (S1 & _), H1' as (S1' & _). rewrite <- S1, <- S1', <- !pin_params. cbn [map composes] in C. destruct C as (Z & C1 & _).
  apply (layer_turned bm v _ _ X Z x x' Tl C1). rewrite pin_params, S1. exact Hx.
Qed.

(** C100 *)
Lemma turned_networks {BT : Bits R} bm v n n' (X X' : T) x x' :
  well_built bm n -> well_built bm n' -> layers n <> [] -> Forall2 (turned_layer bm v) (map params_of (layers n)) (map params_of (layers n')) ->
  holds bm X (net_input_shape n) x -> holds bm X' (turn v (net_input_shape n)) x' -> turned v (net_input_shape n) x x' ->
  exists n1 n1' Y Y' y y', infer bm n X = Done (n1, Ok tt) /\ infer bm n' X' = Done (n1', Ok tt)
    /\ get_output n1 = Done (Ok Y) /\ get_output n1' = Done (Ok Y')
    /\ holds bm Y (net_output_shape n) y /\ holds bm Y' (turn v (net_output_shape n)) y' /\ turned v (net_output_shape n) y y'.
Proof.
  intros W W' NE Tw HX HX' Hx. pose proof (built_ok bm n (relu_agrees_R m) W) as Ok. pose proof (built_ok bm n' (relu_agrees_R m) W') as Ok'.
  pose proof Ok as ((H1 & H2 & H3 & H4) & _). pose proof Ok' as ((H1' & H2' & H3' & H4') & _).
  assert (NE' : layers n' <> []) by (intros Q; rewrite Q in Tw; inversion Tw as [E|]; destruct (layers n); [congruence|discriminate]).
  pose proof (holds_shaped _ _ _ _ HX) as SX. pose proof (holds_shaped _ _ _ _ HX') as SX'.
  destruct (infer_ok bm n X (relu_agrees_R m) Ok NE (proj1 SX) (proj2 SX)) as (n1 & Y & E1 & _ & _ & EY & C).
  destruct (net_turned bm v (layers n) (layers n') _ X Y x x' Tw H1 C Hx) as (So & Ht).
  pose proof (input_turned bm v n n' X Y x x' Ok Ok' NE C Tw Hx) as Ei.
  destruct (infer_ok bm n' X' (relu_agrees_R m) Ok' NE' (proj1 SX') ltac:(rewrite Ei; apply SX')) as (n1' & Y' & E1' & _ & _ & EY' & C').
  rewrite <- Ei in HX'. rewrite <- Ei in So.
  pose proof (composes_map m bm (layers n) _ X Y x H1 C HX) as HY. pose proof (composes_map m bm (layers n') _ X' Y' x' H1' C' HX') as HY'.
  rewrite So in HY'. rewrite (last_out _ _ (mkShape 0 0 0) NE), <- H3 in HY, HY', Ht.
  eexists n1, n1', Y, Y', _, _. split; [exact E1|]. split; [exact E1'|]. split; [exact EY|]. split; [exact EY'|]. split; [exact HY|]. split; [exact HY'|exact Ht].
Qed.

(** C100, gradients *)
Lemma turned_gradients {BT : Bits R} bm v n n' (X X' G G' : T) x x' g g' :
  training_built bm n -> training_built bm n' -> layers n <> [] -> Forall2 (turned_layer bm v) (map params_of (layers n)) (map params_of (layers n')) ->
  Forall backs_exactly (layers n) -> Forall backs_exactly (layers n') ->
  smooth m bm (map params_of (layers n)) X -> smooth m bm (map params_of (layers n')) X' ->
  holds bm X (net_input_shape n) x -> holds bm X' (turn v (net_input_shape n)) x' -> turned v (net_input_shape n) x x' ->
  holds bm G (net_output_shape n) g -> holds bm G' (turn v (net_output_shape n)) g' -> turned v (net_output_shape n) g g' ->
  exists n1 n1' n2 n2' D D' d d', infer bm n X = Done (n1, Ok tt) /\ infer bm n' X' = Done (n1', Ok tt)
    /\ net_backward bm n1 G = Done (n2, Ok tt) /\ net_backward bm n1' G' = Done (n2', Ok tt)
    /\ nth_error (intermediate_gradients n2) 0 = Some D /\ nth_error (intermediate_gradients n2') 0 = Some D'
    /\ holds bm D (net_input_shape n) d /\ holds bm D' (turn v (net_input_shape n)) d' /\ turned v (net_input_shape n) d d'.
Proof.
  intros W W' NE Tw Bk Bk' Sm Sm' HX HX' Hx HG HG' Hg.
  pose proof (built_ok bm n (relu_agrees_R m) (training_built_well bm n W)) as Ok. pose proof (built_ok bm n' (relu_agrees_R m) (training_built_well bm n' W')) as Ok'.
  pose proof Ok as ((H1 & H2 & H3 & H4) & _). pose proof Ok' as ((H1' & H2' & H3' & H4') & _).
  assert (NE' : layers n' <> []) by (intros Q; rewrite Q in Tw; inversion Tw as [E|]; destruct (layers n); [congruence|discriminate]).
  pose proof (holds_shaped _ _ _ _ HX) as SX.
  destruct (infer_ok bm n X (relu_agrees_R m) Ok NE (proj1 SX) (proj2 SX)) as (_ & Y & _ & _ & _ & _ & C).
  pose proof (input_turned bm v n n' X Y x x' Ok Ok' NE C Tw Hx) as Ei.
  assert (Eo : net_output_shape n' = turn v (net_output_shape n)).
  { destruct (net_turned bm v (layers n) (layers n') _ X Y x x' Tw H1 C Hx) as (So & _). rewrite H3, H3'.
    rewrite <- (last_out _ (net_input_shape n) _ NE), <- (last_out _ (turn v (net_input_shape n)) _ NE'). exact So. }
  destruct (net_chain m bm n X x G g Ok (training_built_in bm n (relu_agrees_R m) W) NE Bk HX HG Sm) as (n1 & n2 & D & d & E1 & E2 & ND & HD & _ & Gr & _).
  destruct (net_chain m bm n' X' x' G' g' Ok' (training_built_in bm n' (relu_agrees_R m) W') NE' Bk' ltac:(rewrite Ei; exact HX') ltac:(rewrite Eo; exact HG') Sm')
    as (n1' & n2' & D' & d' & E1' & E2' & ND' & HD' & _ & Gr' & _).
  exists n1, n1', n2, n2', D, D', d, d'. do 6 (split; [assumption|]). split; [exact HD|]. split; [rewrite <- Ei; exact HD'|].
  set (s := net_input_shape n) in *. rewrite Ei, Eo in Gr'.
  apply to_turned. apply (gradient_unique s (fun x' => pairing (net_output_shape n) g (net_map m (map params_of (layers n)) x')) x); [|exact Gr].
  intros Xc u Cu.
  assert (E : forall z, pairing (turn v (net_output_shape n)) g' (net_map m (map params_of (layers n')) (pull v s z)) = pairing (net_output_shape n) g (net_map m (map params_of (layers n)) z)).
  { intros z. apply pairing_turned; [exact Hg|].
    destruct (net_turned bm v (layers n) (layers n') _ X Y z (pull v s z) Tw H1 C (pull_turned v s z)) as (_ & Ht).
    rewrite (last_out _ _ (mkShape 0 0 0) NE), <- H3 in Ht. exact Ht. }
  assert (P : pairing (turn v s) d' (pull v s u) = pairing s (fun i j k => d' (fst (goes v s i j)) (snd (goes v s i j)) k) u).
  { apply pairing_turned; [|apply pull_turned]. apply to_turned. reflexivity. }
  rewrite <- P.
  apply (deriv_near (fun t => pairing (turn v (net_output_shape n)) g' (net_map m (map params_of (layers n')) (pull v s (Xc t)))) _ 0 _ 1 Rlt_0_1); [intros t _; apply E|].
  apply (Gr' (fun t => pull v s (Xc t))). intros i' j' k Hin'. destruct (goes_back v s i' j' k Hin') as (i & j & Hin & Gi).
  destruct (Cu i j k Hin) as (C0 & CD).
  assert (Q : forall z : N -> N -> N -> R, pull v s z i' j' k = z i j k) by (intros z; pose proof (turned_at v s z _ i j k (pull_turned v s z) Hin) as Q; rewrite Gi in Q; exact Q).
  split.
  - rewrite Q, C0. pose proof (turned_at v s x x' i j k Hx Hin) as Q'. rewrite Gi in Q'. symmetry. exact Q'.
  - rewrite Q. apply (deriv_near (fun t => Xc t i j k) _ 0 _ 1 Rlt_0_1); [intros t _; rewrite Q; reflexivity|exact CD].
Qed.

End Real.
