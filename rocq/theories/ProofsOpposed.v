(** * C97: two training runs whose gradients are related value by value *)
From Coq Require Import ZifyBool ZifyNat ZifyN.
From Verif Require Import Base Arith Helper Tensor Convolution Network Bincode Serial Spec SpecOps SpecLayer SpecNet Loops TensorFacts OpsFacts.
From Verif Require Import ProofsTensor ProofsConv ProofsOutgoing Layout ProofsPool LayerFacts BackFacts NetFacts NetRun NetBack ProofsResume SpecOpposed.
Ltac Zify.zify_post_hook ::= Z.div_mod_to_equations.

Section Related.
Context {F : Type} {AR : Arith F} {BT : Bits F}.
Notation T := (tensor F).
Context (rel : F -> F -> Prop) (R0 : rel fzero fzero)
  (RA : forall x x' y y', rel x x' -> rel y y' -> rel (fadd x y) (fadd x' y'))
  (RM : forall c x x', rel x x' -> rel (fmul c x) (fmul c x') /\ rel (fmul x c) (fmul x' c)).

Lemma fold_rel l l' : Forall2 rel l l' -> forall x x', rel x x' -> rel (fold_left fadd l x) (fold_left fadd l' x').
Proof. induction 1 as [|a b l l' H _ IH]; intros x x' Hx; cbn [fold_left]; [exact Hx|]. apply IH, RA; assumption. Qed.

Lemma sum_rel l l' : Forall2 rel l l' -> rel (sum l) (sum l').
Proof. intros H. apply fold_rel; [exact H|exact R0]. Qed.

Lemma Forall2_map {A} (f g : A -> F) l : (forall x, In x l -> rel (f x) (g x)) -> Forall2 rel (map f l) (map g l).
Proof. induction l as [|a l IH]; intros H; cbn [map]; constructor; [apply H; left; reflexivity|apply IH; intros; apply H; right; assumption]. Qed.

Lemma Forall2_flat_map {A} (f g : A -> list F) l : (forall x, In x l -> Forall2 rel (f x) (g x)) -> Forall2 rel (flat_map f l) (flat_map g l).
Proof. induction l as [|a l IH]; intros H; cbn [flat_map]; [constructor|]. apply Forall2_app; [apply H; left; reflexivity|apply IH; intros; apply H; right; assumption]. Qed.

Definition rfun (s : shape) (f f' : N -> N -> N -> F) : Prop := forall i j k, in_shape s i j k -> rel (f i j k) (f' i j k).

Lemma related_of bm s (t t' : T) : shaped t s -> shaped t' s -> rfun s (val t) (val t') -> related rel bm t t'.
Proof. intros H H' Q. exists s, (val t), (val t'). split; [apply shaped_holds, H|]. split; [apply shaped_holds, H'|exact Q]. Qed.

Lemma related_to bm s (t t' : T) : related rel bm t t' -> shaped t s -> shaped t' s /\ rfun s (val t) (val t').
Proof.
  intros (s' & f & f' & H & H' & Q) St. assert (s' = s) by (rewrite <- (proj2 St); symmetry; exact (proj2 (holds_shaped _ _ _ _ H))). subst s'.
  pose proof (holds_shaped _ _ _ _ H') as St'. split; [exact St'|]. intros i j k Hin.
  rewrite (holds_fun bm _ _ _ _ (shaped_holds bm _ _ St) H i j k Hin), (holds_fun bm _ _ _ _ (shaped_holds bm _ _ St') H' i j k Hin). apply Q, Hin.
Qed.

(** After a forward pass: the same cells are masked and the same cells were picked. *)
Definition tight bm (l l' : layer F) : Prop :=
  layer_related rel bm l l' /\ match l, l' with
  | LFC f, LFC f' => fc_relu_mask f' = fc_relu_mask f
  | LMaxPool p, LMaxPool p' => mp_origin p' = mp_origin p
  | _, _ => True
  end.

(** ** One layer forward *)
Lemma forward_related bm l l' (X Y0 Y0' : T) :
  layer_ok l -> layer_ok l' -> layer_related rel bm l l' -> get_run_mode l = Training -> shaped X (get_input_shape l) ->
  shaped Y0 (get_output_shape l) -> shaped Y0' (get_output_shape l) ->
  exists q q' Y, forward bm l X Y0 = Done (q, Y, Ok tt) /\ forward bm l' X Y0' = Done (q', Y, Ok tt) /\ tight bm q q'.
Proof.
  intros Ol Ol' (P & Nm & Md & G) M Hx Hy Hy'. pose proof (shaped_eq _ _ Hx) as (Ax & Ex). pose proof (shaped_eq _ _ Hy) as (Ay & Ey). pose proof (shaped_eq _ _ Hy') as (_ & Ey').
  destruct l as [l|l|l|l], l' as [l'|l'|l'|l']; try discriminate P; cbn [layer_ok get_input_shape get_output_shape forward get_run_mode get_name params_of] in *.
  - destruct Ol as (ks & Ak & Hk & Ek & Lb & Hb & Ai & Ao & C & Ht). destruct Ol' as (ks' & _ & _ & _ & _ & _ & _ & _ & _ & Ht').
    rewrite M in Md. injection P as P1 P2 P3 P4 P5. destruct (Ht M) as (T1 & _ & _). destruct (Ht' Md) as (T1' & _ & _). rewrite P5 in T1'.
    unfold cv_forward. rewrite M, Md, P1, P2, P3, P5, !Nrange_upto, Ex, Ey, Ey'. rewrite !(conv_channels_plain bm _ _ _ _ _ ks) by first [assumption|lia]. cbn [bind].
    pose proof (shaped_eq _ _ T1) as (Am & Em). pose proof (shaped_eq _ _ T1') as (_ & Em'). rewrite Em, Em'.
    match goal with |- context [relu_self_and_store_mask (of_fun ?s ?f)] => match goal with |- context [relu_self_and_store_mask (of_fun s ?g)] =>
      tryif constr_eq f g then fail else replace (of_fun s g) with (of_fun s f) end end.
    2: { apply of_fun_ext. intros i j k (_ & _ & Hd). replace (k <? dk (cv_output_shape l)) with true by lia. reflexivity. }
    rewrite !relu_mask_of_fun. cbn [bind lift3]. do 3 eexists. split; [reflexivity|]. split; [reflexivity|]. split; [|exact I].
    split; [cbn; congruence|]. split; [exact Nm|]. split; [cbn; congruence|]. exact G.
  - destruct Ol as (m & n & Hw & Hb & Ht). destruct Ol' as (m' & n' & Hw' & Hb' & Ht'). injection P as P1 P2. rewrite P1 in Hw'.
    assert (m' = m /\ n' = n) as (-> & ->). { destruct Hw as (_ & E), Hw' as (_ & E'). rewrite E in E'. injection E' as -> ->. auto. }
    rewrite M in Md. destruct (Ht M) as (_ & _ & _ & T4). destruct (Ht' Md) as (_ & _ & _ & T4').
    unfold fc_input_shape, fc_output_shape, get_shape in *. rewrite (proj2 Hw) in *. rewrite (proj2 Hb) in *. cbn [di dj dk] in *.
    pose proof (shaped_eq _ _ Hw) as (Aw & Ew). pose proof (shaped_eq _ _ Hb) as (Ab & Eb). pose proof (shaped_eq _ _ T4) as (_ & Em). pose proof (shaped_eq _ _ T4') as (_ & Em').
    unfold fc_forward. rewrite M, Md, P1, P2, Ew, Eb, Ex, Ey, Ey'.
    rewrite !matrix_multiply_of_fun by (try assumption; try reflexivity; apply mm_check). cbn [bind]. rewrite !add_to_self_of_fun, Em, Em', !relu_mask_of_fun.
    cbn [bind lift3]. do 3 eexists. split; [reflexivity|]. split; [reflexivity|]. split; [|reflexivity].
    split; [cbn; congruence|]. split; [exact Nm|]. split; [cbn; congruence|]. exact G.
  - destruct Ol as (Ai & A & C & Ht). destruct Ol' as (_ & _ & _ & Ht'). rewrite M in Md. injection P as P1 P2 P3 P4. specialize (Ht M). specialize (Ht' Md).
    rewrite P1, P3 in Ht'.
    assert (K : check_max_pooling_dimensions bm (mp_input_shape l) (mp_mask_shape l) (mp_stride l) (mp_output_shape l) = Done true)
      by (apply check_pool_complete; [apply u32_shape_alloc; exact A|exact C]).
    unfold mp_forward. rewrite M, Md, P2, P4, Ex, Ey, Ey'. rewrite !track_of_fun by (try assumption; apply Ht || apply Ht'). cbn [bind lift3].
    do 3 eexists. split; [reflexivity|]. split; [reflexivity|]. split; [|reflexivity]. split; [cbn; congruence|]. split; [exact Nm|]. split; [cbn; congruence|]. exact I.
  - rewrite M in Md. unfold sm_forward. rewrite Ex, Ey, Ey', !softmax_of_fun. cbn [bind lift3]. do 3 eexists. split; [reflexivity|]. split; [reflexivity|].
    split; [|exact I]. split; [exact P|]. split; [exact Nm|]. split; [cbn; congruence|]. exact I.
Qed.

(** ** One layer backward *)
Lemma backward_related bm l l' (X Y g g' o o' : T) :
  layer_ok l -> layer_ok l' -> stays_inside l -> backs l -> tight bm l l' -> get_run_mode l = Training ->
  shaped X (get_input_shape l) -> shaped Y (get_output_shape l) -> shaped g (get_output_shape l) -> shaped g' (get_output_shape l) ->
  rfun (get_output_shape l) (val g) (val g') -> shaped o (get_input_shape l) -> shaped o' (get_input_shape l) ->
  exists q q' p p', backward bm l X Y g o = Done (q, p, Ok tt) /\ backward bm l' X Y g' o' = Done (q', p', Ok tt)
    /\ shaped p (get_input_shape l) /\ shaped p' (get_input_shape l) /\ rfun (get_input_shape l) (val p) (val p') /\ layer_related rel bm q q'.
Proof.
  intros Ol Ol' NC HB ((P & Nm & Md & G) & K) M Hx Hy S S' Q Ho Ho'.
  assert (V : forall s f, allocatable s -> shaped (of_fun (F := F) s f) s) by (intros; apply shaped_of_fun; assumption).
  assert (HV : forall (p p' : T) s f f', holds bm p s f -> holds bm p' s f' -> rfun s f f' -> rfun s (val p) (val p')).
  { intros p p' s f f' H H' R i j k Hin. rewrite (holds_fun bm _ _ _ _ (shaped_holds bm _ _ (holds_shaped _ _ _ _ H)) H i j k Hin).
    rewrite (holds_fun bm _ _ _ _ (shaped_holds bm _ _ (holds_shaped _ _ _ _ H')) H' i j k Hin). apply R, Hin. }
  destruct l as [l|l|l|l], l' as [l'|l'|l'|l']; try discriminate P; cbn [layer_ok get_input_shape get_output_shape backward get_run_mode get_name backs stays_inside] in *.
  - destruct Ol as (ks & Ak & O). pose proof O as (Hk & Ek & _ & _ & Ai & Ao & C & _). destruct Ol' as (ks' & Ak' & O'). pose proof O' as (Hk' & _ & _).
    pose proof P as P0. cbn [params_of] in P. injection P as P1 P2 P3 P4 P5. rewrite M in Md.
    assert (Oks : conv_layer_ok ks l').
    { destruct (cv_kernels l) as [|k kl] eqn:Z.
      - destruct O' as (_ & A2 & A3 & A4 & A5 & A6 & A7 & A8). destruct O as (B1 & B2 & B3 & B4 & B5 & B6 & B7 & B8). rewrite P1, Z in *. rewrite P2, P3, P4, P5 in *.
        assert (Zk : cv_kernel_gradients l' = []).
        { destruct (A8 Md) as (_ & _ & L). destruct (cv_kernel_gradients l'); [reflexivity|exfalso]. unfold len in *. cbn [length] in *. lia. }
        unfold conv_layer_ok. rewrite P1, P2, P3, P4, P5, Zk. repeat (split; [assumption|]). intros _. destruct (A8 Md) as (? & _ & L).
        split; [assumption|]. split; [constructor|]. rewrite Zk in L. exact L.
      - enough (ks' = ks) by (subst ks'; exact O'). rewrite P1 in Hk'. apply Forall_inv in Hk, Hk'. rewrite <- (proj2 Hk'). exact (proj2 Hk). }
    set (h := fun n => val (nth (N.to_nat n) (cv_kernels l) (of_fun (mkShape 0 0 0) (fun _ _ _ => fzero)))).
    assert (W : forall (c : conv_layer F) gg oo, conv_layer_ok ks c -> cv_run_state c = Training -> cv_kernels c = cv_kernels l -> cv_stride c = cv_stride l ->
        cv_input_shape c = cv_input_shape l -> cv_output_shape c = cv_output_shape l -> shaped gg (cv_output_shape l) -> shaped oo (cv_input_shape l) -> exists og,
      cv_backward bm c X Y gg oo = Done (cv_set_kernel_gradients (cv_set_mask c (multiply_elementwise_self (cv_relu_mask c) gg))
         (repeat (of_fun ks (fun a b d => sum (kgrad_terms (cv_output_shape l) (cv_stride l) (val X) (val gg) a b d))) (length (cv_kernels l))), og, Ok tt)
      /\ holds bm og (cv_input_shape l) (fun a b d => sum (visited_products (cv_output_shape l) (fun _ => ks) (cv_stride l) h (val gg) a b d))).
    { intros c gg oo Oc Mc E1 E3 E4 E5 Hg Hoo. rewrite (cv_backward_values bm ks c X Y gg oo Oc Mc) by (rewrite ?E4, ?E5; assumption). rewrite E1, E3, E5.
      destruct (outgoing_runs bm gg oo (cv_kernels l) (cv_input_shape l) (cv_output_shape l) ks (val gg) h (val oo) (cv_stride l))
        as (og' & E & H); try (apply shaped_holds; assumption); [apply shaped_all_hold; exact Hk|symmetry; exact Ek|exact C| |].
      + intros L0. destruct (cv_kernels l) as [|k kl]; [unfold len in Ek; cbn in Ek; lia|].
        apply Forall_inv in NC, Hk. rewrite <- (proj2 Hk). exact NC.
      + rewrite E. cbn [bind]. exists og'. split; [reflexivity|exact H]. }
    destruct (W l g o O M eq_refl eq_refl eq_refl eq_refl S Ho) as (p & E & H). destruct (W l' g' o' Oks Md P1 P3 P4 P5 S' Ho') as (p' & E' & H').
    rewrite E, E'. cbn [lift3]. do 4 eexists. split; [reflexivity|]. split; [reflexivity|]. split; [exact (holds_shaped _ _ _ _ H)|]. split; [exact (holds_shaped _ _ _ _ H')|]. split.
    + apply (HV _ _ _ _ _ H H'). intros i j k Hin. unfold visited_products. apply sum_rel. apply Forall2_flat_map. intros k' Hk2. apply Forall2_flat_map. intros j' Hj'.
      apply Forall2_map. intros i' Hi'.
      assert (Z : in_shape (cv_output_shape l) i' j' k').
      { unfold visited, covering in Hi', Hj'. apply filter_In in Hi', Hj'. destruct Hi' as (Hi' & _), Hj' as (Hj' & _). apply filter_In in Hi', Hj'.
        destruct Hi' as (Hi' & _), Hj' as (Hj' & _). apply in_upto in Hi', Hj', Hk2. repeat split; assumption. }
      first [apply (RM _ _ _ (Q _ _ _ Z))].
    + split; [exact P0|]. split; [exact Nm|]. split; [cbn; congruence|]. cbn [cv_set_kernel_gradients cv_set_mask cv_kernel_gradients cv_bias_gradients]. split; [|exact (proj2 G)].
      assert (Hp : cv_kernels l <> [] -> allocatable ks).
      { intros NZ. destruct (cv_kernels l) as [|k kl]; [congruence|]. apply Forall_inv in Hk. apply (shaped_eq _ _ Hk). }
      destruct (cv_kernels l) as [|k0 kl]; [constructor|]. specialize (Hp ltac:(discriminate)).
      match goal with |- Forall2 _ (repeat ?a ?m) (repeat ?b _) => assert (Rel : related rel bm a b) end.
      { eapply related_of; try (apply V; exact Hp). intros a b d Hin. rewrite !val_of_fun by exact Hin. unfold kgrad_terms. apply sum_rel, Forall2_map.
        intros ((x & y) & z) Hc. apply in_cells in Hc. apply (RM _ _ _ (Q _ _ _ Hc)). }
      clear - Rel. induction (length (k0 :: kl)) as [|n IH]; cbn [repeat]; constructor; assumption.
  - destruct Ol as (m & n & Ol). pose proof Ol as (Hw & Hb & Ht). destruct (Ht M) as (G1 & G2 & G3 & G4).
    destruct Ol' as (m' & n' & Ol'). pose proof P as P0. cbn [params_of] in P. injection P as P1 P2. rewrite M in Md.
    assert (m' = m /\ n' = n) as (-> & ->). { destruct Ol' as ((_ & E') & _). destruct Hw as (_ & E). rewrite P1, E in E'. injection E' as -> ->. auto. }
    unfold fc_input_shape, fc_output_shape, get_shape in *.
    rewrite (proj2 Hw) in *. rewrite (proj2 Hb) in *. cbn [dj] in *.
    rewrite (fc_backward_values bm l m n X Y g o Ol M Hx S Ho), (fc_backward_values bm l' m n X Y g' o' Ol' Md Hx S' Ho').
    cbn [lift3]. do 4 eexists. split; [reflexivity|]. split; [reflexivity|].
    pose proof (shaped_eq _ _ Ho) as (Ai & _). pose proof (shaped_eq _ _ S) as (Ao & _). pose proof (shaped_eq _ _ Hw) as (Aw & _).
    do 2 (split; [apply V; exact Ai|]).
    assert (Qm : rfun (mkShape m 1 1) (fun i j k => fmul (val (fc_relu_mask l) i j k) (val g i j k)) (fun i j k => fmul (val (fc_relu_mask l') i j k) (val g' i j k))).
    { intros i j k Hin. rewrite K. apply (RM _ _ _ (Q _ _ _ Hin)). }
    split.
    + intros i j k Hin. rewrite !val_of_fun by exact Hin. unfold fc_outgoing, mm_fn. apply sum_rel, Forall2_map. intros q Hq. apply in_upto in Hq.
      destruct Hin as (Hi & Hj & Hkk). cbn [di dj dk] in *. rewrite P1. apply RM. apply Qm. repeat split; assumption.
    + split; [exact P0|]. split; [exact Nm|]. split; [cbn; congruence|]. unfold fc_after; cbn [fc_weights_gradients fc_bias_gradients]. destruct G as (Ga & Gb).
      destruct (related_to bm _ _ _ Ga G1) as (_ & Qa). destruct (related_to bm _ _ _ Gb G3) as (_ & Qb). split; eapply related_of; try (apply V; assumption).
      * intros i j k Hin. rewrite !val_of_fun by exact Hin. apply RA; [apply Qa, Hin|]. unfold mm_fn. apply sum_rel, Forall2_map. intros q Hq. apply in_upto in Hq.
        destruct Hin as (Hi & Hj & Hkk). cbn [di dj dk] in *. refine (proj2 (RM _ _ _ (Qm i q k _))). repeat split; assumption.
      * intros i j k Hin. rewrite !val_of_fun by exact Hin. apply RA; [apply Qb, Hin|]. apply Qm, Hin.
  - rewrite M in Md. pose proof P as P0. cbn [params_of] in P. injection P as P1 P2 P3 P4.
    destruct (mp_backward_values bm l X Y g o Ol M S Ho HB) as (p & E & H).
    destruct (mp_backward_values bm l' X Y g' o' Ol' Md) as (p' & E' & H'); [rewrite P3; exact S'|rewrite P1; exact Ho'|rewrite P1; exact HB|].
    rewrite P1, K in H'. rewrite E, E'. cbn [lift3]. do 4 eexists. split; [reflexivity|]. split; [reflexivity|].
    split; [exact (holds_shaped _ _ _ _ H)|]. split; [exact (holds_shaped _ _ _ _ H')|]. split; [|split; [exact P0|]; split; [exact Nm|]; split; [cbn; congruence|exact I]].
    apply (HV _ _ _ _ _ H H'). intros i j k Hin. apply sum_rel, Forall2_map. intros q Hq. unfold sources in Hq. apply filter_In in Hq. destruct Hq as (Hq & _). apply in_upto in Hq.
    destruct Ol as (_ & _ & _ & Ht). destruct (Ht M) as (Lo & _). rewrite Lo in Hq. destruct (flat_surj _ _ Hq) as (x & y & z & Hin' & <-).
    pose proof (Q _ _ _ Hin') as W. unfold val in W. rewrite (proj2 S), (proj2 S') in W. exact W.
  - rewrite M in Md. pose proof P as P0. cbn [params_of] in P. injection P as P1. destruct HB as (B1 & B2).
    assert (Z : sm_shape l = mkShape (di (sm_shape l)) 1 1) by (destruct (sm_shape l); cbn in *; congruence).
    rewrite Z in *. destruct (sm_backward_values bm l _ X Y g o Ol M Z Hy S Ho) as (q & E).
    destruct (sm_backward_values bm l' _ X Y g' o' Ol' Md P1 Hy S' Ho') as (q' & E').
    assert (Kq : forall c gg oo c' (og : T), sm_backward bm c X Y gg oo = Done (c', og, Ok tt) ->
      sm_shape c' = sm_shape c /\ sm_name c' = sm_name c /\ sm_run_state c' = sm_run_state c).
    { intros c gg oo c' og E0. pose proof (backward_kept bm (LSoftmax c) X Y gg oo og (LSoftmax c') (Ok tt)) as B. cbn [backward] in B. rewrite E0 in B. cbn [lift3 bind] in B.
      destruct (B eq_refl) as (_ & Bp & Bn & Bm & _). cbn [params_of get_name get_run_mode] in *. injection Bp as Bp. auto. }
    destruct (Kq _ _ _ _ _ E) as (K1 & K2 & K3). destruct (Kq _ _ _ _ _ E') as (K1' & K2' & K3').
    rewrite E, E'. cbn [lift3]. do 4 eexists. split; [reflexivity|]. split; [reflexivity|]. pose proof (shaped_eq _ _ Ho) as (Ai & _).
    do 2 (split; [apply V; exact Ai|]). split.
    2: { split; [cbn [params_of]; congruence|]. split; [cbn [get_name]; congruence|]. split; [cbn [get_run_mode]; congruence|exact I]. }
    intros i j k Hin. rewrite !val_of_fun by exact Hin. unfold sm_outgoing. pose proof Hin as (Hi & Hj & Hkk). cbn [di dj dk] in *.
    apply RA; [apply (RM _ _ _ (Q _ _ _ Hin))|]. unfold mm_fn at 1 3. apply sum_rel, Forall2_map. intros a Ha. apply RM. apply (RM fmone).
    unfold mm_fn. apply sum_rel, Forall2_map. intros b Hb. apply in_upto in Hb. apply RM. apply Q. repeat split; assumption.
Qed.

(** ** Pairs of lists *)
Lemma F2_set {A} (P : A -> A -> Prop) l l' n x x' : Forall2 P l l' -> P x x' -> Forall2 P (list_set l n x) (list_set l' n x').
Proof. intros H Hx. revert n. induction H as [|a b l l' Hab H IH]; intros [|n]; cbn; constructor; try assumption. apply IH. Qed.

Lemma F2_nth {A} (P : A -> A -> Prop) l l' i x : Forall2 P l l' -> nth_error l i = Some x -> exists y, nth_error l' i = Some y /\ P x y.
Proof. intros H. revert i. induction H as [|a b l l' Hab H IH]; intros [|i] E; cbn in *; try discriminate; [injection E as <-; eauto|apply IH, E]. Qed.

Lemma F2_of_nth {A} (P : A -> A -> Prop) l l' : length l = length l' -> (forall i x y, nth_error l i = Some x -> nth_error l' i = Some y -> P x y) -> Forall2 P l l'.
Proof.
  revert l'. induction l as [|a l IH]; intros [|b l'] L H; try discriminate; constructor; [apply (H 0%nat); reflexivity|].
  apply IH; [cbn in L; lia|]. intros i x y. apply (H (S i)).
Qed.

Lemma F2_map {A B} (f : A -> B) (P : A -> A -> Prop) l l' : (forall x y, P x y -> f y = f x) -> Forall2 P l l' -> map f l' = map f l.
Proof. intros Hf. induction 1 as [|a b l l' H _ IH]; cbn [map]; [reflexivity|]. rewrite (Hf _ _ H), IH. reflexivity. Qed.

Lemma F2_len {A B} (P : A -> B -> Prop) l l' : Forall2 P l l' -> length l' = length l.
Proof. induction 1; cbn; congruence. Qed.

Lemma related_params bm ls ls' : Forall2 (layer_related rel bm) ls ls' -> map params_of ls' = map params_of ls.
Proof. apply F2_map. intros x y H. apply H. Qed.

Lemma related_mode bm ls ls' : Forall2 (layer_related rel bm) ls ls' -> Forall (fun l => get_run_mode l = Training) ls -> Forall (fun l => get_run_mode l = Training) ls'.
Proof. induction 1 as [|a b l l' H _ IH]; intros M; [constructor|]. inversion M; subst. constructor; [destruct H as (_ & _ & E & _); congruence|auto]. Qed.

(** ** The forward pass *)
Lemma infer_loop_related bm (ls ls' : list (layer F)) st st' X k s0 :
  relu_agrees F -> linked s0 ls -> map tshape st = boundaries ls -> map tshape st' = boundaries ls -> Forall layer_ok ls -> Forall layer_ok ls' ->
  Forall wf st -> Forall wf st' -> Forall2 (layer_related rel bm) ls ls' -> Forall (fun l => get_run_mode l = Training) ls ->
  nth_error st 0 = Some X -> nth_error st' 0 = Some X -> k <= len ls ->
  exists q q' t t', tryM (upto k) (infer_step bm) (ls, st) = Done ((q, t), Ok tt) /\ tryM (upto k) (infer_step bm) (ls', st') = Done ((q', t'), Ok tt)
    /\ firstn (S (N.to_nat k)) t = firstn (S (N.to_nat k)) t' /\ Forall2 (layer_related rel bm) q q'
    /\ (forall i l l', (i < N.to_nat k)%nat -> nth_error q i = Some l -> nth_error q' i = Some l' -> tight bm l l').
Proof.
  intros RG Hl Hs Hs' Ho Ho' Hw Hw' HR HM H1 H2. pose proof (related_params _ _ _ HR) as PP.
  pose proof (linked_params s0 _ _ PP Hl) as Hl'. pose proof (boundaries_params _ _ PP) as BB.
  induction k as [|k IH] using N.peano_ind; intros Hk.
  - exists ls, ls', st, st'. rewrite upto_0. cbn [tryM]. do 2 (split; [reflexivity|]). change (N.to_nat 0) with 0%nat. split; [|split; [exact HR|lia]].
    destruct st, st'; try discriminate. cbn in H1, H2 |- *. congruence.
  - destruct IH as (q & q' & t & t' & E1 & E2 & Fp & RR & Tt); [lia|].
    assert (Hkl : k <= len ls) by lia. assert (Hkl' : k <= len ls') by (unfold len in *; rewrite (F2_len _ _ _ HR); lia).
    assert (Hs2 : map tshape st' = boundaries ls') by (rewrite BB; exact Hs').
    destruct (infer_loop bm ls st X k s0 RG Hl Hs Ho Hw H1 Hkl) as (q0 & t0 & E1' & I1 & O1 & L1 & W1 & _).
    rewrite E1 in E1'. injection E1' as <- <-.
    destruct (infer_loop bm ls' st' X k s0 RG Hl' Hs2 Ho' Hw' H2 Hkl') as (q0 & t0 & E2' & I2 & O2 & L2 & W2 & _).
    rewrite E2 in E2'. injection E2' as <- <-.
    rewrite upto_succ, !tryM_app, E1, E2. cbn [bind tryM].
    assert (P1 : map params_of q = map params_of ls) by (apply ident_split; exact I1).
    destruct (vget_some q k) as (l & Nl & Vl).
    { assert (len q = len ls) by (rewrite <- (len_map ident q), I1, len_map; reflexivity). lia. }
    destruct (F2_nth _ _ _ _ _ RR Nl) as (l' & Nl' & Rl).
    pose proof (Forall_nth _ _ _ _ O1 Nl) as Ol. pose proof (Forall_nth _ _ _ _ O2 Nl') as Ol'.
    assert (Nb := nth_boundaries q s0 (N.to_nat k) l (linked_params _ _ _ P1 Hl)).
    destruct Nb as (B1 & B2); [|exact Nl|].
    { destruct q as [|a q1]; [left; reflexivity|right]. apply linked_params with (ls' := a :: q1) in Hl; [|exact P1].
      cbn [linked] in Hl. destruct Hl as (<- & _). reflexivity. }
    rewrite (boundaries_params _ _ P1) in B1, B2.
    assert (S1 : map tshape t = boundaries ls).
    { pose proof (f_equal (map (fun x => snd (fst x))) L1) as Q. rewrite !map_map in Q. rewrite <- Hs. exact Q. }
    assert (S2 : map tshape t' = boundaries ls).
    { pose proof (f_equal (map (fun x => snd (fst x))) L2) as Q. rewrite !map_map in Q. rewrite <- Hs'. exact Q. }
    pose proof B2 as B2'. rewrite <- S1 in B1, B2. rewrite <- S2 in B2'. apply map_nth_is in B1, B2, B2'.
    destruct B1 as (x & Nx & Sx), B2 as (y1 & Ny1 & Sy1), B2' as (y2 & Ny2 & Sy2).
    assert (Nx2 : nth_error t' (N.to_nat k) = Some x).
    { rewrite <- Nx. rewrite <- (firstn_nth t (S (N.to_nat k)) (N.to_nat k)) by lia.
      rewrite <- (firstn_nth t' (S (N.to_nat k)) (N.to_nat k)) by lia. rewrite Fp. reflexivity. }
    replace (S (N.to_nat k)) with (N.to_nat (k + 1)) in Ny1, Ny2 by lia.
    unfold infer_step at 1 2, get_or_unwrap. rewrite Vl, (vget_of_nth q' _ _ Nl'), (vget_of_nth _ _ _ Nx), (vget_of_nth _ _ _ Nx2), (vget_of_nth _ _ _ Ny1), (vget_of_nth _ _ _ Ny2). cbn [bind].
    assert (Fx : shaped x (get_input_shape l)) by (split; [exact (Forall_nth _ _ _ _ W1 Nx)|exact Sx]).
    assert (F1 : shaped y1 (get_output_shape l)) by (split; [exact (Forall_nth _ _ _ _ W1 Ny1)|exact Sy1]).
    assert (F2 : shaped y2 (get_output_shape l)) by (split; [exact (Forall_nth _ _ _ _ W2 Ny2)|exact Sy2]).
    assert (Ml : get_run_mode l = Training).
    { pose proof (modes_ident _ _ I1 HM) as MM. exact (Forall_nth _ _ _ _ MM Nl). }
    destruct (forward_related bm l l' x y1 y2 Ol Ol' Rl Ml Fx F1 F2) as (r & r' & Y & EF & EF' & Tl). rewrite EF, EF'. cbn [bind].
    assert (G1 : k + 1 < len t) by (unfold len; apply nth_error_Some_lt in Ny1; lia).
    assert (G2 : k + 1 < len t') by (unfold len; apply nth_error_Some_lt in Ny2; lia).
    assert (G3 : k < len q) by (unfold len; apply nth_error_Some_lt in Nl; lia).
    assert (G4 : k < len q') by (unfold len; apply nth_error_Some_lt in Nl'; lia).
    rewrite !vset_done by assumption. cbn [bind].
    do 4 eexists. split; [reflexivity|]. split; [reflexivity|].
    replace (N.to_nat (N.succ k)) with (N.to_nat (k + 1)) by lia. split; [|split].
    + rewrite !(firstn_snoc _ (N.to_nat (k + 1)) Y) by (apply nth_error_list_set_same; unfold len in *; lia).
      f_equal. rewrite !firstn_list_set. replace (N.to_nat (k + 1)) with (S (N.to_nat k)) by lia. exact Fp.
    + apply F2_set; [exact RR|apply Tl].
    + intros i a b Hi Ea Eb. destruct (Nat.eq_dec i (N.to_nat k)) as [->|Ne].
      * rewrite nth_error_list_set_same in Ea by (unfold len in *; lia). rewrite nth_error_list_set_same in Eb by (unfold len in *; lia). congruence.
      * rewrite nth_error_list_set_other in Ea, Eb by lia. apply (Tt i); [lia|assumption|assumption].
Qed.

Lemma infer_related bm (n n' : network F) (X : T) : relu_agrees F -> net_ok n -> net_ok n' -> in_training n ->
  Forall2 (layer_related rel bm) (layers n) (layers n') -> layers n <> [] -> shaped X (net_input_shape n) ->
  exists m m', infer bm n X = Done (m, Ok tt) /\ infer bm n' X = Done (m', Ok tt) /\ Forall2 (tight bm) (layers m) (layers m')
    /\ intermediate_states m' = intermediate_states m.
Proof.
  intros RG (St1 & Lo1 & W1 & _) (St2 & Lo2 & W2 & _) (_ & HM & _) HR NE (WX & SX). pose proof (related_params _ _ _ HR) as PP. pose proof (boundaries_params _ _ PP) as BB.
  pose proof (states_length n St1) as Ls1. pose proof (states_length n' St2) as Ls2.
  pose proof St1 as (H1 & H2 & H3 & H4). pose proof St2 as (_ & K2 & K3 & K4). rewrite BB in K2, K3, K4.
  assert (Si : net_input_shape n' = net_input_shape n) by congruence. assert (So : net_output_shape n' = net_output_shape n) by congruence.
  pose proof (F2_len _ _ _ HR) as Ln. assert (Lnn : len (layers n') = len (layers n)) by (unfold len; lia).
  unfold infer, get_shape. rewrite Si, So, SX, shape_eqb_refl, Lnn. cbn [negb].
  assert (Ll : 1 <= len (layers n)) by (destruct (layers n); [congruence|unfold len; cbn [length]; lia]).
  assert (L1 : len (intermediate_states n) = len (layers n) + 1) by (rewrite Ls1; destruct (layers n); [congruence|reflexivity]).
  assert (L2 : len (intermediate_states n') = len (layers n) + 1) by (rewrite Ls2, <- Lnn; destruct (layers n'); [unfold len in *; cbn [length] in *; lia|reflexivity]).
  destruct (N.ltb_spec (len (intermediate_states n)) 2); [lia|]. destruct (N.ltb_spec (len (intermediate_states n')) 2); [lia|].
  rewrite !vset_done by lia. cbn [bind]. change (N.to_nat 0) with 0%nat.
  destruct (intermediate_states n) as [|s1 ss1] eqn:Es1; [unfold len in L1; cbn in L1; lia|].
  destruct (intermediate_states n') as [|s2 ss2] eqn:Es2; [unfold len in L2; cbn in L2; lia|]. cbn [list_set]. rewrite Nrange_upto.
  assert (A1 : map tshape (X :: ss1) = boundaries (layers n)). { cbn [map] in *. rewrite <- H4. f_equal. rewrite SX, H2, <- H4. reflexivity. }
  assert (A2 : map tshape (X :: ss2) = boundaries (layers n)). { cbn [map] in *. rewrite <- K4. f_equal. rewrite SX, H2, <- K4. reflexivity. }
  assert (A3 : Forall wf (X :: ss1)) by (constructor; [exact WX|inversion W1; assumption]).
  assert (A4 : Forall wf (X :: ss2)) by (constructor; [exact WX|inversion W2; assumption]).
  destruct (infer_loop_related bm (layers n) (layers n') (X :: ss1) (X :: ss2) X (len (layers n)) (net_input_shape n) RG H1 A1 A2 Lo1 Lo2 A3 A4 HR HM eq_refl eq_refl ltac:(lia))
    as (q & q' & t & t' & E1 & E2 & Fp & RR & Tt). rewrite E1, E2. cbn [bind].
  assert (Z1 : (length t <= S (N.to_nat (len (layers n))))%nat /\ length q = length (layers n)).
  { destruct (infer_loop bm (layers n) (X :: ss1) X (len (layers n)) (net_input_shape n) RG H1 A1 Lo1 A3 eq_refl ltac:(lia)) as (q0 & t0 & E' & I0 & _ & G1 & _).
    rewrite E1 in E'. injection E' as <- <-. apply (f_equal (@length _)) in G1, I0. rewrite !map_length in G1, I0. unfold len in *. cbn [length] in *. lia. }
  assert (Z2 : (length t' <= S (N.to_nat (len (layers n))))%nat /\ length q' = length (layers n)).
  { destruct (infer_loop bm (layers n') (X :: ss2) X (len (layers n)) (net_input_shape n) RG (linked_params _ _ _ PP H1) ltac:(rewrite BB; exact A2) Lo2 A4 eq_refl ltac:(lia)) as (q0 & t0 & E' & I0 & _ & G1 & _).
    rewrite E2 in E'. injection E' as <- <-. apply (f_equal (@length _)) in G1, I0. rewrite !map_length in G1, I0. unfold len in *. cbn [length] in *. lia. }
  rewrite !firstn_all2 in Fp by lia. do 2 eexists. split; [reflexivity|]. split; [reflexivity|]. cbn [layers intermediate_states]. split; [|symmetry; exact Fp].
  apply F2_of_nth; [lia|]. intros i x y Ex Ey. apply (Tt i); [|assumption|assumption]. apply nth_error_Some_lt in Ex. unfold len. lia.
Qed.

(** ** The backward pass *)
Section Loop.
Context (bm : build) (ls0 : list (layer F)) (st : list T) (s0 : shape).
Context (Hl : linked s0 ls0) (Hi : Forall stays_inside ls0) (Hb : Forall backs ls0) (Ss : map tshape st = boundaries ls0) (Ws : Forall wf st).

Definition ready (k : nat) (q : list (layer F)) (gr : list T) : Prop :=
  map params_of q = map params_of ls0 /\ Forall layer_ok q /\ Forall (fun l => get_run_mode l = Training) q /\ map tshape gr = boundaries ls0 /\ Forall wf gr.

Definition together (k : nat) (q q' : list (layer F)) (gr gr' : list T) : Prop :=
  Forall2 (layer_related rel bm) q q' /\ (forall i l l', (i < k)%nat -> nth_error q i = Some l -> nth_error q' i = Some l' -> tight bm l l')
  /\ (forall i t t', (k <= i)%nat -> nth_error gr i = Some t -> nth_error gr' i = Some t' -> related rel bm t t').

Lemma back_bounds k l : nth_error ls0 k = Some l -> nth_error (boundaries ls0) k = Some (get_input_shape l) /\ nth_error (boundaries ls0) (S k) = Some (get_output_shape l).
Proof.
  intros Nl. apply (nth_boundaries ls0 s0 k l Hl); [|exact Nl]. clear - Hl. destruct ls0 as [|x ls']; [left; reflexivity|right]. cbn [linked] in Hl.
  destruct Hl as (<- & _). reflexivity.
Qed.

Lemma set_params (q : list (layer F)) k l r : nth_error q k = Some l -> params_of r = params_of l -> map params_of (list_set q k r) = map params_of q.
Proof. intros N E. rewrite (map_list_set params_of q k r l N E). reflexivity. Qed.

Lemma back_loop_related k : k <= len ls0 -> forall q q' gr gr', ready (N.to_nat k) q gr -> ready (N.to_nat k) q' gr' -> together (N.to_nat k) q q' gr gr' ->
  exists r r' hr hr', tryM (rev (upto k)) (backward_step bm st) (q, gr) = Done ((r, hr), Ok tt)
    /\ tryM (rev (upto k)) (backward_step bm st) (q', gr') = Done ((r', hr'), Ok tt) /\ ready 0 r hr /\ ready 0 r' hr' /\ together 0 r r' hr hr'.
Proof.
  induction k as [|k IH] using N.peano_ind; intros Hk q q' gr gr' C C' TG.
  - rewrite upto_0. cbn [rev tryM]. do 4 eexists. split; [reflexivity|]. split; [reflexivity|]. auto.
  - rewrite rev_upto_succ. cbn [tryM]. replace (N.to_nat (N.succ k)) with (S (N.to_nat k)) in * by lia.
    destruct C as (P & O & M & Sg & Wg), C' as (P' & O' & M' & Sg' & Wg'), TG as (RR & Tt & Rg).
    destruct (nth_error ls0 (N.to_nat k)) as [l0|] eqn:N0. 2: { apply nth_error_None in N0. unfold len in Hk. lia. }
    assert (exists l, nth_error q (N.to_nat k) = Some l /\ params_of l = params_of l0) as (l & Nl & Pl).
    { apply map_nth_is. rewrite P. rewrite nth_error_map, N0. reflexivity. }
    destruct (F2_nth _ _ _ _ _ RR Nl) as (l' & Nl' & Rl). pose proof (Tt (N.to_nat k) l l' ltac:(lia) Nl Nl') as Tl.
    pose proof (Forall_nth _ _ _ _ O Nl) as Ol. pose proof (Forall_nth _ _ _ _ O' Nl') as Ol'. pose proof (Forall_nth _ _ _ _ M Nl) as Ml.
    destruct (back_bounds _ _ N0) as (B1 & B2). destruct (params_shapes l0 l Pl) as (I1 & I2).
    rewrite <- ?I1, <- ?I2 in *.
    destruct (nth_shaped gr ls0 _ _ Sg Wg B1) as (o & No & So). destruct (nth_shaped gr ls0 _ _ Sg Wg B2) as (g & Ng & SG).
    destruct (nth_shaped gr' ls0 _ _ Sg' Wg' B1) as (o' & No' & So'). destruct (nth_shaped gr' ls0 _ _ Sg' Wg' B2) as (g' & Ng' & SG').
    destruct (nth_shaped st ls0 _ _ Ss Ws B1) as (x & Nx & Sx). destruct (nth_shaped st ls0 _ _ Ss Ws B2) as (y & Ny & Sy).
    pose proof (Rg _ _ _ (le_n _) Ng Ng') as Rgg. destruct (related_to bm _ _ _ Rgg SG) as (_ & Qg).
    destruct (back_params _ _ Pl) as (Bi & Bb).
    destruct (backward_related bm l l' x y g g' o o' Ol Ol' (Bi (Forall_nth _ _ _ _ Hi N0)) (Bb (Forall_nth _ _ _ _ Hb N0)) Tl Ml Sx Sy SG SG' Qg So So')
      as (r & r' & p & p' & E & E' & Sp & Sp' & Qp & Rr).
    replace (S (N.to_nat k)) with (N.to_nat (k + 1)) in Ng, Ng', Ny by lia.
    unfold backward_step at 1 3, get_or_unwrap.
    rewrite (vget_of_nth _ _ _ Nl), (vget_of_nth _ _ _ Nl'), (vget_of_nth _ _ _ Nx), (vget_of_nth _ _ _ Ny), (vget_of_nth _ _ _ Ng), (vget_of_nth _ _ _ Ng'),
      (vget_of_nth _ _ _ No), (vget_of_nth _ _ _ No'). cbn [bind]. rewrite E, E'. cbn [bind].
    assert (G1 : k < len q) by (unfold len; apply nth_error_Some_lt in Nl; lia). assert (G2 : k < len q') by (unfold len; apply nth_error_Some_lt in Nl'; lia).
    assert (G3 : k < len gr) by (unfold len; apply nth_error_Some_lt in No; lia). assert (G4 : k < len gr') by (unfold len; apply nth_error_Some_lt in No'; lia).
    rewrite !vset_done by assumption. cbn [bind].
    destruct (backward_kept _ _ _ _ _ _ _ _ _ E) as (_ & K2 & _ & K4 & K5). destruct (backward_kept _ _ _ _ _ _ _ _ _ E') as (_ & K2' & _ & K4' & K5').
    apply IH; [lia| | |].
    + split; [rewrite (set_params _ _ _ _ Nl K2); exact P|]. split; [apply Forall_list_set; auto|]. split; [apply Forall_list_set; [exact M|congruence]|].
      split; [rewrite (map_list_set tshape gr _ p o No); [exact Sg|]; rewrite (proj2 Sp), (proj2 So); reflexivity|]. apply Forall_list_set; [exact Wg|apply Sp].
    + split; [rewrite (set_params _ _ _ _ Nl' K2'); exact P'|]. split; [apply Forall_list_set; auto|].
      split; [apply Forall_list_set; [exact M'|]; pose proof (Forall_nth _ _ _ _ M' Nl'); cbn beta in *; congruence|].
      split; [rewrite (map_list_set tshape gr' _ p' o' No'); [exact Sg'|]; rewrite (proj2 Sp'), (proj2 So'); reflexivity|]. apply Forall_list_set; [exact Wg'|apply Sp'].
    + split; [apply F2_set; assumption|]. split.
      * intros i a b Hii Ea Eb. rewrite nth_error_list_set_other in Ea, Eb by lia. apply (Tt i); [lia|assumption|assumption].
      * intros i a b Hii Ea Eb. destruct (Nat.eq_dec i (N.to_nat k)) as [->|Ne].
        -- rewrite nth_error_list_set_same in Ea by (unfold len in *; lia). rewrite nth_error_list_set_same in Eb by (unfold len in *; lia).
           injection Ea as <-. injection Eb as <-. eapply related_of; eassumption.
        -- rewrite nth_error_list_set_other in Ea, Eb by lia. apply (Rg i); [lia|assumption|assumption].
Qed.

End Loop.

Lemma net_backward_related bm (n n' : network F) (G G' : T) :
  net_ok n -> net_ok n' -> in_training n -> in_training n' -> Forall2 (tight bm) (layers n) (layers n') -> intermediate_states n' = intermediate_states n ->
  layers n <> [] -> Forall stays_inside (layers n) -> Forall backs (layers n) -> shaped G (net_output_shape n) -> related rel bm G G' ->
  exists m m', net_backward bm n G = Done (m, Ok tt) /\ net_backward bm n' G' = Done (m', Ok tt)
    /\ Forall2 (layer_related rel bm) (layers m) (layers m') /\ Forall2 (related rel bm) (intermediate_gradients m) (intermediate_gradients m')
    /\ intermediate_states m' = intermediate_states m.
Proof.
  intros (St & Lo & Sw & Gw) (St' & Lo' & Sw' & Gw') (RM' & M & GS) (RM2 & M2 & GS2) TT ES NE NC HB SG HG.
  assert (RR : Forall2 (layer_related rel bm) (layers n) (layers n')) by (clear - TT; induction TT as [|a b l l' H _ IH]; constructor; [apply H|exact IH]).
  pose proof (related_params _ _ _ RR) as PP. pose proof (boundaries_params _ _ PP) as BB. destruct (related_to bm _ _ _ HG SG) as (SG' & _).
  pose proof (last_boundary (layers n) (mkShape 0 0 0) NE) as Bs. destruct St as (Hl & H2 & Eo & H4). destruct St' as (_ & _ & Eo' & _). rewrite BB, <- Eo in Eo'.
  rewrite <- Eo in Bs. rewrite BB in GS2. pose proof (F2_len _ _ _ RR) as Ln. assert (Lnn : len (layers n') = len (layers n)) by (unfold len; lia).
  assert (Lg : len (intermediate_gradients n) = len (layers n) + 1) by (rewrite <- (len_map tshape), GS; apply boundaries_length; exact NE).
  assert (Lg' : len (intermediate_gradients n') = len (layers n) + 1) by (rewrite <- (len_map tshape), GS2; apply boundaries_length; exact NE).
  assert (L1 : (len (layers n) <? 1) = false). { destruct (layers n); [congruence|]. unfold len. cbn [length]. lia. }
  assert (Q : forall gr (g : T), map tshape gr = boundaries (layers n) -> Forall wf gr -> shaped g (net_output_shape n) ->
    map tshape (list_set gr (N.to_nat (len (layers n))) g) = boundaries (layers n) /\ Forall wf (list_set gr (N.to_nat (len (layers n))) g)).
  { intros gr g Hgr Wgr Sg. pose proof Bs as Nb. rewrite <- Hgr in Nb. apply map_nth_is in Nb. destruct Nb as (y & Ny & Sy).
    split; [rewrite (map_list_set tshape _ _ g y Ny); [exact Hgr|rewrite Sy; apply Sg]|]. apply Forall_list_set; [exact Wgr|apply Sg]. }
  destruct (Q _ _ GS Gw SG) as (Q1 & Q2). destruct (Q _ _ GS2 Gw' SG') as (Q1' & Q2').
  destruct (back_loop_related bm (layers n) (intermediate_states n) (net_input_shape n) Hl NC HB H4 Sw (len (layers n)) ltac:(lia)
    (layers n) (layers n') (list_set (intermediate_gradients n) (N.to_nat (len (layers n))) G) (list_set (intermediate_gradients n') (N.to_nat (len (layers n))) G'))
    as (r & r' & hr & hr' & E & E' & C & C' & R1 & _ & R3).
  { repeat split; assumption. } { repeat split; assumption. }
  { split; [exact RR|]. split.
    - intros i l l' Hii Ea Eb. destruct (F2_nth _ _ _ _ _ TT Ea) as (b & Eb' & Hb'). congruence.
    - intros i t t' Hii Ea Eb. assert (i = N.to_nat (len (layers n))) as ->.
      { apply nth_error_Some_lt in Ea. rewrite length_list_set in Ea. unfold len in *. lia. }
      rewrite nth_error_list_set_same in Ea by (unfold len in *; lia). rewrite nth_error_list_set_same in Eb by (unfold len in *; lia). congruence. }
  unfold net_backward, get_shape. rewrite Eo', (proj2 SG), (proj2 SG'), shape_eqb_refl, Lnn, L1, RM', RM2, ES. cbn [negb run_state_eqb].
  rewrite !vset_done by lia. cbn [bind]. rewrite Nrange_upto, E, E'. cbn [bind]. do 2 eexists. split; [reflexivity|]. split; [reflexivity|].
  cbn [layers intermediate_gradients intermediate_states]. split; [exact R1|]. split; [|reflexivity].
  destruct C as (_ & _ & _ & C & _), C' as (_ & _ & _ & C' & _). apply F2_of_nth; [|intros i x y; apply (R3 i); lia].
  apply (f_equal (@length _)) in C, C'. rewrite !map_length in C, C'. lia.
Qed.

(** ** A whole session *)
Lemma session_related bm : relu_agrees F -> forall samples samples', Forall2 (fun a b => fst b = fst a /\ related rel bm (snd a) (snd b)) samples samples' ->
  forall n n', net_ok n -> net_ok n' -> in_training n -> in_training n' -> Forall2 (layer_related rel bm) (layers n) (layers n') ->
  layers n <> [] -> Forall stays_inside (layers n) -> Forall backs (layers n) ->
  Forall (fun a => shaped (fst a) (net_input_shape n) /\ shaped (snd a) (net_output_shape n)) samples ->
  exists m m', session bm n samples m /\ session bm n' samples' m' /\ Forall2 (layer_related rel bm) (layers m) (layers m')
    /\ (samples <> [] -> intermediate_states m' = intermediate_states m /\ Forall2 (related rel bm) (intermediate_gradients m) (intermediate_gradients m')).
Proof.
  intros RG samples samples'. induction 1 as [|(x & g) (x' & g') samples samples' (Ex & Rg) H IH]; intros n n' On On' Tn Tn' RR NE NC HB SS; cbn [fst snd] in *.
  - exists n, n'. split; [constructor|]. split; [constructor|]. split; [exact RR|congruence].
  - subst x'. inversion SS as [|? ? (Sx & Sg) SS']; subst. cbn [fst snd] in *.
    destruct (infer_related bm n n' x RG On On' Tn RR NE Sx) as (n1 & n1' & E1 & E1' & TT & ES).
    assert (O1 : net_ok n1) by (apply (NetRun.good_step bm n (OInfer x) n1 (Ok tt) RG); [exact On|exact (proj1 Sx)|exact E1]).
    assert (O1' : net_ok n1') by (apply (NetRun.good_step bm n' (OInfer x) n1' (Ok tt) RG); [exact On'|exact (proj1 Sx)|exact E1']).
    assert (T1 : in_training n1) by (eapply (in_training_step bm n (OInfer x)); [exact On|exact Tn|exact (proj1 Sx)|discriminate|exact E1]).
    assert (T1' : in_training n1') by (eapply (in_training_step bm n' (OInfer x)); [exact On'|exact Tn'|exact (proj1 Sx)|discriminate|exact E1']).
    destruct (infer_kept _ _ _ _ _ E1) as (I1 & _ & Ki & Ko & _).
    assert (P1 : map params_of (layers n1) = map params_of (layers n)) by (apply ident_split; exact I1).
    assert (NE1 : layers n1 <> []). { intros Z. rewrite Z in P1. destruct (layers n); [congruence|discriminate]. }
    assert (NC1 : Forall stays_inside (layers n1)) by (eapply Forall_params; [intros l l' Pl; apply back_params; exact Pl|exact P1|exact NC]).
    assert (HB1 : Forall backs (layers n1)) by (eapply Forall_params; [intros l l' Pl; apply back_params; exact Pl|exact P1|exact HB]).
    destruct (net_backward_related bm n1 n1' g g' O1 O1' T1 T1' TT ES NE1 NC1 HB1 ltac:(rewrite Ko; exact Sg) Rg) as (n2 & n2' & E2 & E2' & R2 & G2 & S2).
    assert (Wg' : wf g'). { destruct (related_to bm _ _ _ Rg Sg) as ((W & _) & _). exact W. }
    assert (O2 : net_ok n2) by (apply (NetRun.good_step bm n1 (OBackward g) n2 (Ok tt) RG); [exact O1|exact (proj1 Sg)|exact E2]).
    assert (O2' : net_ok n2') by (apply (NetRun.good_step bm n1' (OBackward g') n2' (Ok tt) RG); [exact O1'|exact Wg'|exact E2']).
    assert (T2 : in_training n2) by (eapply (in_training_step bm n1 (OBackward g)); [exact O1|exact T1|exact (proj1 Sg)|discriminate|exact E2]).
    assert (T2' : in_training n2') by (eapply (in_training_step bm n1' (OBackward g')); [exact O1'|exact T1'|exact Wg'|discriminate|exact E2']).
    destruct (net_backward_kept _ _ _ _ _ E2) as (I2 & _ & Ki2 & Ko2 & _).
    assert (P2 : map params_of (layers n2) = map params_of (layers n1)) by (apply ident_split; exact I2).
    destruct (IH n2 n2' O2 O2' T2 T2' R2) as (m & m' & Sm & Sm' & Rm & Gm).
    + intros Z. rewrite Z in P2. destruct (layers n1); [congruence|discriminate].
    + eapply Forall_params; [intros l l' Pl; apply back_params; exact Pl|exact P2|exact NC1].
    + eapply Forall_params; [intros l l' Pl; apply back_params; exact Pl|exact P2|exact HB1].
    + rewrite Ki2, Ko2, Ki, Ko. exact SS'.
    + exists m, m'. split; [econstructor; eassumption|]. split; [econstructor; eassumption|]. split; [exact Rm|]. intros _.
      destruct samples as [|a samples]; [|apply Gm; discriminate]. inversion H; subst. inversion Sm; subst. inversion Sm'; subst. auto.
Qed.

End Related.
