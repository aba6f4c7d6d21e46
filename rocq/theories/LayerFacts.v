(** * What each layer's forward pass computes, and that well-formed layers stay well-formed *)
From Coq Require Import ZifyBool ZifyNat ZifyN.
From Verif Require Import Base Arith Helper Tensor Convolution Network Spec SpecLayer Loops TensorFacts OpsFacts.
From Verif Require Import ProofsTensor ProofsConv ProofsBackprop ProofsPool Layout.
Ltac Zify.zify_post_hook ::= Z.div_mod_to_equations.

Section Facts.
Context {F : Type} {AR : Arith F}.
Notation T := (tensor F).

Lemma shaped_eq (t : T) s : shaped t s -> allocatable s /\ t = of_fun s (val t).
Proof. intros (W & <-). split; [apply wf_alloc; exact W|apply wf_eq; exact W]. Qed.

Lemma shaped_of_fun s (f : N -> N -> N -> F) : allocatable s -> shaped (of_fun s f) s.
Proof. intros A. split; [apply wf_of_fun; exact A|reflexivity]. Qed.

Lemma shaped_layout (a b : T) s : layout a = layout b -> shaped b s -> shaped a s.
Proof. intros L (W & S). split; [eapply layout_wf; [symmetry; exact L|exact W]|]. rewrite (layout_shape _ _ L). exact S. Qed.

Lemma shaped_holds bm (t : T) s : shaped t s -> holds bm t s (val t).
Proof. intros H. apply holds_iff. apply shaped_eq. exact H. Qed.

Lemma holds_shaped bm (t : T) s f : holds bm t s f -> shaped t s.
Proof. intros (W & S & _). split; assumption. Qed.

Lemma tensor_new_shape bm s (t : T) : tensor_new bm s = Done t -> tshape t = s.
Proof. unfold tensor_new. intros H. res_inv. reflexivity. Qed.

(** Equal functions on the shape hold alike. *)
Lemma holds_ext bm (t : T) s f g : (forall i j k, in_shape s i j k -> f i j k = g i j k) -> holds bm t s f -> holds bm t s g.
Proof.
  intros E H. apply holds_iff in H. destruct H as (A & ->). apply holds_iff. split; [exact A|]. apply of_fun_ext. exact E.
Qed.

(** ** Fully connected *)
Lemma mm_check m n : check_matrix_multiply_dimensions (mkShape m n 1) (mkShape n 1 1) (mkShape m 1 1) = true.
Proof. apply check_mm_true. cbn [di dj dk]. auto. Qed.

Definition fc_fn (n : N) (w x b : N -> N -> N -> F) (i j k : N) : F :=
  relu (fadd (mm_fn n w x i j k) (b i j k)).

Lemma fc_computes bm weights bias m n (X Y : T) :
  shaped weights (mkShape m n 1) -> shaped bias (mkShape m 1 1) -> shaped X (mkShape n 1 1) ->
  Y = of_fun (mkShape m 1 1) (fc_fn n (val weights) (val X) (val bias)) ->
  computes bm (PFC weights bias) X Y.
Proof.
  intros Hw Hb Hx ->. apply CFC with (m := m) (n := n) (w := val weights) (b := val bias) (x := val X).
  - apply shaped_holds; exact Hw.
  - apply shaped_holds; exact Hb.
  - apply shaped_holds; exact Hx.
  - apply holds_iff. split; [apply (shaped_eq _ _ Hb)|]. apply of_fun_ext. intros i j k (Hi & Hj & Hk). cbn [di dj dk] in *.
    assert (j = 0) by lia. assert (k = 0) by lia. subst. reflexivity.
Qed.

Lemma fc_forward_ok bm l m n (X Y0 : T) :
  relu_agrees F -> fc_ok m n l -> shaped X (mkShape n 1 1) -> shaped Y0 (mkShape m 1 1) ->
  exists l' Y, fc_forward bm l X Y0 = Done (l', Y, Ok tt)
    /\ computes bm (PFC (fc_weights l) (fc_bias l)) X Y
    /\ fc_ok m n l' /\ shaped Y (mkShape m 1 1)
    /\ fc_weights l' = fc_weights l /\ fc_bias l' = fc_bias l /\ fc_name l' = fc_name l /\ fc_run_state l' = fc_run_state l.
Proof.
  intros RA (Hw & Hb & Ht) Hx Hy. unfold fc_forward.
  pose proof (shaped_eq _ _ Hw) as (Aw & Ew). pose proof (shaped_eq _ _ Hb) as (Ab & Eb).
  pose proof (shaped_eq _ _ Hx) as (Ax & Ex). pose proof (shaped_eq _ _ Hy) as (Ay & Ey).
  destruct (fc_run_state l) eqn:R.
  - rewrite Ew, Eb, Ex, Ey. rewrite matrix_multiply_add_relu_of_fun by (try assumption; try reflexivity; apply mm_check).
    cbn [bind]. eexists; eexists. split; [reflexivity|]. rewrite <- Ew, <- Eb, <- Ex.
    split. { eapply fc_computes; try eassumption. apply of_fun_ext. intros i j k _. unfold fc_fn, mm_fn. cbn [dj]. apply RA. }
    split; [split; [exact Hw|]; split; [exact Hb|]; intros E; congruence|].
    split; [apply shaped_of_fun; exact Ay|]. auto.
  - destruct (Ht eq_refl) as (H1 & H2 & H3 & H4). pose proof (shaped_eq _ _ H4) as (Am & Em).
    rewrite Ew, Ex, Ey. rewrite matrix_multiply_of_fun by (try assumption; apply mm_check). cbn [bind].
    rewrite Eb, add_to_self_of_fun. rewrite Em, relu_mask_of_fun. cbn [fc_weights fc_bias fc_name fc_run_state].
    eexists; eexists. split; [reflexivity|]. cbn [fc_weights fc_bias fc_name fc_run_state].
    rewrite <- Ew, <- Eb, <- Ex.
    split. { eapply fc_computes; try eassumption. apply of_fun_ext. intros i j k _. reflexivity. }
    split. { split; [exact Hw|]. split; [exact Hb|]. intros _. cbn [fc_weights_gradients fc_weights_gradients_intermediate
      fc_bias_gradients fc_relu_mask]. repeat split; try apply H1; try apply H2; try apply H3; apply shaped_of_fun; exact Am. }
    split; [apply shaped_of_fun; exact Ay|]. auto.
Qed.

Lemma fc_update_ok bm l m n : shaped (fc_weights l) (mkShape m n 1) -> shaped (fc_bias l) (mkShape m 1 1) ->
  exists l' : fc_layer F, fc_update bm l = Done l' /\ fc_ok m n l'
    /\ fc_weights l' = fc_weights l /\ fc_bias l' = fc_bias l /\ fc_name l' = fc_name l /\ fc_run_state l' = fc_run_state l.
Proof.
  intros Hw Hb. pose proof (shaped_eq _ _ Hw) as (Aw & Ew). pose proof (shaped_eq _ _ Hb) as (Ab & Eb).
  unfold fc_update, fc_output_shape, get_shape. rewrite (proj2 Hw), (proj2 Hb).
  destruct (fc_run_state l) eqn:R.
  - rewrite tensor_empty_done. cbn [bind]. eexists. split; [reflexivity|]. cbn.
    split; [split; [exact Hw|split; [exact Hb|discriminate]]|auto].
  - rewrite !tensor_new_done by assumption. cbn [bind]. eexists. split; [reflexivity|].
    unfold fc_clear_gradients. cbn [fc_weights fc_bias fc_name fc_run_state fc_weights_gradients
      fc_weights_gradients_intermediate fc_bias_gradients fc_relu_mask]. rewrite !fill_with_value_of_fun.
    split; [|auto]. split; [exact Hw|]. split; [exact Hb|]. intros _. cbn. repeat split; apply wf_of_fun; assumption.
Qed.

Lemma fc_switch_ok bm st l m n : fc_ok m n l ->
  exists l' : fc_layer F, fc_update bm (fc_set_run_state l st) = Done l' /\ fc_ok m n l'
    /\ fc_weights l' = fc_weights l /\ fc_bias l' = fc_bias l /\ fc_name l' = fc_name l /\ fc_run_state l' = st.
Proof. intros (Hw & Hb & _). exact (fc_update_ok bm (fc_set_run_state l st) m n Hw Hb). Qed.

Lemma fc_backward_kept bm l (X Y g og og' : T) l' e :
  fc_backward bm l X Y g og = Done (l', og', e) ->
  layout og' = layout og /\ layout (fc_weights_gradients l') = layout (fc_weights_gradients l)
  /\ layout (fc_weights_gradients_intermediate l') = layout (fc_weights_gradients_intermediate l)
  /\ layout (fc_bias_gradients l') = layout (fc_bias_gradients l) /\ layout (fc_relu_mask l') = layout (fc_relu_mask l)
  /\ fc_weights l' = fc_weights l /\ fc_bias l' = fc_bias l /\ fc_name l' = fc_name l /\ fc_run_state l' = fc_run_state l.
Proof.
  unfold fc_backward. destruct (run_state_eqb _ _); [|intros [= <- <- <-]; auto 10].
  intros H. apply bind_done in H. destruct H as ((wgi & r) & E1 & H). apply matrix_multiply_second_layout in E1.
  destruct r as [[]|er].
  - apply bind_done in H. destruct H as ((og1 & r2) & E2 & H). apply matrix_multiply_first_layout in E2.
    injection H as <- <- <-. cbn. rewrite !add_to_self_layout, multiply_elementwise_self_layout. auto 10.
  - injection H as <- <- <-. cbn. rewrite !add_to_self_layout, multiply_elementwise_self_layout. auto 10.
Qed.

Lemma fc_backward_ok bm l m n (X Y g og og' : T) l' e :
  fc_ok m n l -> fc_backward bm l X Y g og = Done (l', og', e) -> fc_ok m n l'.
Proof.
  intros (Hw & Hb & Ht) H. apply fc_backward_kept in H. destruct H as (_ & L1 & L2 & L3 & L4 & E1 & E2 & _ & E4).
  unfold fc_ok. rewrite E1, E2, E4. split; [exact Hw|]. split; [exact Hb|]. intros R. destruct (Ht R) as (T1 & T2 & T3 & T4).
  split; [|split; [|split]]; (eapply shaped_layout; [eassumption|assumption]).
Qed.

Lemma fc_clear_ok l m n : fc_ok m n l -> fc_ok m n (fc_clear_gradients l).
Proof.
  intros (Hw & Hb & Ht). split; [exact Hw|]. split; [exact Hb|]. intros R. destruct (Ht R) as (T1 & T2 & T3 & T4). cbn.
  split; [|split; [|split]]; (eapply shaped_layout; [apply fill_with_value_layout|assumption]).
Qed.

(** ** Convolutional *)
Definition bias_at (biases : list T) (n : N) : F :=
  match nth_error biases (N.to_nat n) with Some b => bias_value (tshape b) (val b) | None => fzero end.

Definition kernel_at (kernels : list T) (n : N) : N -> N -> N -> F :=
  match nth_error kernels (N.to_nat n) with Some k => val k | None => fun _ _ _ => fzero end.

Lemma Forall_nth {A} (P : A -> Prop) l n x : Forall P l -> nth_error l n = Some x -> P x.
Proof. intros H E. rewrite Forall_forall in H. apply H. eapply nth_error_In, E. Qed.

Lemma vget_some {A} (l : list A) i : i < len l -> exists x, nth_error l (N.to_nat i) = Some x /\ vget l i = Done x.
Proof.
  intros H. unfold vget. replace (i <? len l) with true by lia. destruct (nth_error l (N.to_nat i)) eqn:E; [eauto|].
  apply nth_error_None in E. unfold len in H. lia.
Qed.

Lemma conv_channels post bm kernels biases stride ins outs ks x g n :
  allocatable ins -> allocatable outs -> Forall (fun k => shaped k ks) kernels ->
  dk outs = len kernels -> len kernels <= len biases -> Forall (fun b => wf b /\ at_most_one (tshape b)) biases ->
  (forall ch, ch < dk outs -> conv_ok ins ks stride outs ch) -> n <= dk outs ->
  tryM (upto n) (fun i out =>
      k <- vget kernels i ;;
      b <- vget biases i ;;
      conv_with post bm (of_fun ins x) k b stride out i) (of_fun outs g)
  = Done (of_fun outs (fun i j k => if k <? n then post (fadd (sum (conv_terms ks stride x (kernel_at kernels k) i j)) (bias_at biases k))
                                    else g i j k), Ok tt).
Proof.
  intros Ai Ao Hk Ek Lb Hb P. induction n as [|n IH] using N.peano_ind; intros Hn.
  - rewrite upto_0. cbn [tryM]. f_equal. f_equal. apply of_fun_ext. intros i j k _. destruct (N.ltb_spec k 0); [lia|reflexivity].
  - rewrite upto_succ, tryM_app, IH by lia. cbn [bind tryM].
    destruct (vget_some kernels n) as (k & Nk & ->); [lia|]. destruct (vget_some biases n) as (b & Nb & ->); [lia|]. cbn [bind].
    pose proof (Forall_nth _ _ _ _ Hk Nk) as Sk. pose proof (Forall_nth _ _ _ _ Hb Nb) as (Wb & Ob).
    pose proof (shaped_eq _ _ Sk) as (Ak & Ekk). rewrite Ekk, (wf_eq b Wb).
    rewrite conv_with_of_fun by first [assumption|apply wf_alloc; exact Wb|apply P; lia]. cbn [bind]. f_equal. f_equal.
    apply of_fun_ext. intros i j c _. destruct (N.eqb_spec c n) as [->|Hc].
    + replace (n <? N.succ n) with true by lia. unfold kernel_at, bias_at. rewrite Nk, Nb. reflexivity.
    + replace (c <? N.succ n) with (c <? n) by lia. reflexivity.
Qed.

Lemma conv_channels_relu bm kernels biases stride ins outs ks x g n :
  allocatable ins -> allocatable outs -> Forall (fun k => shaped k ks) kernels ->
  dk outs = len kernels -> len kernels <= len biases -> Forall (fun b => wf b /\ at_most_one (tshape b)) biases ->
  (forall ch, ch < dk outs -> conv_ok ins ks stride outs ch) -> n <= dk outs ->
  tryM (upto n) (fun i out =>
      k <- vget kernels i ;;
      b <- vget biases i ;;
      convolution_bias_relu bm (of_fun ins x) k b stride out i) (of_fun outs g)
  = Done (of_fun outs (fun i j k => if k <? n then (fun x => fmax x fzero) (fadd (sum (conv_terms ks stride x (kernel_at kernels k) i j)) (bias_at biases k))
                                    else g i j k), Ok tt).
Proof. exact (conv_channels (fun x => fmax x fzero) bm kernels biases stride ins outs ks x g n). Qed.

Lemma conv_channels_plain bm kernels biases stride ins outs ks x g n :
  allocatable ins -> allocatable outs -> Forall (fun k => shaped k ks) kernels ->
  dk outs = len kernels -> len kernels <= len biases -> Forall (fun b => wf b /\ at_most_one (tshape b)) biases ->
  (forall ch, ch < dk outs -> conv_ok ins ks stride outs ch) -> n <= dk outs ->
  tryM (upto n) (fun i out =>
      k <- vget kernels i ;;
      b <- vget biases i ;;
      convolution_bias bm (of_fun ins x) k b stride out i) (of_fun outs g)
  = Done (of_fun outs (fun i j k => if k <? n then  (fadd (sum (conv_terms ks stride x (kernel_at kernels k) i j)) (bias_at biases k))
                                    else g i j k), Ok tt).
Proof. exact (conv_channels (fun x => x) bm kernels biases stride ins outs ks x g n). Qed.

Lemma conv_forward_ok bm ks l (X Y0 : T) :
  relu_agrees F -> conv_layer_ok ks l -> shaped X (cv_input_shape l) -> shaped Y0 (cv_output_shape l) ->
  exists l' Y, cv_forward bm l X Y0 = Done (l', Y, Ok tt)
    /\ computes bm (params_of (LConv l)) X Y /\ conv_layer_ok ks l' /\ shaped Y (cv_output_shape l)
    /\ params_of (LConv l') = params_of (LConv l) /\ cv_name l' = cv_name l /\ cv_run_state l' = cv_run_state l.
Proof.
  intros RA (Hk & Ek & Lb & Hb & Ai & Ao & P & Ht) Hx Hy.
  pose proof (shaped_eq _ _ Hx) as (Ax & Ex). pose proof (shaped_eq _ _ Hy) as (Ay & Ey).
  assert (CP : forall Y, Y = of_fun (cv_output_shape l) (fun i j k =>
      relu (fadd (sum (conv_terms ks (cv_stride l) (val X) (kernel_at (cv_kernels l) k) i j)) (bias_at (cv_biases l) k))) ->
      computes bm (params_of (LConv l)) X Y).
  { intros Y ->. cbn [params_of].
    apply CConv with (ks := ks) (h := kernel_at (cv_kernels l)) (bv := bias_at (cv_biases l)) (x := val X); try assumption.
    - intros n t E. unfold kernel_at. rewrite E. apply shaped_holds. eapply Forall_nth in E; [|exact Hk]. exact E.
    - lia.
    - intros n b E. unfold bias_at. rewrite E. pose proof (Forall_nth _ _ _ _ Hb E) as (Wb & _).
      rewrite (wf_eq b Wb) at 1. apply get_bias. apply wf_alloc. exact Wb.
    - apply shaped_holds. exact Hx.
    - apply holds_of_fun. exact Ao. }
  unfold cv_forward. rewrite Nrange_upto. rewrite Ey, Ex. destruct (cv_run_state l) eqn:R.
  - rewrite (conv_channels_relu bm _ _ _ _ _ ks) by first [assumption|lia]. cbn [bind].
    eexists; eexists. split; [reflexivity|]. rewrite <- Ex. split.
    { apply CP. apply of_fun_ext. intros i j k (_ & _ & H). replace (k <? dk (cv_output_shape l)) with true by lia. apply RA. }
    split; [repeat (split; [assumption|]); intros E; congruence|]. split; [apply shaped_of_fun; exact Ao|]. auto.
  - rewrite (conv_channels_plain bm _ _ _ _ _ ks) by first [assumption|lia]. cbn [bind].
    destruct (Ht eq_refl) as (T1 & T2 & T3). pose proof (shaped_eq _ _ T1) as (Am & Em). rewrite Em, relu_mask_of_fun.
    eexists; eexists. split; [reflexivity|]. rewrite <- Ex. split.
    { apply CP. apply of_fun_ext. intros i j k (_ & _ & H). replace (k <? dk (cv_output_shape l)) with true by lia. reflexivity. }
    cbn. split.
    { repeat (split; [assumption|]). intros _. cbn. split; [apply shaped_of_fun; exact Ao|]. auto. }
    split; [apply shaped_of_fun; exact Ao|]. auto.
Qed.

Lemma new_gradients bm (l : list T) ks acc : allocatable ks -> Forall (fun k => shaped k ks) l -> Forall (fun k => shaped k ks) acc ->
  exists g, forM l (fun k acc => g <- tensor_new bm (get_shape k) ;; Done (acc ++ [g])%list) acc = Done g
    /\ Forall (fun k => shaped k ks) g /\ len g = len acc + len l.
Proof.
  intros A H. revert acc. induction H as [|k l Hk H IH]; intros acc Ha; cbn [forM].
  - exists acc. split; [reflexivity|]. split; [exact Ha|]. unfold len; simpl; lia.
  - unfold get_shape at 1. rewrite (proj2 Hk), tensor_new_done by exact A. cbn [bind].
    destruct (IH (acc ++ [of_fun ks (fun _ _ _ => fzero)])%list) as (g & E & G & L).
    { apply Forall_app. split; [exact Ha|]. constructor; [apply shaped_of_fun; exact A|constructor]. }
    exists g. split; [exact E|]. split; [exact G|]. rewrite L. unfold len. rewrite app_length. simpl. lia.
Qed.

Lemma cv_switch_ok bm st l ks : allocatable ks -> conv_layer_ok ks l ->
  exists l' : conv_layer F, cv_update bm (cv_set_run_state l st) = Done l' /\ conv_layer_ok ks l'
    /\ params_of (LConv l') = params_of (LConv l) /\ cv_name l' = cv_name l /\ cv_run_state l' = st.
Proof.
  intros Ak (Hk & Ek & Lb & Hb & Ai & Ao & P & Ht). unfold cv_update, cv_set_run_state. cbn [cv_run_state cv_kernels cv_output_shape].
  destruct st.
  - rewrite tensor_empty_done. cbn [bind]. eexists. split; [reflexivity|]. cbn. split; [|auto].
    repeat (split; [assumption|]). cbn. discriminate.
  - destruct (new_gradients bm (cv_kernels l) ks [] Ak Hk (Forall_nil _)) as (g & -> & G & L). cbn [bind].
    rewrite tensor_new_done by (repeat split). cbn [bind]. rewrite tensor_new_done by exact Ao. cbn [bind].
    eexists. split; [reflexivity|]. cbn. split; [|auto]. repeat (split; [assumption|]). cbn. intros _.
    split; [apply shaped_of_fun; exact Ao|]. split; [exact G|]. rewrite L. unfold len; simpl; lia.
Qed.

Lemma Forall_list_set {A} (P : A -> Prop) l n x : Forall P l -> P x -> Forall P (list_set l n x).
Proof.
  intros H. revert n. induction H as [|a l Ha H IH]; intros [|n] Hx; simpl; constructor; auto.
Qed.

Lemma cv_kgrads_kept bm (inc im : T) stride l kg kg' r :
  tryM l (fun i kg =>
       g <- vget kg i ;;
       '(g', r) <- convolution_backprop_kernel bm inc im stride (as_u32 i) g ;;
       kg' <- vset kg i g' ;;
       Done (kg', r)) kg = Done (kg', r) -> map layout kg' = map layout kg.
Proof.
  apply (tryM_done_inv (fun kg' => map layout kg' = map layout kg)); [reflexivity|].
  intros i s s' r' _ <- H. apply bind_done in H. destruct H as (g & Eg & H). apply bind_done in H. destruct H as ((g' & r1) & E1 & H).
  apply bind_done in H. destruct H as (kg1 & E2 & H). injection H as <- <-. apply backprop_kernel_layout in E1.
  apply vget_done in Eg. destruct Eg as (Li & Eg). rewrite vset_done in E2 by exact Li. injection E2 as <-.
  clear Li. revert Eg. generalize (N.to_nat i) as n. induction s as [|a s IH]; intros [|n] Eg; simpl in *; try discriminate.
  - injection Eg as ->. rewrite E1. reflexivity.
  - f_equal. apply IH. exact Eg.
Qed.

Lemma cv_backward_kept bm l (X Y g og og' : T) l' e :
  cv_backward bm l X Y g og = Done (l', og', e) ->
  layout og' = layout og /\ map layout (cv_kernel_gradients l') = map layout (cv_kernel_gradients l)
  /\ layout (cv_relu_mask l') = layout (cv_relu_mask l)
  /\ params_of (LConv l') = params_of (LConv l) /\ cv_name l' = cv_name l /\ cv_run_state l' = cv_run_state l.
Proof.
  unfold cv_backward. intros H. apply bind_done in H. destruct H as ((kg & r) & E1 & H). cbn in E1.
  apply cv_kgrads_kept in E1. destruct r as [[]|er].
  - apply bind_done in H. destruct H as ((og1 & r2) & E2 & H). apply backprop_outgoing_layout in E2.
    injection H as <- <- <-. cbn. rewrite multiply_elementwise_self_layout. auto 10.
  - injection H as <- <- <-. cbn. rewrite multiply_elementwise_self_layout. auto 10.
Qed.

Lemma Forall_layout (l l' : list T) s : map layout l' = map layout l -> Forall (fun k => shaped k s) l -> Forall (fun k => shaped k s) l'.
Proof.
  revert l'; induction l as [|a l IH]; intros [|b l'] E H; simpl in E; try discriminate; constructor.
  - pose proof (f_equal (hd (layout b)) E) as E1. cbn [hd] in E1. eapply shaped_layout; [exact E1|]. apply Forall_inv in H. exact H.
  - apply (f_equal (@tl _)) in E. apply IH; [exact E|]. apply Forall_inv_tail in H. exact H.
Qed.

Lemma map_layout_len (l l' : list T) : map layout l' = map layout l -> len l' = len l.
Proof. intros E. rewrite <- (len_map layout l'), <- (len_map layout l), E. reflexivity. Qed.

Lemma conv_params_ok ks (l l' : conv_layer F) : conv_layer_ok ks l -> params_of (LConv l') = params_of (LConv l) -> cv_run_state l' = cv_run_state l ->
  map layout (cv_kernel_gradients l') = map layout (cv_kernel_gradients l) ->
  layout (cv_relu_mask l') = layout (cv_relu_mask l) -> conv_layer_ok ks l'.
Proof.
  intros (Hk & Ek & Lb & Hb & Ai & Ao & P & Ht) E R G M. cbn [params_of] in E. injection E as E1 E2 E3 E4 E5. unfold conv_layer_ok.
  rewrite E1, E2, E3, E4, E5, R. repeat (split; [assumption|]). intros Tr. destruct (Ht Tr) as (T1 & T2 & T3).
  split; [eapply shaped_layout; eassumption|]. split; [eapply Forall_layout; eassumption|].
  rewrite (map_layout_len _ _ G). exact T3.
Qed.

(** ** Max pooling *)
Lemma window_eq mi mj stride (f : N -> N -> N -> F) i j k :
  window mi mj stride f i j k = window_values mi mj stride f i j k.
Proof.
  unfold window, window_values, window_positions. rewrite !flat_map_concat_map, concat_map, map_map.
  f_equal. apply map_ext. intros jj. rewrite map_map. reflexivity.
Qed.

Lemma pool_fn_running mi mj stride (f : N -> N -> N -> F) i j k :
  pool_fn mi mj stride f i j k = running_max (window_values mi mj stride f i j k).
Proof.
  unfold pool_fn, running_max. rewrite (window_eq mi mj stride f i j k). reflexivity.
Qed.

Lemma mp_computes bm l (X Y : T) : mp_ok l -> shaped X (mp_input_shape l) ->
  Y = of_fun (mp_output_shape l) (pool_fn (di (mp_mask_shape l)) (dj (mp_mask_shape l)) (mp_stride l) (val X)) ->
  computes bm (params_of (LMaxPool l)) X Y.
Proof.
  intros (_ & A & P & _) Hx ->. cbn [params_of]. apply CMaxPool with (x := val X); [exact P|apply shaped_holds; exact Hx|].
  apply holds_iff. split; [exact A|]. apply of_fun_ext. intros i j k _. apply pool_fn_running.
Qed.

Lemma track_bound s mask stride r (f : N -> N -> N -> F) i j k : pool_ok s mask stride r -> in_shape r i j k ->
  let p := snd (track_fn s (di mask) (dj mask) stride f i j k) in p = 0 \/ p < di s * dj s * dk s.
Proof.
  intros (Hk & Ti & Tj) (Hi & Hj & Hkk). unfold track_fn.
  assert (G : forall l m, (snd m = 0 \/ snd m < di s * dj s * dk s) -> (forall x : F * N, In x l -> snd x < di s * dj s * dk s) ->
    let p := snd (fold_left pick_track l m) in p = 0 \/ p < di s * dj s * dk s).
  { induction l as [|x l IH]; intros m Hm H; cbn [fold_left]; [exact Hm|]. apply IH; [|intros; apply H; right; assumption].
    unfold pick_track. destruct (fgtb _ _); [right; apply H; left; reflexivity|exact Hm]. }
  apply G; [left; reflexivity|]. intros x Hx. unfold window_pos in Hx. apply in_flat_map in Hx. destruct Hx as (jj & Hjj & Hx).
  apply in_map_iff in Hx. destruct Hx as (ii & <- & Hii). apply in_upto in Hii, Hjj. cbn [snd].
  pose proof (tiles_bound _ _ _ _ _ _ Ti Hi Hii). pose proof (tiles_bound _ _ _ _ _ _ Tj Hj Hjj).
  apply flat_lt. repeat split; [assumption|assumption|lia].
Qed.

Lemma mp_forward_ok bm l (X Y0 : T) :
  mp_ok l -> shaped X (mp_input_shape l) -> shaped Y0 (mp_output_shape l) ->
  exists l' Y, mp_forward bm l X Y0 = Done (l', Y, Ok tt)
    /\ computes bm (params_of (LMaxPool l)) X Y /\ mp_ok l' /\ shaped Y (mp_output_shape l)
    /\ @params_of F (LMaxPool l') = params_of (LMaxPool l) /\ mp_name l' = mp_name l /\ mp_run_state l' = mp_run_state l.
Proof.
  intros H Hx Hy. pose proof H as (Ai & A & P & Ht).
  pose proof (shaped_eq _ _ Hx) as (Ax & Ex). pose proof (shaped_eq _ _ Hy) as (Ay & Ey).
  assert (C : check_max_pooling_dimensions bm (mp_input_shape l) (mp_mask_shape l) (mp_stride l) (mp_output_shape l) = Done true)
    by (apply check_pool_complete; [apply u32_shape_alloc; exact A|exact P]).
  unfold mp_forward. rewrite Ex, Ey. destruct (mp_run_state l) eqn:R.
  - rewrite max_pool_of_fun by assumption. cbn [bind]. eexists; eexists. split; [reflexivity|]. rewrite <- Ex.
    split; [apply mp_computes; [exact H|exact Hx|reflexivity]|]. split; [exact H|].
    split; [apply shaped_of_fun; exact A|]. auto.
  - rewrite track_of_fun by (try assumption; apply Ht; reflexivity). cbn [bind]. eexists; eexists. split; [reflexivity|]. rewrite <- Ex.
    split; [apply mp_computes; [exact H|exact Hx|reflexivity]|]. cbn. split.
    { split; [exact Ai|]. split; [exact A|]. split; [exact P|]. intros _. cbn. split.
      - rewrite len_map. unfold len. rewrite length_cells. lia.
      - apply Forall_map, Forall_forall. intros ((i & j) & k) Hc. apply in_cells in Hc. apply (track_bound _ _ _ _ _ _ _ _ P Hc). }
    split; [apply shaped_of_fun; exact A|]. auto.
Qed.

Lemma mp_switch_ok bm st l : mp_ok l ->
  exists l', mp_update bm (mp_set_run_state l st) = Done l' /\ mp_ok l'
    /\ @params_of F (LMaxPool l') = params_of (LMaxPool l) /\ mp_name l' = mp_name l /\ mp_run_state l' = st.
Proof.
  intros (Ai & A & P & Ht). unfold mp_update, mp_set_run_state. cbn [mp_run_state mp_output_shape]. destruct st.
  - eexists. split; [reflexivity|]. cbn. split; [|auto]. repeat (split; [assumption|]). cbn. discriminate.
  - rewrite total_size_done by exact A. cbn [bind]. eexists. split; [reflexivity|]. cbn. split; [|auto].
    repeat (split; [assumption|]). cbn. intros _. split; [rewrite len_map; unfold len; rewrite repeat_length; lia|].
    apply Forall_map, Forall_forall. intros; left; reflexivity.
Qed.

Lemma mp_backward_kept bm l (X Y g og og' : T) l' e :
  mp_backward bm l X Y g og = Done (l', og', e) -> layout og' = layout og /\ l' = l.
Proof.
  unfold mp_backward. intros H. apply bind_done in H. destruct H as ((o & r) & E & H). injection H as <- <- <-.
  apply add_from_index_list_layout in E. rewrite fill_with_value_layout in E. auto.
Qed.

(** ** Softmax *)
Lemma sm_forward_ok bm l (X Y0 : T) :
  sm_ok l -> shaped X (sm_shape l) -> shaped Y0 (sm_shape l) ->
  exists Y, sm_forward l X Y0 = Done (l, Y, Ok tt)
    /\ computes bm (params_of (LSoftmax l)) X Y /\ shaped Y (sm_shape l).
Proof.
  intros (A & Ht) Hx Hy. pose proof (shaped_eq _ _ Hx) as (Ax & Ex). pose proof (shaped_eq _ _ Hy) as (Ay & Ey).
  unfold sm_forward. rewrite Ex, Ey, softmax_of_fun. cbn [bind]. eexists. split; [reflexivity|]. rewrite <- Ex.
  split; [|apply shaped_of_fun; exact A]. apply CSoftmax with (x := val X); [apply shaped_holds; exact Hx|].
  apply holds_of_fun. exact A.
Qed.

Lemma sm_switch_ok bm st l : sm_ok l ->
  exists l' : sm_layer F, sm_update bm (sm_set_run_state l st) = Done l' /\ sm_ok l'
    /\ sm_shape l' = sm_shape l /\ sm_name l' = sm_name l /\ sm_run_state l' = st.
Proof.
  intros (A & Ht). unfold sm_update, sm_set_run_state. cbn [sm_run_state sm_shape]. destruct st.
  - rewrite tensor_empty_done. cbn [bind]. eexists. split; [reflexivity|]. cbn. split; [|auto]. split; [exact A|]. discriminate.
  - rewrite tensor_new_done by repeat split. cbn [bind]. rewrite tensor_new_done by exact A. cbn [bind].
    eexists. split; [reflexivity|]. unfold sm_clear_gradients. cbn [sm_intermediate1 sm_intermediate2].
    rewrite !fill_with_value_of_fun. cbn. split; [|auto]. split; [exact A|]. intros _. cbn.
    split; apply shaped_of_fun; [repeat split|exact A].
Qed.

Lemma sm_backward_kept bm l (X Y g og og' : T) l' e :
  sm_backward bm l X Y g og = Done (l', og', e) ->
  layout og' = layout og /\ layout (sm_intermediate1 l') = layout (sm_intermediate1 l)
  /\ layout (sm_intermediate2 l') = layout (sm_intermediate2 l)
  /\ sm_shape l' = sm_shape l /\ sm_name l' = sm_name l /\ sm_run_state l' = sm_run_state l.
Proof.
  unfold sm_backward. destruct (run_state_eqb _ _); [intros [= <- <- <-]; auto 10|].
  intros H. apply bind_done in H. destruct H as ((i1 & r) & E1 & H). apply matrix_multiply_first_layout in E1.
  destruct r as [[]|er]; [|injection H as <- <- <-; cbn; auto 10].
  apply bind_done in H. destruct H as (i2 & E2 & H). apply matrix_multiply_layout in E2. injection H as <- <- <-. cbn.
  rewrite add_to_self_layout, multiply_elementwise_layout, scale_self_layout. auto 10.
Qed.

(** ** All layers *)
Lemma forward_ok bm l (X Y0 : T) :
  relu_agrees F -> layer_ok l -> shaped X (get_input_shape l) -> shaped Y0 (get_output_shape l) ->
  exists l' Y, forward bm l X Y0 = Done (l', Y, Ok tt)
    /\ computes bm (params_of l) X Y /\ layer_ok l' /\ shaped Y (get_output_shape l)
    /\ params_of l' = params_of l /\ get_name l' = get_name l /\ get_run_mode l' = get_run_mode l.
Proof.
  intros RA H Hx Hy. destruct l as [l|l|l|l]; cbn [layer_ok get_input_shape get_output_shape forward] in *.
  - destruct H as (ks & Ak & H). destruct (conv_forward_ok bm ks l X Y0 RA H Hx Hy) as (l' & Y & E & C & H' & S & P & N & R).
    rewrite E. exists (LConv l'), Y. split; [reflexivity|]. cbn [layer_ok get_name get_run_mode]. eauto 10.
  - destruct H as (m & n & H). pose proof H as (Hw & Hb & _). unfold fc_input_shape, fc_output_shape, get_shape in *.
    rewrite (proj2 Hw) in Hx. rewrite (proj2 Hb) in *. cbn [di dj dk] in *.
    destruct (fc_forward_ok bm l m n X Y0 RA H Hx Hy) as (l' & Y & E & C & H' & S & P1 & P2 & N & R).
    rewrite E. exists (LFC l'), Y. split; [reflexivity|]. cbn [layer_ok get_name get_run_mode params_of].
    rewrite P1, P2. eauto 10.
  - destruct (mp_forward_ok bm l X Y0 H Hx Hy) as (l' & Y & E & C & H' & S & P & N & R).
    rewrite E. exists (LMaxPool l'), Y. split; [reflexivity|]. auto 10.
  - destruct (sm_forward_ok bm l X Y0 H Hx Hy) as (Y & E & C & S).
    rewrite E. exists (LSoftmax l), Y. split; [reflexivity|]. auto 10.
Qed.

Lemma params_shapes (l l' : layer F) : params_of l' = params_of l ->
  get_input_shape l' = get_input_shape l /\ get_output_shape l' = get_output_shape l.
Proof.
  destruct l as [l|l|l|l], l' as [l'|l'|l'|l']; cbn [params_of]; try discriminate; cbn [get_input_shape get_output_shape].
  - intros [= _ _ _ -> ->]. auto.
  - unfold fc_input_shape, fc_output_shape. intros [= -> ->]. auto.
  - intros [= -> _ -> _]. auto.
  - intros [= ->]. auto.
Qed.

Lemma backward_kept bm l (X Y g og og' : T) l' e :
  backward bm l X Y g og = Done (l', og', e) ->
  layout og' = layout og /\ params_of l' = params_of l /\ get_name l' = get_name l /\ get_run_mode l' = get_run_mode l
  /\ (layer_ok l -> layer_ok l').
Proof.
  unfold backward. destruct l as [l|l|l|l]; intros H; unfold lift3 in H; apply bind_done in H; destruct H as (((l1 & t1) & e1) & E & H);
    injection H as <- <- <-; cbn [get_name get_run_mode layer_ok].
  - pose proof (cv_backward_kept _ _ _ _ _ _ _ _ _ E) as (L & G & M & P & N & R). do 4 (split; [assumption|]).
    intros (ks & A & H). exists ks. split; [exact A|]. eapply conv_params_ok; eassumption.
  - pose proof (fc_backward_kept _ _ _ _ _ _ _ _ _ E) as (L & _ & _ & _ & _ & P1 & P2 & N & R). cbn [params_of].
    rewrite P1, P2. do 4 (split; [auto|]). intros (m & n & H). exists m, n. eapply fc_backward_ok; eassumption.
  - apply mp_backward_kept in E. destruct E as (L & ->). auto 10.
  - apply sm_backward_kept in E. destruct E as (L & L1 & L2 & P & N & R). cbn [params_of]. rewrite P.
    do 4 (split; [auto|]). intros (A & Ht). split; [rewrite P; exact A|]. rewrite R, P. intros Tr. destruct (Ht Tr) as (T1 & T2).
    split; eapply shaped_layout; eassumption.
Qed.

Lemma switch_to_ok bm st l : layer_ok l ->
  exists l', match st with Training => switch_to_training bm l | Inference => switch_to_inference bm l end = Done l'
    /\ layer_ok l' /\ params_of l' = params_of l /\ get_name l' = get_name l /\ get_run_mode l' = st.
Proof.
  intros H. destruct l as [l|l|l|l]; cbn [layer_ok] in H.
  - destruct H as (ks & A & H). destruct (cv_switch_ok bm st l ks A H) as (l' & E & H' & P & N & R).
    exists (LConv l'). split; [|cbn [layer_ok get_name get_run_mode]; eauto 10].
    destruct st; cbn [switch_to_training switch_to_inference]; unfold cv_switch_to_training, cv_switch_to_inference, lift1; rewrite E; reflexivity.
  - destruct H as (m & n & H). destruct (fc_switch_ok bm st l m n H) as (l' & E & H' & P1 & P2 & N & R).
    exists (LFC l'). split; [|cbn [layer_ok get_name get_run_mode params_of]; rewrite P1, P2; eauto 10].
    destruct st; cbn [switch_to_training switch_to_inference]; unfold fc_switch_to_training, fc_switch_to_inference, lift1; rewrite E; reflexivity.
  - destruct (mp_switch_ok bm st l H) as (l' & E & H' & P & N & R).
    exists (LMaxPool l'). split; [|auto 10].
    destruct st; cbn [switch_to_training switch_to_inference]; unfold mp_switch_to_training, mp_switch_to_inference, lift1; rewrite E; reflexivity.
  - destruct (sm_switch_ok bm st l H) as (l' & E & H' & P & N & R).
    exists (LSoftmax l'). split; [|cbn [layer_ok get_name get_run_mode params_of]; rewrite P; auto 10].
    destruct st; cbn [switch_to_training switch_to_inference]; unfold sm_switch_to_training, sm_switch_to_inference, lift1; rewrite E; reflexivity.
Qed.

(** [computes] is a function. *)
Lemma holds_fun bm (t : T) s f f' : holds bm t s f -> holds bm t s f' -> forall i j k, in_shape s i j k -> f i j k = f' i j k.
Proof. intros H H'. apply holds_iff in H, H'. destruct H as (_ & ->), H' as (_ & E). apply of_fun_inj. exact E. Qed.

Lemma holds_shape bm (t : T) s s' f f' : holds bm t s f -> holds bm t s' f' -> s = s'.
Proof. intros (_ & <- & _) (_ & <- & _). reflexivity. Qed.

Lemma holds_eq bm (t t' : T) s f f' : holds bm t s f -> holds bm t' s f' -> (forall i j k, in_shape s i j k -> f i j k = f' i j k) -> t = t'.
Proof. intros H H' E. apply holds_iff in H, H'. destruct H as (_ & ->), H' as (_ & ->). apply of_fun_ext. exact E. Qed.

Lemma computes_fun bm p (X Y Y' : T) : computes bm p X Y -> computes bm p X Y' -> Y = Y'.
Proof.
  intros H H'. destruct H as [weights bias m n w b X x Y Hw Hb Hx Hy|kernels biases stride ins outs ks h bv X x Y Hk Ek Lb Hb P Hx Hy
    |ins mask outs stride X x Y P Hx Hy|s X x Y Hx Hy].
  - inversion H' as [? ? m' n' w' b' ? x' ? Hw' Hb' Hx' Hy'| | |]; subst.
    pose proof (holds_shape _ _ _ _ _ _ Hw Hw') as E. injection E as <- <-.
    eapply holds_eq; [exact Hy|exact Hy'|]. intros i j k (Hi & _). cbn [di] in Hi.
    f_equal. f_equal.
    + f_equal. apply map_ext_in. intros p Hp. apply in_upto in Hp.
      rewrite (holds_fun _ _ _ _ _ Hw Hw') by (repeat split; cbn; lia).
      rewrite (holds_fun _ _ _ _ _ Hx Hx') by (repeat split; cbn; lia). reflexivity.
    + apply (holds_fun _ _ _ _ _ Hb Hb'). repeat split; cbn; lia.
  - inversion H' as [|? ? ? ? ? ks' h' bv' ? x' ? Hk' Ek' Lb' Hb' P' Hx' Hy'| |]; subst.
    eapply holds_eq; [exact Hy|exact Hy'|]. intros i j k (Hi & Hj & Hkk).
    destruct (vget_some kernels k) as (kt & Nk & _); [lia|]. destruct (vget_some biases k) as (bt & Nb & _); [lia|].
    pose proof (holds_shape _ _ _ _ _ _ (Hk _ _ Nk) (Hk' _ _ Nk)) as <-.
    pose proof (Hb _ _ Nb) as B. rewrite (Hb' _ _ Nb) in B. injection B as ->.
    f_equal. f_equal. f_equal. unfold window_products. apply map_ext_in. intros ((a & b) & c) Hc. apply in_cells in Hc.
    rewrite (holds_fun _ _ _ _ _ (Hk _ _ Nk) (Hk' _ _ Nk)) by exact Hc.
    destruct (P k Hkk) as (D & Ti & Tj & _). destruct Hc as (C1 & C2 & C3).
    pose proof (tiles_bound _ _ _ _ _ _ Ti Hi C1). pose proof (tiles_bound _ _ _ _ _ _ Tj Hj C2).
    rewrite (holds_fun _ _ _ _ _ Hx Hx') by (repeat split; lia). reflexivity.
  - inversion H' as [| |? ? ? ? ? x' ? P' Hx' Hy'|]; subst.
    eapply holds_eq; [exact Hy|exact Hy'|]. intros i j k (Hi & Hj & Hkk). f_equal. unfold window_values. apply map_ext_in.
    intros ((a & b) & c) Hc. apply (holds_fun _ _ _ _ _ Hx Hx'). unfold window_positions in Hc.
    apply in_flat_map in Hc. destruct Hc as (jj & Hjj & Hc). apply in_map_iff in Hc. destruct Hc as (ii & E & Hii). injection E as <- <- <-.
    apply in_upto in Hjj, Hii. destruct P as (D & Ti & Tj).
    pose proof (tiles_bound _ _ _ _ _ _ Ti Hi Hii). pose proof (tiles_bound _ _ _ _ _ _ Tj Hj Hjj). repeat split; lia.
  - inversion H' as [| | |? ? x' ? Hx' Hy']; subst.
    eapply holds_eq; [exact Hy|exact Hy'|]. intros i j k Hin. cbv beta. rewrite (holds_fun _ _ _ _ _ Hx Hx' i j k Hin). f_equal. f_equal.
    apply map_ext_in. intros ((a & b) & c) Hc. apply in_cells in Hc. rewrite (holds_fun _ _ _ _ _ Hx Hx') by exact Hc. reflexivity.
Qed.

Lemma composes_fun bm ps (X Y Y' : T) : composes bm ps X Y -> composes bm ps X Y' -> Y = Y'.
Proof.
  revert X; induction ps as [|p ps IH]; intros X; cbn [composes]; [congruence|].
  intros (Z & C & H) (Z' & C' & H'). rewrite (computes_fun _ _ _ _ _ C' C) in H'. eapply IH; eassumption.
Qed.

End Facts.
