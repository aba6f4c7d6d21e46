(** * Single layers: forward in both modes, accumulation, repeated backward, construction *)
From Coq Require Import ZifyBool ZifyNat ZifyN.
From Verif Require Import Base Arith Helper Tensor Convolution Network Bincode Serial Spec SpecLayer SpecNet SpecTrain Loops TensorFacts OpsFacts.
From Verif Require Import ProofsTensor ProofsConv ProofsBackprop ProofsPool Layout LayerFacts BackFacts.
Ltac Zify.zify_post_hook ::= Z.div_mod_to_equations.

Section Facts.
Context {F : Type} {AR : Arith F}.
Notation T := (tensor F).

Lemma fc_forward_holds bm l m n w b x (X Y0 : T) :
  relu_agrees F -> fc_ok m n l -> holds bm (fc_weights l) (mkShape m n 1) w -> holds bm (fc_bias l) (mkShape m 1 1) b ->
  holds bm X (mkShape n 1 1) x -> shaped Y0 (mkShape m 1 1) ->
  exists l' Y, fc_forward bm l X Y0 = Done (l', Y, Ok tt)
    /\ holds bm Y (mkShape m 1 1) (fun i _ _ => relu (fadd (sum (map (fun p => fmul (w i p 0) (x p 0 0)) (upto n))) (b i 0 0))).
Proof.
  intros RA O Hw Hb Hx Hy. destruct (fc_forward_ok bm l m n X Y0 RA O (holds_shaped _ _ _ _ Hx) Hy) as (l' & Y & E & C & _ & S & _).
  exists l', Y. split; [exact E|].
  assert (C' : exists Y', computes bm (PFC (fc_weights l) (fc_bias l)) X Y' /\ holds bm Y' (mkShape m 1 1)
     (fun i _ _ => relu (fadd (sum (map (fun p => fmul (w i p 0) (x p 0 0)) (upto n))) (b i 0 0)))).
  { eexists. split; [eapply CFC; try eassumption|]; apply holds_of_fun; apply (shaped_eq _ _ S). }
  destruct C' as (Y' & C' & H). rewrite (computes_fun _ _ _ _ _ C C'). exact H.
Qed.

Lemma conv_forward_holds bm ks l h bv x (X Y0 : T) :
  relu_agrees F -> conv_layer_ok ks l -> all_hold bm (cv_kernels l) ks h ->
  (forall n b, nth_error (cv_biases l) (N.to_nat n) = Some b -> get_item bm b (mkIndex 0 0 0) = Done (bv n)) ->
  holds bm X (cv_input_shape l) x -> shaped Y0 (cv_output_shape l) ->
  exists l' Y, cv_forward bm l X Y0 = Done (l', Y, Ok tt)
    /\ holds bm Y (cv_output_shape l) (fun i j k => relu (fadd (sum (window_products ks (cv_stride l) x (h k) i j)) (bv k))).
Proof.
  intros RA O Hk Hb Hx Hy. destruct (conv_forward_ok bm ks l X Y0 RA O (holds_shaped _ _ _ _ Hx) Hy) as (l' & Y & E & C & _ & S & _).
  exists l', Y. split; [exact E|]. destruct O as (_ & Ek & Lb & _ & _ & Ao & P & _).
  assert (C' : exists Y', computes bm (params_of (LConv l)) X Y' /\ holds bm Y' (cv_output_shape l)
     (fun i j k => relu (fadd (sum (window_products ks (cv_stride l) x (h k) i j)) (bv k)))).
  { eexists. split; [eapply CConv with (ks := ks) (h := h) (bv := bv); try eassumption; [lia|]|]; apply holds_of_fun; exact Ao. }
  destruct C' as (Y' & C' & H). rewrite (computes_fun _ _ _ _ _ C C'). exact H.
Qed.

Lemma mp_forward_holds bm l x (X Y0 : T) :
  mp_ok l -> holds bm X (mp_input_shape l) x -> shaped Y0 (mp_output_shape l) ->
  exists l' Y, mp_forward bm l X Y0 = Done (l', Y, Ok tt)
    /\ holds bm Y (mp_output_shape l) (fun i j k => running_max (window_values (di (mp_mask_shape l)) (dj (mp_mask_shape l)) (mp_stride l) x i j k)).
Proof.
  intros O Hx Hy. destruct (mp_forward_ok bm l X Y0 O (holds_shaped _ _ _ _ Hx) Hy) as (l' & Y & E & C & _ & S & _).
  exists l', Y. split; [exact E|]. destruct O as (_ & Ao & P & _).
  assert (C' : exists Y', computes bm (params_of (LMaxPool l)) X Y' /\ holds bm Y' (mp_output_shape l)
     (fun i j k => running_max (window_values (di (mp_mask_shape l)) (dj (mp_mask_shape l)) (mp_stride l) x i j k))).
  { eexists. split; [eapply CMaxPool; try eassumption|]; apply holds_of_fun; exact Ao. }
  destruct C' as (Y' & C' & H). rewrite (computes_fun _ _ _ _ _ C C'). exact H.
Qed.

(** ** Fully connected layers that satisfy [fc_ok] *)
Lemma fc_fill_ok bm (l0 l : fc_layer F) weights bias name m n :
  shaped weights (mkShape m n 1) -> wf bias -> fc_fill_from_state bm l0 weights bias name = Done (l, Ok tt) ->
  fc_ok m n l /\ fc_weights l = weights /\ fc_bias l = bias /\ fc_name l = name /\ fc_run_state l = fc_run_state l0.
Proof.
  intros Hw Wb H. unfold fc_fill_from_state, get_shape in H. rewrite (proj2 Hw) in H. cbn [di dj dk] in H.
  destruct (N.eqb_spec 1 (dk (tshape bias))) as [E1|]; cbn [negb] in H; [|discriminate].
  destruct (N.eqb_spec m (di (tshape bias))) as [E2|]; cbn [negb] in H; [|discriminate].
  destruct (N.eqb_spec (dj (tshape bias)) 1) as [E3|]; cbn [negb] in H; [|discriminate].
  assert (Hb : shaped bias (mkShape m 1 1)) by (split; [exact Wb|]; destruct (tshape bias); cbn in *; congruence).
  set (l1 := mkFC weights _ _ bias _ _ name (fc_run_state l0)) in H.
  destruct (fc_update_ok bm l1 m n Hw Hb) as (l2 & E & O & P1 & P2 & P3 & P4). rewrite E in H. cbn [bind] in H. injection H as ->. auto.
Qed.

Lemma fc_new_ok bm n m name : 0 < n -> 0 < m -> n < W32 -> m < W32 -> n * m < W32 ->
  exists l : fc_layer F, fc_new bm n m name = Done l /\ fc_ok m n l
    /\ fc_weights l = of_fun (mkShape m n 1) (fun _ _ _ => fzero) /\ fc_bias l = of_fun (mkShape m 1 1) (fun _ _ _ => fzero)
    /\ fc_name l = name /\ fc_run_state l = Inference.
Proof.
  intros Zn Zm Bn Bm B. unfold fc_new, fc_empty. rewrite tensor_empty_done. cbn [bind].
  unfold shape_new. replace (N.max m 1) with m by lia. replace (N.max n 1) with n by lia. replace (N.max 1 1) with 1 by lia.
  assert (A : allocatable (mkShape m n 1)) by (unfold allocatable, W32 in *; cbn [di dj dk]; lia).
  assert (A' : allocatable (mkShape m 1 1)) by (unfold allocatable, W32 in *; cbn [di dj dk]; lia).
  rewrite !tensor_new_done by assumption. cbn [bind].
  set (l0 := mkFC _ _ _ _ _ _ _ Inference). set (w := of_fun (mkShape m n 1) _). set (b := of_fun (mkShape m 1 1) _).
  destruct (fc_update_ok bm (mkFC w (fc_weights_gradients l0) (fc_weights_gradients_intermediate l0) b (fc_bias_gradients l0) (fc_relu_mask l0) name (fc_run_state l0)) m n)
    as (l & E & O & P1 & P2 & P3 & P4); [apply shaped_of_fun; exact A|apply shaped_of_fun; exact A'|].
  unfold fc_fill_from_state, get_shape, w, b. cbn [tshape of_fun di dj dk]. fold (of_fun (mkShape m n 1) (fun _ _ _ : N => fzero)).
  fold (of_fun (mkShape m 1 1) (fun _ _ _ : N => fzero)). fold w b. rewrite N.eqb_refl. cbn [negb N.eqb]. rewrite N.eqb_refl. cbn [negb].
  change (1 =? 1) with true. cbn [negb]. rewrite E. cbn [bind]. eauto 10.
Qed.

(** ** Accumulation in a fully connected layer *)
Definition fc_set_mask (l : fc_layer F) (mask : T) : fc_layer F :=
  mkFC (fc_weights l) (fc_weights_gradients l) (fc_weights_gradients_intermediate l) (fc_bias l) (fc_bias_gradients l) mask (fc_name l) (fc_run_state l).

Lemma fc_forward_training bm l m n (X Y0 : T) :
  fc_ok m n l -> fc_run_state l = Training -> shaped X (mkShape n 1 1) -> shaped Y0 (mkShape m 1 1) ->
  fc_forward bm l X Y0
  = Done (fc_set_mask l (of_fun (mkShape m 1 1) (fun i _ _ => gate (pre_activation n (val (fc_weights l)) (val (fc_bias l)) (val X) i))),
          of_fun (mkShape m 1 1) (fun i _ _ => relu (pre_activation n (val (fc_weights l)) (val (fc_bias l)) (val X) i)), Ok tt).
Proof.
  intros (Hw & Hb & Ht) R Hx Hy. destruct (Ht R) as (H1 & H2 & H3 & H4). unfold fc_forward. rewrite R.
  pose proof (shaped_eq _ _ Hw) as (Aw & Ew). pose proof (shaped_eq _ _ Hb) as (Ab & Eb).
  pose proof (shaped_eq _ _ Hx) as (Ax & Ex). pose proof (shaped_eq _ _ Hy) as (Ay & Ey). pose proof (shaped_eq _ _ H4) as (Am & Em).
  pose proof (matrix_multiply_of_fun bm _ (val (fc_weights l)) _ (val X) _ (val Y0) Aw Ax Ay (mm_check m n)) as Q.
  rewrite <- Ew, <- Ex, <- Ey in Q. rewrite Q. cbn [bind dj].
  rewrite Eb at 1. rewrite add_to_self_of_fun. rewrite Em, relu_mask_of_fun. cbn [fst snd].
  unfold fc_set_mask. rewrite R.
  assert (Z : forall i j k, in_shape (mkShape m 1 1) i j k ->
     fadd (mm_fn n (val (fc_weights l)) (val X) i j k) (val (fc_bias l) i j k) = pre_activation n (val (fc_weights l)) (val (fc_bias l)) (val X) i).
  { intros i j k (_ & Hj & Hk). cbn [dj dk] in *. assert (j = 0) by lia. assert (k = 0) by lia. subst. reflexivity. }
  f_equal. f_equal. f_equal; [f_equal|]; apply of_fun_ext; intros i j k Hin; rewrite (Z i j k Hin); reflexivity.
Qed.

Definition weight_part (n : N) (w b : N -> N -> N -> F) (i j : N) (x g : N -> N -> N -> F) : F :=
  fadd fzero (fmul (fmul (gate (pre_activation n w b x i)) (g i 0 0)) (x j 0 0)).
Definition bias_part (n : N) (w b : N -> N -> N -> F) (i : N) (x g : N -> N -> N -> F) : F :=
  fmul (gate (pre_activation n w b x i)) (g i 0 0).

Lemma pre_activation_ext m n w w' b b' (x x' : N -> N -> N -> F) i : i < m ->
  (forall i j k, in_shape (mkShape m n 1) i j k -> w i j k = w' i j k) ->
  (forall i j k, in_shape (mkShape m 1 1) i j k -> b i j k = b' i j k) ->
  (forall i j k, in_shape (mkShape n 1 1) i j k -> x i j k = x' i j k) ->
  pre_activation n w b x i = pre_activation n w' b' x' i.
Proof.
  intros Hi Ew Eb Ex. unfold pre_activation. f_equal.
  - f_equal. apply map_ext_in. intros p Hp. apply in_upto in Hp. rewrite Ew, Ex by (repeat split; cbn; lia). reflexivity.
  - apply Eb. repeat split; cbn; lia.
Qed.

Lemma fc_accumulates bm m n (ops : list (train_op F)) hist : forall (l : fc_layer F) w b wg bg,
  fc_ok m n l -> fc_run_state l = Training -> holds bm (fc_weights l) (mkShape m n 1) w -> holds bm (fc_bias l) (mkShape m 1 1) b ->
  holds bm (fc_weights_gradients l) (mkShape m n 1) wg -> holds bm (fc_bias_gradients l) (mkShape m 1 1) bg ->
  Forall2 (pair_holds bm m n) ops hist ->
  exists l', train_all bm (LFC l) ops = Done (LFC l', Ok tt) /\ fc_weights l' = fc_weights l /\ fc_bias l' = fc_bias l
    /\ holds bm (fc_weights_gradients l') (mkShape m n 1) (fun i j _ => accumulated (weight_part n w b i j) (wg i j 0) hist)
    /\ holds bm (fc_bias_gradients l') (mkShape m 1 1) (fun i _ _ => accumulated (bias_part n w b i) (bg i 0 0) hist).
Proof.
  intros l w b wg bg O R Hw Hb Hwg Hbg H. revert l wg bg O R Hw Hb Hwg Hbg.
  induction H as [|op p ops hist Hp H IH]; intros l wg bg O R Hw Hb Hwg Hbg.
  - exists l. split; [reflexivity|]. do 2 (split; [reflexivity|]). split.
    + eapply holds_ext; [|exact Hwg]. intros i j k (_ & _ & Hk). cbn [dk] in Hk. assert (k = 0) by lia. subst. reflexivity.
    + eapply holds_ext; [|exact Hbg]. intros i j k (_ & Hj & Hk). cbn [dj dk] in *. assert (j = 0) by lia. assert (k = 0) by lia. subst. reflexivity.
  - unfold train_all. cbn [tryM]. destruct op as [x y g og|], p as [[fx fg]|]; try destruct Hp.
    + destruct H1 as (Hg & Hy & Ho). cbn [train_step forward backward].
      pose proof (holds_shaped _ _ _ _ H0) as Sx. pose proof (holds_shaped _ _ _ _ Hg) as Sg.
      rewrite (fc_forward_training bm l m n x y O R Sx Hy). cbn [lift3 bind].
      set (mask := of_fun _ _). set (y' := of_fun (mkShape m 1 1) (fun i _ _ => relu _)).
      assert (O1 : fc_ok m n (fc_set_mask l mask)).
      { destruct O as (Ow & Ob & Ot). split; [exact Ow|]. split; [exact Ob|]. intros Tr. destruct (Ot R) as (H5 & H2 & H3 & H4).
        cbn. split; [exact H5|]. split; [exact H2|]. split; [exact H3|]. apply shaped_of_fun. apply (shaped_eq _ _ H4). }
      cbn [backward]. rewrite (fc_backward_values bm (fc_set_mask l mask) m n x y' g og O1 R Sx Sg Ho). cbn [lift3 bind].
      set (l1 := fc_after m n (fc_set_mask l mask) (val x) (val g)).
      assert (Am : allocatable (mkShape m 1 1)) by apply (shaped_eq _ _ Sg).
      assert (Aw : allocatable (mkShape m n 1)) by (apply holds_iff in Hw; apply Hw).
      pose proof (holds_fun _ _ _ _ _ (shaped_holds bm _ _ Sx) H0) as Fx.
      pose proof (holds_fun _ _ _ _ _ (shaped_holds bm _ _ Sg) Hg) as Fg.
      pose proof (holds_fun _ _ _ _ _ (shaped_holds bm _ _ (holds_shaped _ _ _ _ Hw)) Hw) as Fw.
      pose proof (holds_fun _ _ _ _ _ (shaped_holds bm _ _ (holds_shaped _ _ _ _ Hb)) Hb) as Fb.
      pose proof (holds_fun _ _ _ _ _ (shaped_holds bm _ _ (holds_shaped _ _ _ _ Hwg)) Hwg) as Fwg.
      pose proof (holds_fun _ _ _ _ _ (shaped_holds bm _ _ (holds_shaped _ _ _ _ Hbg)) Hbg) as Fbg.
      assert (Fm : forall i, i < m -> val mask i 0 0 = gate (pre_activation n w b fx i)).
      { intros i Hi. unfold mask. rewrite val_of_fun by (repeat split; cbn; lia). f_equal. eapply pre_activation_ext; eassumption. }
      destruct (IH l1 (fun i j k => fadd (wg i j k) (weight_part n w b i j fx fg)) (fun i j k => fadd (bg i j k) (bias_part n w b i fx fg)))
        as (l' & E & P1 & P2 & G1 & G2).
      { eapply fc_backward_ok; [exact O1|]. apply (fc_backward_values bm (fc_set_mask l mask) m n x y' g og O1 R Sx Sg Ho). }
      { exact R. } { exact Hw. } { exact Hb. }
      { apply holds_iff. split; [exact Aw|]. unfold l1, fc_after. cbn [fc_weights_gradients]. apply of_fun_ext.
        intros i j k Hin. pose proof Hin as (Hi & Hj & Hk). cbn [di dj dk] in *. assert (k = 0) by lia. subst k.
        cbn [fc_set_mask fc_relu_mask fc_weights_gradients]. rewrite Fwg by exact Hin. f_equal. unfold mm_fn, weight_part.
        change (upto 1) with [0]. unfold sum. cbn [map fold_left]. rewrite Fm by exact Hi. rewrite Fg, Fx by (repeat split; cbn; lia). reflexivity. }
      { apply holds_iff. split; [exact Am|]. unfold l1, fc_after. cbn [fc_bias_gradients]. apply of_fun_ext.
        intros i j k Hin. pose proof Hin as (Hi & Hj & Hk). cbn [di dj dk] in *. assert (j = 0) by lia. assert (k = 0) by lia. subst j k.
        cbn [fc_set_mask fc_relu_mask fc_bias_gradients]. rewrite Fbg by exact Hin. f_equal. unfold bias_part.
        rewrite Fm by exact Hi. rewrite Fg by (repeat split; cbn; lia). reflexivity. }
      exists l'. split; [exact E|]. rewrite P1, P2. do 2 (split; [reflexivity|]). split; [exact G1|exact G2].
    + cbn [train_step clear_gradients bind].
      destruct (IH (fc_clear_gradients l) (fun _ _ _ => fzero) (fun _ _ _ => fzero)) as (l' & E & P1 & P2 & G1 & G2).
      { apply fc_clear_ok. exact O. } { exact R. } { exact Hw. } { exact Hb. }
      { cbn [fc_clear_gradients fc_weights_gradients]. apply holds_iff in Hwg. destruct Hwg as (A & ->).
        rewrite fill_with_value_of_fun. apply holds_of_fun. exact A. }
      { cbn [fc_clear_gradients fc_bias_gradients]. apply holds_iff in Hbg. destruct Hbg as (A & ->).
        rewrite fill_with_value_of_fun. apply holds_of_fun. exact A. }
      exists l'. split; [exact E|]. rewrite P1, P2. auto.
Qed.

(** ** Convolutional backward *)
Lemma conv_backward_exact bm ks l l' x gf (X Y g og og' : T) r :
  conv_layer_ok ks l -> cv_run_state l = Training -> holds bm X (cv_input_shape l) x -> holds bm g (cv_output_shape l) gf ->
  cv_backward bm l X Y g og = Done (l', og', r) ->
  len (cv_kernel_gradients l') = len (cv_kernels l)
  /\ all_hold bm (cv_kernel_gradients l') ks (fun _ a b c =>
       sum (map (fun '(i, j, k) => fmul (x (a + i * cv_stride l) (b + j * cv_stride l) c) (gf i j k)) (cells (cv_output_shape l))))
  /\ cv_bias_gradients l' = cv_bias_gradients l
  /\ convolution_backprop_outgoing_gradient bm g (cv_kernels l) (cv_stride l) og = Done (og', r).
Proof.
  intros O R Hx Hg E. pose proof (holds_shaped _ _ _ _ Hx) as Sx. pose proof (holds_shaped _ _ _ _ Hg) as Sg.
  rewrite (cv_backward_values bm ks l X Y g og O R Sx Sg) in E. apply bind_done in E. destruct E as ((o & r') & E & H). injection H as <- -> ->.
  cbn [cv_set_kernel_gradients cv_set_mask cv_kernel_gradients cv_bias_gradients].
  split; [unfold len; rewrite repeat_length; reflexivity|]. split; [|split; [reflexivity|exact E]].
  intros n t Nt. assert (t = of_fun ks (fun a b c => sum (kgrad_terms (cv_output_shape l) (cv_stride l) (val X) (val g) a b c))).
  { apply nth_error_In, repeat_spec in Nt. exact Nt. }
  assert (Ln : n < len (cv_kernels l)).
  { assert (N.to_nat n < length (repeat (of_fun ks (fun a b c => sum (kgrad_terms (cv_output_shape l) (cv_stride l) (val X) (val g) a b c))) (length (cv_kernels l))))%nat
      by (apply nth_error_Some; rewrite Nt; discriminate). rewrite repeat_length in H0. unfold len. lia. }
  destruct O as (Hk & Ek & _ & _ & _ & _ & P & _). destruct (vget_some (cv_kernels l) n Ln) as (k & Nk & _).
  pose proof (Forall_nth _ _ _ _ Hk Nk) as Sk. subst t. apply holds_iff. split; [apply (shaped_eq _ _ Sk)|].
  apply of_fun_ext. intros a b c (Ha & Hb & Hc). unfold kgrad_terms. f_equal. apply map_ext_in. intros ((i & j) & kk) Hin. apply in_cells in Hin.
  pose proof Hin as (Hi & Hj & Hkk). destruct (P kk Hkk) as (D & Ti & Tj & _).
  pose proof (tiles_bound _ _ _ _ _ _ Ti Hi Ha). pose proof (tiles_bound _ _ _ _ _ _ Tj Hj Hb).
  rewrite (holds_fun _ _ _ _ _ (shaped_holds bm _ _ Sg) Hg) by exact Hin.
  rewrite (holds_fun _ _ _ _ _ (shaped_holds bm _ _ Sx) Hx) by (repeat split; lia). reflexivity.
Qed.

Lemma conv_backward_unmasked bm ks l1 l2 (X Y g og : T) :
  conv_layer_ok ks l1 -> conv_layer_ok ks l2 -> cv_run_state l1 = Training -> cv_run_state l2 = Training ->
  params_of (LConv l1) = params_of (LConv l2) -> shaped X (cv_input_shape l1) -> shaped g (cv_output_shape l1) ->
  match cv_backward bm l1 X Y g og, cv_backward bm l2 X Y g og with
  | Done (l1', og1, r1), Done (l2', og2, r2) => cv_kernel_gradients l1' = cv_kernel_gradients l2' /\ og1 = og2 /\ r1 = r2
  | Panic p1, Panic p2 => p1 = p2
  | _, _ => False
  end.
Proof.
  intros O1 O2 R1 R2 P Hx Hg. cbn [params_of] in P. injection P as P1 P2 P3 P4 P5.
  rewrite (cv_backward_values bm ks l1 X Y g og O1 R1 Hx Hg). rewrite P4 in Hx. rewrite P5 in Hg.
  rewrite (cv_backward_values bm ks l2 X Y g og O2 R2 Hx Hg). rewrite P1, P3, P5.
  destruct (convolution_backprop_outgoing_gradient _ _ _ _ _) as [(o & r)|]; cbn; auto.
Qed.

Lemma cv_clear_zero bm ks (l : conv_layer F) : Forall (fun k => shaped k ks) (cv_kernel_gradients l) ->
  all_hold bm (cv_kernel_gradients (cv_clear_gradients l)) ks (fun _ _ _ _ => fzero).
Proof.
  intros H n t Nt. cbn [cv_clear_gradients cv_set_kernel_gradients cv_kernel_gradients] in Nt.
  rewrite nth_error_map in Nt. destruct (nth_error (cv_kernel_gradients l) (N.to_nat n)) as [k|] eqn:E; [|discriminate]. injection Nt as <-.
  pose proof (Forall_nth _ _ _ _ H E) as S. pose proof (shaped_eq _ _ S) as (A & Ek). rewrite Ek, fill_with_value_of_fun.
  apply holds_of_fun. exact A.
Qed.

Lemma forM_each {A S} (f : A -> S -> res S) l s s' : forM l f s = Done s' -> forall x, In x l -> exists s1 s2, f x s1 = Done s2.
Proof.
  revert s; induction l as [|a l IH]; intros s E x Hx; [destruct Hx|]. cbn [forM] in E. apply bind_done in E. destruct E as (s1 & E1 & E2).
  destruct Hx as [<-|Hx]; [eauto|]. eapply IH; eassumption.
Qed.

(** A loop that writes every cell with a value not read from the result forgets the old contents. *)
Lemma for_kji_forgets bm s (c : N -> N -> N -> res F) f f' r : allocatable s ->
  for_kji s (fun i j k t => v <- c i j k ;; id <- get_data_index bm t (mkIndex i j k) ;; data_set t id v) (of_fun s f) = Done r ->
  for_kji s (fun i j k t => v <- c i j k ;; id <- get_data_index bm t (mkIndex i j k) ;; data_set t id v) (of_fun s f') = Done r.
Proof.
  intros A E. pose (v := fun i j k => match c i j k with Done x => x | Panic _ => fzero end).
  assert (D : forall i j k, in_shape s i j k -> c i j k = Done (v i j k)).
  { intros i j k Hin. rewrite for_kji_cells in E. pose proof (forM_each _ _ _ _ E (i, j, k) (proj2 (in_cells s i j k) Hin)) as (s1 & s2 & H).
    apply bind_done in H. destruct H as (x & Ex & _). unfold v. rewrite Ex. reflexivity. }
  assert (W : forall f, for_kji s (fun i j k t => v <- c i j k ;; id <- get_data_index bm t (mkIndex i j k) ;; data_set t id v) (of_fun s f) = Done (of_fun s v)).
  { intros f0. apply for_kji_write. intros i j k f1 Hin. rewrite D by exact Hin. cbn [bind].
    rewrite data_index_of_fun by assumption. cbn [bind]. apply data_set_of_fun. assumption. }
  rewrite W in E |- *. exact E.
Qed.

Lemma outgoing_forgets bm (g : T) kernels stride s f f' og : allocatable s ->
  convolution_backprop_outgoing_gradient bm g kernels stride (of_fun s f) = Done (og, Ok tt) ->
  convolution_backprop_outgoing_gradient bm g kernels stride (of_fun s f') = Done (og, Ok tt).
Proof.
  intros A. unfold convolution_backprop_outgoing_gradient, get_shape. cbn [tshape of_fun]. fold (of_fun s f) (of_fun s f').
  intros H. apply bind_done in H. destruct H as ((u & chk) & E & H). rewrite E. cbn [bind]. destruct chk as [[]|e]; [|discriminate].
  destruct (negb _); [discriminate|]. apply bind_done in H. destruct H as (r & Er & H). injection H as ->.
  rewrite (for_kji_forgets bm s _ f f' og A Er). reflexivity.
Qed.

Lemma conv_backward_twice bm ks l (X Y g og og' og1 : T) l1 :
  conv_layer_ok ks l -> cv_run_state l = Training -> shaped X (cv_input_shape l) -> shaped g (cv_output_shape l) ->
  shaped og (cv_input_shape l) -> shaped og' (cv_input_shape l) ->
  cv_backward bm l X Y g og = Done (l1, og1, Ok tt) -> exists l2, cv_backward bm l1 X Y g og' = Done (l2, og1, Ok tt).
Proof.
  intros O R Hx Hg Ho Ho' E. pose proof (cv_backward_kept _ _ _ _ _ _ _ _ _ E) as (_ & G & M & P & _ & R1).
  pose proof (conv_params_ok ks l l1 O P R1 G M) as O1. cbn [params_of] in P. injection P as P1 P2 P3 P4 P5.
  rewrite (cv_backward_values bm ks l X Y g og O R Hx Hg) in E. apply bind_done in E. destruct E as ((o & r) & E & H). injection H as H1 -> ->.
  rewrite (cv_backward_values bm ks l1 X Y g og' O1) by (try congruence; rewrite ?P4, ?P5; assumption). rewrite P1, P3.
  pose proof (shaped_eq _ _ Ho) as (Ao & Eo). pose proof (shaped_eq _ _ Ho') as (_ & Eo').
  rewrite Eo in E. apply outgoing_forgets with (f' := val og') in E; [|exact Ao]. rewrite <- Eo' in E. rewrite E. cbn [bind]. eauto.
Qed.

Lemma backward_twice bm l (X Y g og og' og1 : T) l1 :
  layer_ok l -> get_run_mode l = Training -> (match l with LFC _ => False | _ => True end) ->
  shaped X (get_input_shape l) -> shaped Y (get_output_shape l) -> shaped g (get_output_shape l) ->
  shaped og (get_input_shape l) -> shaped og' (get_input_shape l) ->
  backward bm l X Y g og = Done (l1, og1, Ok tt) -> exists l2, backward bm l1 X Y g og' = Done (l2, og1, Ok tt).
Proof.
  intros O R NF Hx Hy Hg Ho Ho' E. destruct l as [l|l|l|l]; [| destruct NF | |]; cbn [get_run_mode get_input_shape get_output_shape backward] in *;
    unfold lift3 in E; apply bind_done in E; destruct E as (((l0 & t) & r) & E & H); injection H as <- <- ->; cbn [backward].
  - destruct O as (ks & Ak & O). destruct (conv_backward_twice bm ks l X Y g og og' t l0 O R Hx Hg Ho Ho' E) as (l2 & ->). cbn. eauto.
  - pose proof E as E'. unfold mp_backward in E. apply bind_done in E. destruct E as ((o & r) & E & H). injection H as <- -> ->.
    unfold mp_backward. pose proof (shaped_eq _ _ Ho) as (Ao & Eo). pose proof (shaped_eq _ _ Ho') as (_ & Eo').
    rewrite Eo, fill_with_value_of_fun in E. rewrite Eo', fill_with_value_of_fun, E. cbn. eauto.
  - assert (C : exists n, sm_shape l = mkShape n 1 1).
    { exists (di (sm_shape l)). unfold sm_backward in E. rewrite R in E. cbn [run_state_eqb] in E. destruct O as (A & Ht). destruct (Ht R) as (H1 & H2).
      apply bind_done in E. destruct E as ((i1 & r) & E & H). destruct r as [[]|e]; [|discriminate].
      destruct (check_matrix_multiply_dimensions (shape_transpose_ij (tshape Y)) (tshape g) (tshape (sm_intermediate1 l))) eqn:C.
      - apply check_mm_true in C. rewrite (proj2 Hy), (proj2 Hg), (proj2 H1) in C. cbn [di dj dk shape_transpose_ij] in C.
        destruct (sm_shape l) as [a b c]; cbn [di dj dk] in *. f_equal; lia.
      - destruct (mm_first_err bm Y g (sm_intermediate1 l) C) as (e & E'). rewrite E' in E. discriminate. }
    destruct C as (n & C). pose proof E as E0. pose proof (backward_kept bm (LSoftmax l) X Y g og t (LSoftmax l0) (Ok tt)) as K.
    cbn [backward] in K. unfold lift3 in K. rewrite E in K. destruct (K eq_refl) as (_ & P & _ & R1 & O1). cbn [params_of get_run_mode layer_ok] in *.
    injection P as P. rewrite C in *.
    destruct (sm_backward_values bm l n X Y g og O R C Hy Hg Ho) as (l3 & E3). rewrite E3 in E. injection E as <- <-.
    destruct (sm_backward_values bm l3 n X Y g og' (O1 O) ltac:(congruence) P Hy Hg Ho') as (l4 & E4). rewrite E4. cbn. eauto.
Qed.

(** ** Convolutional layers that satisfy [conv_layer_ok] *)
Lemma tile_counts bm m e stride n d0 m0 q0 : m < W32 -> (bm = Debug \/ e <= m) -> ~ extent_edge m e stride ->
  u32_sub bm m e = Done d0 -> u32_rem d0 stride = Done m0 -> m0 = 0 -> u32_div d0 stride = Done q0 -> u32_add bm q0 1 = Done n ->
  tiles m e stride n.
Proof.
  intros Hm Hb He S M Z D A.
  assert (Le : e <= m).
  { destruct Hb as [->|Hb]; [|exact Hb]. unfold u32_sub in S. destruct (N.leb_spec e m); [assumption|discriminate]. }
  rewrite u32_sub_done in S by lia. injection S as <-.
  assert (Hs : stride <> 0) by (intros ->; discriminate). rewrite u32_rem_done in M by exact Hs. injection M as <-.
  rewrite u32_div_done in D by exact Hs. injection D as <-. split; [exact Hs|]. split; [exact Le|]. split; [exact Z|].
  assert (Q : (m - e) / stride <= m - e) by (apply N.div_le_upper_bound; [exact Hs|]; nia).
  assert (Q1 : (m - e) / stride + 1 < W32).
  { destruct (N.eq_dec ((m - e) / stride) (W32 - 1)) as [E|]; [|unfold W32 in *; lia]. exfalso. apply He.
    assert (m = W32 - 1) by (unfold W32 in *; lia). assert (e = 0) by (unfold W32 in *; lia). subst. split; [reflexivity|]. split; [reflexivity|].
    destruct (N.eq_dec stride 1) as [->|]; [reflexivity|]. exfalso. rewrite N.sub_0_r in E.
    assert ((W32 - 1) / stride <= (W32 - 1) / 2) by (apply N.div_le_compat_l; lia). change ((W32 - 1) / 2) with 2147483647 in *. unfold W32 in *. lia. }
  rewrite u32_add_done in A by exact Q1. congruence.
Qed.

Lemma fit_tiles bm ins ks stride d0 d1 : u32_shape ins -> (bm = Debug \/ kernel_fits ins ks) ->
  ~ extent_edge (di ins) (di ks) stride -> ~ extent_edge (dj ins) (dj ks) stride ->
  does_kernel_stride_fit_image bm ins ks stride = Done true -> get_convolution_dim_fit bm ins ks stride = Done (d0, d1) ->
  tiles (di ins) (di ks) stride d0 /\ tiles (dj ins) (dj ks) stride d1.
Proof.
  intros (U0 & U1 & U2) Fi N0 N1 Ef Ed. unfold does_kernel_stride_fit_image in Ef. unfold get_convolution_dim_fit in Ed.
  apply bind_done in Ef. destruct Ef as (a0 & S0 & Ef). apply bind_done in Ef. destruct Ef as (m0 & M0 & Ef).
  destruct (N.eqb_spec m0 0) as [Z0|]; cbn [negb] in Ef; [|discriminate].
  apply bind_done in Ef. destruct Ef as (a1 & S1 & Ef). apply bind_done in Ef. destruct Ef as (m1 & M1 & Ef).
  destruct (N.eqb_spec m1 0) as [Z1|]; cbn [negb] in Ef; [|discriminate].
  rewrite S0 in Ed. cbn [bind] in Ed. apply bind_done in Ed. destruct Ed as (q0 & D0 & Ed). apply bind_done in Ed. destruct Ed as (f0 & A0 & Ed).
  rewrite S1 in Ed. cbn [bind] in Ed. apply bind_done in Ed. destruct Ed as (q1 & D1 & Ed). apply bind_done in Ed. destruct Ed as (f1 & A1 & Ed).
  injection Ed as -> ->. split.
  - apply (tile_counts bm (di ins) (di ks) stride d0 a0 m0 q0); try assumption. destruct Fi as [Fi|(Fi & _)]; [left|right]; assumption.
  - apply (tile_counts bm (dj ins) (dj ks) stride d1 a1 m1 q1); try assumption. destruct Fi as [Fi|(_ & Fi)]; [left|right]; assumption.
Qed.

Lemma cv_fill_ok bm (l0 l : conv_layer F) kernels biases ins stride name ks :
  cv_fill_from_state bm l0 kernels biases ins stride name = Done (l, Ok tt) ->
  Forall (fun k => shaped k ks) kernels -> Forall (fun b => wf b /\ at_most_one (tshape b)) biases -> len kernels <= len biases ->
  len kernels < W32 -> dk ks = dk ins -> (bm = Debug \/ kernel_fits ins ks) ->
  ~ extent_edge (di ins) (di ks) stride -> ~ extent_edge (dj ins) (dj ks) stride ->
  cv_run_state l0 = Inference -> allocatable (cv_input_shape l) -> allocatable (cv_output_shape l) ->
  conv_layer_ok ks l /\ cv_kernels l = kernels /\ cv_biases l = biases /\ cv_stride l = stride /\ cv_input_shape l = ins /\ cv_name l = name
  /\ cv_run_state l = Inference.
Proof.
  intros E Hk Hb L Lk D Fi N0 N1 R Ai Ao. unfold cv_fill_from_state in E. destruct kernels as [|k0 kr]; [discriminate|].
  set (kernels := k0 :: kr) in *. destruct (negb _) eqn:Q; [discriminate|]. apply bind_done in E. destruct E as (fits & Ef & E).
  destruct (negb fits) eqn:Q2; [discriminate|]. destruct fits; [|discriminate]. apply bind_done in E. destruct E as ((d0 & d1) & Ed & E).
  injection E as <-. cbn [cv_input_shape cv_output_shape] in *.
  assert (S0 : get_shape k0 = ks) by (inversion Hk as [|? ? S _]; subst; apply S). rewrite S0 in *.
  destruct (fit_tiles bm ins ks stride d0 d1 (u32_shape_alloc _ Ai) Fi N0 N1 Ef Ed) as (T0 & T1).
  assert (El : as_u32 (len kernels) = len kernels) by (unfold as_u32; apply N.mod_small; exact Lk).
  rewrite El in *. split; [|cbn; auto 10].
  repeat (split; [first [assumption|reflexivity]|]). split; [|cbn; congruence].
  cbn [cv_output_shape dk cv_input_shape cv_stride di dj]. intros ch Hch. split; [congruence|]. split; [exact T0|]. split; [exact T1|exact Hch].
Qed.

Lemma conv_accepted_forward bm (l0 l : conv_layer F) kernels biases ins stride name ks (X Y0 : T) :
  relu_agrees F -> cv_fill_from_state bm l0 kernels biases ins stride name = Done (l, Ok tt) ->
  Forall (fun k => shaped k ks) kernels -> Forall (fun b => wf b /\ at_most_one (tshape b)) biases -> len kernels <= len biases ->
  len kernels < W32 -> dk ks = dk ins -> (bm = Debug \/ kernel_fits ins ks) ->
  ~ extent_edge (di ins) (di ks) stride -> ~ extent_edge (dj ins) (dj ks) stride ->
  cv_run_state l0 = Inference -> shaped X (cv_input_shape l) -> shaped Y0 (cv_output_shape l) ->
  exists l' Y, cv_forward bm l X Y0 = Done (l', Y, Ok tt).
Proof.
  intros RA E Hk Hb L Lk D Fi N0 N1 R Hx Hy.
  destruct (cv_fill_ok bm l0 l kernels biases ins stride name ks E Hk Hb L Lk D Fi N0 N1 R (proj1 (shaped_eq _ _ Hx)) (proj1 (shaped_eq _ _ Hy)))
    as (O & _).
  destruct (conv_forward_ok bm ks l X Y0 RA O Hx Hy) as (l' & Y & E' & _). eauto.
Qed.

Lemma conv_backward_stride1 bm ks (l : conv_layer F) h x gf (X Y g og : T) :
  conv_layer_ok ks l -> cv_run_state l = Training -> all_hold bm (cv_kernels l) ks h ->
  holds bm X (cv_input_shape l) x -> holds bm g (cv_output_shape l) gf -> shaped og (cv_input_shape l) ->
  cv_stride l = 1 -> len (cv_kernels l) = 1 -> di (cv_output_shape l) = di ks -> dj (cv_output_shape l) = dj ks -> 0 < di ks -> 0 < dj ks ->
  di (cv_input_shape l) <= 2147483648 -> dj (cv_input_shape l) <= 2147483648 ->
  exists l' og', cv_backward bm l X Y g og = Done (l', og', Ok tt)
    /\ holds bm og' (cv_input_shape l) (fun a b c => sum (covering_products (cv_output_shape l) ks 1 h gf a b c))
    /\ all_hold bm (cv_kernel_gradients l') ks (fun _ a b c =>
         sum (map (fun '(i, j) => fmul (x (a + i * 1) (b + j * 1) c) (gf i j 0)) (channel_cells (cv_output_shape l)))).
Proof.
  intros O R Hk Hx Hg Ho S Lk Ei Ej Zi Zj Bi Bj. pose proof O as (_ & Ek & _ & _ & _ & _ & P & _). rewrite S in P.
  destruct (outgoing_stride1 bm g og (cv_kernels l) (cv_input_shape l) (cv_output_shape l) ks gf h (val og) Hg (shaped_holds bm _ _ Ho) Hk
    ltac:(lia) P Ei Ej Bi Bj Zi Zj) as (og' & E & H).
  pose proof (cv_backward_values bm ks l X Y g og O R (holds_shaped _ _ _ _ Hx) (holds_shaped _ _ _ _ Hg)) as Q.
  assert (E' : convolution_backprop_outgoing_gradient bm g (cv_kernels l) (cv_stride l) og = Done (og', Ok tt)) by (rewrite S; exact E).
  rewrite E' in Q. cbn [bind] in Q. eexists. exists og'. split; [exact Q|]. split; [exact H|].
  destruct (conv_backward_exact bm ks l _ x gf X Y g og og' (Ok tt) O R Hx Hg Q) as (_ & K & _).
  intros n t Nt. specialize (K n t Nt). eapply holds_ext; [|exact K]. intros a b c _. cbv beta. rewrite S.
  rewrite <- (kgrad_terms_depth1 (cv_output_shape l) 1 x gf a b c) by lia. reflexivity.
Qed.

(** ** The other constructions *)
Lemma mp_fill_ok bm l0 l ins mask stride name :
  mp_fill_from_state bm l0 ins mask stride name = Done (l, Ok tt) ->
  (bm = Debug \/ kernel_fits ins mask) -> ~ extent_edge (di ins) (di mask) stride -> ~ extent_edge (dj ins) (dj mask) stride ->
  mp_run_state l0 = Inference -> allocatable (mp_input_shape l) -> allocatable (mp_output_shape l) ->
  mp_ok l /\ mp_input_shape l = ins /\ mp_mask_shape l = mask /\ mp_stride l = stride /\ mp_name l = name /\ mp_run_state l = Inference.
Proof.
  intros E Fi N0 N1 R Ai Ao. unfold mp_fill_from_state in E. apply bind_done in E. destruct E as (fits & Ef & E).
  destruct fits; cbn [negb] in E; [|discriminate]. apply bind_done in E. destruct E as ((d0 & d1) & Ed & E). injection E as <-.
  cbn [mp_input_shape mp_output_shape mp_mask_shape mp_stride mp_name mp_run_state] in *.
  destruct (fit_tiles bm ins mask stride d0 d1 (u32_shape_alloc _ Ai) Fi N0 N1 Ef Ed) as (T0 & T1).
  split; [|auto 10]. split; [exact Ai|]. split; [exact Ao|]. split; [exact (conj eq_refl (conj T0 T1))|]. cbn. congruence.
Qed.

Lemma mp_any_mode bm l1 l2 (X Y1 Y2 : T) :
  mp_ok l1 -> mp_ok l2 -> @params_of F (LMaxPool l1) = params_of (LMaxPool l2) ->
  shaped X (mp_input_shape l1) -> shaped Y1 (mp_output_shape l1) -> shaped Y2 (mp_output_shape l1) ->
  exists l1' l2' Y, mp_forward bm l1 X Y1 = Done (l1', Y, Ok tt) /\ mp_forward bm l2 X Y2 = Done (l2', Y, Ok tt).
Proof.
  intros O1 O2 P HX H1 H2. destruct (params_shapes _ _ P) as (Ei & Eo). cbn [get_input_shape get_output_shape] in *.
  destruct (mp_forward_ok bm l1 X Y1 O1 HX H1) as (l1' & Y & E1 & C1 & _). rewrite Ei in HX. rewrite Eo in H2.
  destruct (mp_forward_ok bm l2 X Y2 O2 HX H2) as (l2' & Y' & E2 & C2 & _).
  rewrite P in C1. rewrite <- (computes_fun _ _ _ _ _ C1 C2) in E2. eauto.
Qed.

Lemma fc_new_holds bm n m name : 0 < n -> 0 < m -> n < W32 -> m < W32 -> n * m < W32 ->
  exists l : fc_layer F, fc_new bm n m name = Done l /\ fc_ok m n l
    /\ fc_input_shape l = mkShape n 1 1 /\ fc_output_shape l = mkShape m 1 1
    /\ holds bm (fc_weights l) (mkShape m n 1) (fun _ _ _ => fzero) /\ holds bm (fc_bias l) (mkShape m 1 1) (fun _ _ _ => fzero)
    /\ fc_name l = name /\ fc_run_state l = Inference.
Proof.
  intros Zn Zm Bn Bm B. destruct (fc_new_ok bm n m name Zn Zm Bn Bm B) as (l & E & O & Ew & Eb & En & R). exists l. split; [exact E|].
  split; [exact O|]. destruct O as (Hw & Hb & _). unfold fc_input_shape, fc_output_shape, get_shape. rewrite (proj2 Hw), (proj2 Hb).
  do 2 (split; [reflexivity|]). rewrite Ew, Eb. rewrite Ew in Hw. rewrite Eb in Hb.
  split; [apply holds_of_fun; apply (shaped_eq _ _ Hw)|]. split; [apply holds_of_fun; apply (shaped_eq _ _ Hb)|auto].
Qed.

Lemma fc_new_no_outputs bm n name : n < W32 -> @fc_new bm F AR n 0 name = Panic PUnwrap.
Proof.
  intros B. unfold fc_new, fc_empty. rewrite tensor_empty_done. cbn [bind]. unfold shape_new. change (N.max 0 1) with 1. change (N.max 1 1) with 1.
  rewrite tensor_new_done by (unfold allocatable, W32 in *; cbn [di dj dk]; lia). cbn [bind].
  rewrite tensor_new_done by (unfold allocatable, W32 in *; cbn [di dj dk]; lia). reflexivity.
Qed.

Lemma fc_new_no_inputs bm m name : 0 < m -> m < W32 -> exists l : fc_layer F, fc_new bm 0 m name = Done l /\ fc_input_shape l = mkShape 1 1 1.
Proof.
  intros Z B. destruct (fc_new_holds bm 1 m name ltac:(lia) Z ltac:(unfold W32; lia) B ltac:(unfold W32 in *; lia)) as (l & E & _ & S & _).
  exists l. split; [exact E|exact S].
Qed.

End Facts.

From Verif Require Import Float32 ProofsFloat.

Lemma fc_any_mode e bm (l1 l2 : fc_layer f32) m n X Y1 Y2 :
  fc_ok m n l1 -> fc_ok m n l2 -> fc_weights l1 = fc_weights l2 -> fc_bias l1 = fc_bias l2 ->
  shaped X (mkShape n 1 1) -> shaped Y1 (mkShape m 1 1) -> shaped Y2 (mkShape m 1 1) ->
  exists l1' l2' Y, @fc_forward bm f32 (f32_arith e) l1 X Y1 = Done (l1', Y, Ok tt)
    /\ @fc_forward bm f32 (f32_arith e) l2 X Y2 = Done (l2', Y, Ok tt).
Proof.
  intros O1 O2 Ew Eb Hx H1 H2.
  destruct (@fc_forward_ok f32 (f32_arith e) bm l1 m n X Y1 (f32_relu_agrees e) O1 Hx H1) as (l1' & Y & E1 & C1 & _).
  destruct (@fc_forward_ok f32 (f32_arith e) bm l2 m n X Y2 (f32_relu_agrees e) O2 Hx H2) as (l2' & Y' & E2 & C2 & _).
  rewrite Ew, Eb in C1. pose proof (@computes_fun f32 (f32_arith e) _ _ _ _ _ C1 C2) as Q. subst Y'. eauto.
Qed.

Lemma conv_any_mode e bm ks (l1 l2 : conv_layer f32) X Y1 Y2 :
  allocatable ks -> conv_layer_ok ks l1 -> conv_layer_ok ks l2 -> params_of (LConv l1) = params_of (LConv l2) ->
  shaped X (cv_input_shape l1) -> shaped Y1 (cv_output_shape l1) -> shaped Y2 (cv_output_shape l1) ->
  exists l1' l2' Y, @cv_forward bm f32 (f32_arith e) l1 X Y1 = Done (l1', Y, Ok tt)
    /\ @cv_forward bm f32 (f32_arith e) l2 X Y2 = Done (l2', Y, Ok tt).
Proof.
  intros A O1 O2 P HX H1 H2. destruct (params_shapes _ _ P) as (Ei & Eo). cbn [get_input_shape get_output_shape] in *.
  destruct (@conv_forward_ok f32 (f32_arith e) bm ks l1 X Y1 (f32_relu_agrees e) O1 HX H1) as (l1' & Y & E1 & C1 & _). rewrite Ei in HX. rewrite Eo in H2.
  destruct (@conv_forward_ok f32 (f32_arith e) bm ks l2 X Y2 (f32_relu_agrees e) O2 HX H2) as (l2' & Y' & E2 & C2 & _).
  rewrite P in C1. pose proof (@computes_fun f32 (f32_arith e) _ _ _ _ _ C1 C2) as Q. subst Y'. eauto.
Qed.
