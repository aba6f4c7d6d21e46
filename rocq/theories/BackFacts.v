(** * What each layer's backward pass computes *)
From Coq Require Import ZifyBool ZifyNat ZifyN.
From Verif Require Import Base Arith Helper Tensor Convolution Network Bincode Serial Spec SpecLayer SpecNet Loops TensorFacts OpsFacts.
From Verif Require Import ProofsTensor ProofsConv ProofsBackprop ProofsPool ProofsOutgoing Layout LayerFacts.
Ltac Zify.zify_post_hook ::= Z.div_mod_to_equations.

Section Facts.
Context {F : Type} {AR : Arith F}.
Notation T := (tensor F).

(** ** Fully connected *)
Definition fc_after (m n : N) (l : fc_layer F) (x g : N -> N -> N -> F) : fc_layer F :=
  let mg := fun i j k => fmul (val (fc_relu_mask l) i j k) (g i j k) in
  let wgi := mm_fn 1 mg (fun i j k => x j i k) in
  mkFC (fc_weights l) (of_fun (mkShape m n 1) (fun i j k => fadd (val (fc_weights_gradients l) i j k) (wgi i j k)))
       (of_fun (mkShape m n 1) wgi) (fc_bias l)
       (of_fun (mkShape m 1 1) (fun i j k => fadd (val (fc_bias_gradients l) i j k) (mg i j k)))
       (of_fun (mkShape m 1 1) mg) (fc_name l) (fc_run_state l).

Definition fc_outgoing (m : N) (l : fc_layer F) (g : N -> N -> N -> F) : N -> N -> N -> F :=
  mm_fn m (fun i j k => val (fc_weights l) j i k) (fun i j k => fmul (val (fc_relu_mask l) i j k) (g i j k)).

Lemma fc_backward_values bm l m n (X Y g og : T) :
  fc_ok m n l -> fc_run_state l = Training -> shaped X (mkShape n 1 1) -> shaped g (mkShape m 1 1) -> shaped og (mkShape n 1 1) ->
  fc_backward bm l X Y g og = Done (fc_after m n l (val X) (val g), of_fun (mkShape n 1 1) (fc_outgoing m l (val g)), Ok tt).
Proof.
  intros (Hw & Hb & Ht) R Hx Hg Ho. destruct (Ht R) as (H1 & H2 & H3 & H4). unfold fc_backward, fc_after, fc_outgoing. rewrite R.
  cbn [run_state_eqb].
  pose proof (shaped_eq _ _ Hw) as (Aw & Ew). pose proof (shaped_eq _ _ Hx) as (Ax & Ex). pose proof (shaped_eq _ _ Hg) as (Ag & Eg).
  pose proof (shaped_eq _ _ Ho) as (Ao & Eo). pose proof (shaped_eq _ _ H1) as (A1 & E1). pose proof (shaped_eq _ _ H2) as (_ & E2).
  pose proof (shaped_eq _ _ H3) as (A3 & E3). pose proof (shaped_eq _ _ H4) as (A4 & E4).
  replace (multiply_elementwise_self (fc_relu_mask l) g)
    with (of_fun (mkShape m 1 1) (fun i j k => fmul (val (fc_relu_mask l) i j k) (val g i j k)))
    by (rewrite <- multiply_elementwise_self_of_fun, <- E4, <- Eg; reflexivity).
  set (mg := fun i j k => fmul (val (fc_relu_mask l) i j k) (val g i j k)).
  pose proof (matrix_multiply_second_of_fun bm (mkShape m 1 1) mg _ (val X) _ (val (fc_weights_gradients_intermediate l)) A4 Ax A1
    (proj2 (check_mm_true (mkShape m 1 1) (swap_shape (mkShape n 1 1)) (mkShape m n 1)) ltac:(cbn [di dj dk swap_shape]; auto))) as Q1.
  rewrite <- Ex, <- E2 in Q1. rewrite Q1. cbn [bind dj].
  pose proof (matrix_multiply_first_of_fun bm (mkShape m n 1) (val (fc_weights l)) (mkShape m 1 1) mg _ (val og) Aw A4 Ao
    (proj2 (check_mm_true (swap_shape (mkShape m n 1)) (mkShape m 1 1) (mkShape n 1 1)) ltac:(cbn [di dj dk swap_shape]; auto))) as Q2.
  rewrite <- Ew, <- Eo in Q2. rewrite Q2.
  cbn [bind di]. f_equal. f_equal. f_equal. f_equal.
  - rewrite <- add_to_self_of_fun, <- E1. reflexivity.
  - rewrite <- add_to_self_of_fun, <- E3. reflexivity.
Qed.

(** ** Max pooling *)
Lemma mp_backward_values bm (l : mp_layer) (X Y g og : T) :
  mp_ok l -> mp_run_state l = Training -> shaped g (mp_output_shape l) -> shaped og (mp_input_shape l) ->
  0 < di (mp_input_shape l) * dj (mp_input_shape l) * dk (mp_input_shape l) ->
  exists og', mp_backward bm l X Y g og = Done (l, og', Ok tt)
    /\ holds bm og' (mp_input_shape l) (fun i j k =>
         sum (map (fun q => nth (N.to_nat q) (data g) fzero) (sources (mp_origin l) (flat (mp_input_shape l) i j k)))).
Proof.
  intros (Ai & A & P & Ht) R Hg Ho Hpos. destruct (Ht R) as (L & O). unfold mp_backward.
  pose proof (shaped_eq _ _ Ho) as (Ao & Eo). pose proof (shaped_eq _ _ Hg) as (Ag & Eg).
  set (s1 := mp_output_shape l) in *. set (s2 := mp_input_shape l) in *.
  destruct (scatter_add_spec bm g (of_fun s2 (fun _ _ _ => fzero)) s1 s2 (fun p => nth (N.to_nat p) (data g) fzero) (fun _ => fzero) (mp_origin l))
    as (G & _ & _).
  - apply holds_iff. split; [exact Ag|]. rewrite Eg at 1. apply of_fun_ext. intros i j k Hin.
    unfold val. rewrite (proj2 Hg). reflexivity.
  - apply holds_iff. split; [exact Ao|]. reflexivity.
  - destruct G as (d & E & Hd); [lia| |].
    + intros p Hp. rewrite Forall_forall in O. destruct (O p Hp); lia.
    + exists d. rewrite Eo at 1. rewrite fill_with_value_of_fun. rewrite E. cbn [bind]. split; [reflexivity|exact Hd].
Qed.

(** ** Softmax on a column *)
Definition sm_outgoing (n : N) (y g : N -> N -> N -> F) (i j k : N) : F :=
  fadd (fmul (y i j k) (g i j k)) (mm_fn 1 y (fun i' j' k' => fmul (mm_fn n (fun a b c => y b a c) g i' j' k') fmone) i j k).

Lemma sm_backward_values bm (l : sm_layer F) n (X Y g og : T) :
  sm_ok l -> sm_run_state l = Training -> sm_shape l = mkShape n 1 1 ->
  shaped Y (mkShape n 1 1) -> shaped g (mkShape n 1 1) -> shaped og (mkShape n 1 1) ->
  exists l', sm_backward bm l X Y g og = Done (l', of_fun (mkShape n 1 1) (sm_outgoing n (val Y) (val g)), Ok tt).
Proof.
  intros (A & Ht) R S Hy Hg Ho. destruct (Ht R) as (H1 & H2). rewrite S in H2. unfold sm_backward. rewrite R. cbn [run_state_eqb].
  pose proof (shaped_eq _ _ Hy) as (Ay & Ey). pose proof (shaped_eq _ _ Hg) as (_ & Eg). pose proof (shaped_eq _ _ Ho) as (_ & Eo).
  pose proof (shaped_eq _ _ H1) as (A1 & E1). pose proof (shaped_eq _ _ H2) as (_ & E2).
  pose proof (matrix_multiply_first_of_fun bm (mkShape n 1 1) (val Y) (mkShape n 1 1) (val g) _ (val (sm_intermediate1 l)) Ay Ay A1
    (proj2 (check_mm_true (swap_shape (mkShape n 1 1)) (mkShape n 1 1) (mkShape 1 1 1)) ltac:(cbn [di dj dk swap_shape]; auto))) as Q1.
  rewrite <- Ey, <- Eg, <- E1 in Q1. rewrite Q1. cbn [bind di]. rewrite scale_self_of_fun. cbv zeta.
  set (c := fun i j k => fmul _ fmone).
  pose proof (matrix_multiply_of_fun bm (mkShape n 1 1) (val Y) (mkShape 1 1 1) c _ (val (sm_intermediate2 l)) Ay A1 Ay
    (proj2 (check_mm_true (mkShape n 1 1) (mkShape 1 1 1) (mkShape n 1 1)) ltac:(cbn [di dj dk swap_shape]; auto))) as Q2.
  rewrite <- Ey, <- E2 in Q2. rewrite Q2. cbn [bind dj].
  eexists. f_equal. f_equal. f_equal. unfold sm_outgoing. fold c.
  rewrite <- add_to_self_of_fun, <- (multiply_elementwise_of_fun _ _ _ (val og)), <- Ey, <- Eg, <- Eo. reflexivity.
Qed.

(** ** Convolution *)
Lemma layout_of_fun s (f g : N -> N -> N -> F) : layout (of_fun s f) = layout (of_fun s g).
Proof. unfold layout, of_fun. cbn [strides tshape data]. rewrite !map_length. reflexivity. Qed.

Lemma kgrads_computed bm (g X : T) stride s rs ks : forall n kg,
  shaped g rs -> shaped X s -> Forall (fun k => shaped k ks) kg -> (forall ch, ch < dk rs -> conv_ok s ks stride rs ch) ->
  n <= dk rs -> n <= len kg -> (0 < len kg -> allocatable ks) ->
  exists kg', tryM (upto n) (fun i kg =>
       g' <- vget kg i ;;
       '(g', r) <- convolution_backprop_kernel bm g X stride (as_u32 i) g' ;;
       kg' <- vset kg i g' ;;
       Done (kg', r)) kg = Done (kg', Ok tt)
    /\ map layout kg' = map layout kg
    /\ (forall i, i < n -> nth_error kg' (N.to_nat i) = Some (of_fun ks (fun a b c => sum (kgrad_terms rs stride (val X) (val g) a b c))))
    /\ (forall i, n <= i -> nth_error kg' (N.to_nat i) = nth_error kg (N.to_nat i)).
Proof.
  intros n kg Hg Hx Hkg P Hn Hl Hks. pose proof (shaped_eq _ _ Hg) as (Ag & Eg). pose proof (shaped_eq _ _ Hx) as (Ax & Ex).
  induction n as [|n IH] using N.peano_ind.
  - exists kg. rewrite upto_0. split; [reflexivity|]. split; [reflexivity|]. split; [lia|reflexivity].
  - destruct IH as (kg' & E & L & V & K); [lia|lia|]. rewrite upto_succ, tryM_app, E. cbn [bind tryM].
    assert (Ln : len kg' = len kg) by (apply map_layout_len; exact L).
    destruct (vget_some kg' n) as (k & Nk & ->); [lia|]. cbn [bind].
    pose proof (Forall_layout _ _ _ L Hkg) as Hkg'. pose proof (Forall_nth _ _ _ _ Hkg' Nk) as Sk. pose proof (shaped_eq _ _ Sk) as (Ak & Ek).
    assert (Eu : as_u32 n = n) by (unfold as_u32; apply N.mod_small; destruct (u32_shape_alloc _ Ag) as (_ & _ & ?); lia). rewrite Eu.
    pose proof (backprop_kernel_of_fun bm rs (val g) s (val X) stride n ks (val k) Ag Ax Ak) as Q.
    rewrite <- Eg, <- Ex, <- Ek in Q.
    rewrite Q; [|apply check_conv_complete; [apply u32_shape_alloc; exact Ag|apply P; lia]|apply P; lia]. cbn [bind].
    rewrite vset_done by lia. cbn [bind]. eexists. split; [reflexivity|].
    set (v := of_fun ks _).
    assert (Lv : layout v = layout k) by (rewrite Ek; apply layout_of_fun).
    split; [|split].
    + rewrite <- L. clear - Nk Lv. revert Nk. generalize (N.to_nat n) as m. induction kg' as [|a kg' IH]; intros [|m] Nk; simpl in *; try discriminate.
      * injection Nk as ->. rewrite Lv. reflexivity.
      * f_equal. apply IH. exact Nk.
    + intros i Hi. destruct (N.eq_dec i n) as [->|Ne].
      * rewrite nth_error_list_set_same; [reflexivity|]. apply nth_error_Some. rewrite Nk. discriminate.
      * rewrite nth_error_list_set_other by lia. apply V. lia.
    + intros i Hi. rewrite nth_error_list_set_other by lia. apply K. lia.
Qed.

Lemma nth_error_eq {A} (l l' : list A) : (forall m, nth_error l m = nth_error l' m) -> l = l'.
Proof.
  revert l'; induction l as [|a l IH]; intros [|b l'] H; [reflexivity|specialize (H 0%nat); discriminate|specialize (H 0%nat); discriminate|].
  pose proof (H 0%nat) as H0. injection H0 as ->. f_equal. apply IH. intros m. exact (H (S m)).
Qed.

Lemma repeat_from_nth {A} (l : list A) (v : A) n : len l = n -> (forall i, i < n -> nth_error l (N.to_nat i) = Some v) -> l = repeat v (N.to_nat n).
Proof.
  intros L H. apply nth_error_eq. intros m. destruct (Nat.ltb_spec m (N.to_nat n)) as [Hm|Hm].
  - specialize (H (N.of_nat m) ltac:(lia)). rewrite Nnat.Nat2N.id in H. rewrite H. symmetry. apply nth_error_repeat. exact Hm.
  - rewrite (proj2 (nth_error_None l m)) by (unfold len in L; lia).
    symmetry. apply nth_error_None. rewrite repeat_length. exact Hm.
Qed.

(** What convolutional backward does in training mode: every kernel gradient becomes the same tensor, computed from the incoming
    gradient alone; the mask is only written. *)
Lemma cv_backward_values bm ks l (X Y g og : T) :
  conv_layer_ok ks l -> cv_run_state l = Training -> shaped X (cv_input_shape l) -> shaped g (cv_output_shape l) ->
  cv_backward bm l X Y g og
  = bind (convolution_backprop_outgoing_gradient bm g (cv_kernels l) (cv_stride l) og)
      (fun '(og', r) => Done (cv_set_kernel_gradients (cv_set_mask l (multiply_elementwise_self (cv_relu_mask l) g))
         (repeat (of_fun ks (fun a b c => sum (kgrad_terms (cv_output_shape l) (cv_stride l) (val X) (val g) a b c))) (length (cv_kernels l))), og', r)).
Proof.
  intros (Hk & Ek & Lb & Hb & Ai & Ao & P & Ht) R Hx Hg. destruct (Ht R) as (H1 & H2 & H3).
  assert (Aks : 0 < len (cv_kernel_gradients l) -> allocatable ks).
  { intros L. destruct (cv_kernel_gradients l) as [|k kg]; [cbn in L; lia|]. inversion H2 as [|? ? S _]; subst. apply (shaped_eq _ _ S). }
  destruct (kgrads_computed bm g X (cv_stride l) _ _ ks (len (cv_kernels l)) (cv_kernel_gradients l) Hg Hx H2 P ltac:(lia) ltac:(lia) Aks)
    as (kg & E & L & V & _).
  unfold cv_backward. cbn [cv_set_mask cv_kernels cv_kernel_gradients cv_stride]. rewrite Nrange_upto, E. cbn [bind].
  rewrite (repeat_from_nth kg _ (len (cv_kernels l)) ltac:(rewrite (map_layout_len _ _ L); lia) V).
  replace (N.to_nat (len (cv_kernels l))) with (length (cv_kernels l)) by (unfold len; lia). reflexivity.
Qed.

(** ** Layers that stay inside cannot panic in backward *)
Lemma index_list_total bm (a d : T) l : wf a -> wf d -> exists d' r, add_from_index_list bm a d l = Done (d', r).
Proof.
  intros Ha Hd. destruct (N.ltb_spec (di (tshape a) * dj (tshape a) * dk (tshape a)) (len l)) as [L|L].
  - unfold add_from_index_list, get_shape. rewrite total_size_done by (apply wf_alloc; exact Ha). cbn [bind].
    replace (_ <? len l) with true by lia. eauto.
  - rewrite (wf_eq _ Ha), (wf_eq _ Hd).
    replace (of_fun (tshape a) (val a)) with (of_flat (tshape a) (fun p => nth (N.to_nat p) (data a) fzero)) by reflexivity.
    replace (of_fun (tshape d) (val d)) with (of_flat (tshape d) (fun p => nth (N.to_nat p) (data d) fzero)) by reflexivity.
    rewrite scatter_of_flat by (try (apply wf_alloc; assumption); exact L). eauto.
Qed.

Lemma mm_first_err bm (a b r : T) : check_matrix_multiply_dimensions (shape_transpose_ij (tshape a)) (tshape b) (tshape r) = false ->
  exists e, matrix_multiply_transpose_first bm a b r = Done (r, Err e).
Proof. intros E. unfold matrix_multiply_transpose_first, get_shape. rewrite E. cbn [negb]. eauto. Qed.

Lemma shaped_all_hold bm (kernels : list T) ks : Forall (fun k => shaped k ks) kernels ->
  all_hold bm kernels ks (fun n => val (nth (N.to_nat n) kernels (of_fun (mkShape 0 0 0) (fun _ _ _ => fzero)))).
Proof.
  intros H n t Nt. rewrite (nth_error_nth _ _ _ Nt). apply shaped_holds. exact (Forall_nth _ _ _ _ H Nt).
Qed.

Lemma backward_total bm l (X Y g og : T) :
  layer_ok l -> stays_inside l -> get_run_mode l = Training -> shaped X (get_input_shape l) -> shaped Y (get_output_shape l) ->
  shaped g (get_output_shape l) -> shaped og (get_input_shape l) ->
  exists l' og' r, backward bm l X Y g og = Done (l', og', r) /\ (backs l -> r = Ok tt).
Proof.
  intros Ol NC R Hx Hy Hg Ho. destruct l as [l|l|l|l]; cbn [layer_ok get_input_shape get_output_shape backward get_run_mode backs stays_inside] in *.
  - destruct Ol as (ks & Ak & O). pose proof O as (Hk & Ek & _ & _ & Ai & Ao & P & _).
    rewrite (cv_backward_values bm ks l X Y g og O R Hx Hg).
    destruct (outgoing_runs bm g og (cv_kernels l) (cv_input_shape l) (cv_output_shape l) ks (val g)
      (fun n => val (nth (N.to_nat n) (cv_kernels l) (of_fun (mkShape 0 0 0) (fun _ _ _ => fzero)))) (val og) (cv_stride l))
      as (og' & E & _); try (apply shaped_holds; assumption); [apply shaped_all_hold; exact Hk|symmetry; exact Ek|exact P| |].
    + intros L. destruct (cv_kernels l) as [|k kl]; [unfold len in Ek; cbn in Ek; lia|].
      apply Forall_inv in NC, Hk. rewrite <- (proj2 Hk). exact NC.
    + rewrite E. cbn [bind lift3]. do 3 eexists. split; [reflexivity|auto].
  - destruct Ol as (m & n & Ol). pose proof Ol as (Hw & Hb & _). unfold fc_input_shape, fc_output_shape, get_shape in *.
    rewrite (proj2 Hw) in *. rewrite (proj2 Hb) in *. cbn [dj] in *. rewrite (fc_backward_values bm l m n X Y g og Ol R Hx Hg Ho). cbn. do 3 eexists. split; [reflexivity|auto].
  - assert (D : exists og' r, mp_backward bm l X Y g og = Done (l, og', r)).
    { unfold mp_backward. destruct (index_list_total bm g (fill_with_value og fzero) (mp_origin l)) as (d & r & E); [apply Hg| |].
      - eapply layout_wf; [symmetry; apply fill_with_value_layout|apply Ho].
      - rewrite E. cbn. eauto. }
    destruct D as (og' & r & E). rewrite E. cbn. do 3 eexists. split; [reflexivity|]. intros P.
    destruct (mp_backward_values bm l X Y g og Ol R Hg Ho P) as (o & E' & _). rewrite E in E'. congruence.
  - destruct (N.eqb_spec (dj (sm_shape l)) 1) as [E1|E1].
    + destruct (N.eqb_spec (dk (sm_shape l)) 1) as [E2|E2].
      * assert (S : sm_shape l = mkShape (di (sm_shape l)) 1 1) by (destruct (sm_shape l); cbn in *; congruence).
        rewrite S in Hy, Hg, Ho. destruct (sm_backward_values bm l _ X Y g og Ol R S Hy Hg Ho) as (l' & E). rewrite E. cbn.
        do 3 eexists. split; [reflexivity|auto].
      * unfold sm_backward. rewrite R. cbn [run_state_eqb]. destruct Ol as (A & Ht). destruct (Ht R) as (H1 & H2).
        destruct (mm_first_err bm Y g (sm_intermediate1 l)) as (e & E).
        { apply not_true_is_false. intros E. apply check_mm_true in E. rewrite (proj2 Hy), (proj2 Hg), (proj2 H1) in E.
          cbn [di dj dk shape_transpose_ij] in E. lia. }
        rewrite E. cbn. do 3 eexists. split; [reflexivity|lia].
    + unfold sm_backward. rewrite R. cbn [run_state_eqb]. destruct Ol as (A & Ht). destruct (Ht R) as (H1 & H2).
      destruct (mm_first_err bm Y g (sm_intermediate1 l)) as (e & E).
      { apply not_true_is_false. intros E. apply check_mm_true in E. rewrite (proj2 Hy), (proj2 Hg), (proj2 H1) in E.
        cbn [di dj dk shape_transpose_ij] in E. lia. }
      rewrite E. cbn. do 3 eexists. split; [reflexivity|lia].
Qed.

End Facts.
