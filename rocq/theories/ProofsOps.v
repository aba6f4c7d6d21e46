(** * Proofs for C03 *)
From Coq Require Import ZifyBool ZifyNat ZifyN.
From Verif Require Import Base Arith Helper Tensor Convolution Network Spec SpecOps Loops TensorFacts OpsFacts Layout ProofsTensor
  ProofsConv ProofsBackprop ProofsPool ProofsOutgoing BackFacts.
Ltac Zify.zify_post_hook ::= Z.div_mod_to_equations.

Section Ops.
Context {F : Type} {AR : Arith F}.
Notation T := (tensor F).

(** ** Every operation ends and keeps the layout of what it writes *)
Lemma edge_bounds s m stride : u32_shape s -> windows_fit s m stride ->
  (di s - di m) / stride + 1 < W32 /\ (dj s - dj m) / stride + 1 < W32.
Proof.
  intros (U1 & U2 & U3) (Hs & (Fi & Fj) & Ei & Ej). split.
  - destruct (N.lt_ge_cases ((di s - di m) / stride + 1) W32); [assumption|]. exfalso. apply Ei. apply extent_overflow; assumption.
  - destruct (N.lt_ge_cases ((dj s - dj m) / stride + 1) W32); [assumption|]. exfalso. apply Ej. apply extent_overflow; assumption.
Qed.

Lemma set_total bm (t : T) x v : wf t -> exists t', set_item bm t x v = Done t'.
Proof.
  intros W. destruct x as [i j k]. destruct (in_shapeb_spec (tshape t) i j k) as [H|H].
  - rewrite (wf_eq _ W). rewrite set_item_of_fun by (try apply wf_alloc; assumption). eauto.
  - rewrite set_item_out by assumption. eauto.
Qed.

Lemma get_total bm (t : T) x : wf t -> exists v, get_item bm t x = Done v.
Proof.
  intros W. destruct x as [i j k]. rewrite (wf_eq _ W), get_item_of_fun_any by (apply wf_alloc, W). eauto.
Qed.

Lemma vec_total bm (t : T) v : wf t -> exists t' r, fill_with_vec bm t v = Done (t', r).
Proof.
  intros W. unfold fill_with_vec, total_items. rewrite total_size_done by (apply wf_alloc, W). cbn [bind].
  destruct (negb _); eauto.
Qed.

Lemma transpose_total bm (a r : T) : wf a -> wf r -> exists r' e, transpose_ij bm a r = Done (r', e).
Proof.
  intros Wa Wr. destruct (N.eqb_spec (dk (tshape a)) (dk (tshape r))) as [E1|E1];
    [|unfold transpose_ij, get_shape; destruct (N.eqb_spec (dk (tshape a)) (dk (tshape r))); [contradiction|]; cbn [negb]; eauto].
  destruct (N.eqb_spec (di (tshape a)) (dj (tshape r))) as [E2|E2];
    [|unfold transpose_ij, get_shape; rewrite E1, N.eqb_refl; destruct (N.eqb_spec (di (tshape a)) (dj (tshape r))); [contradiction|]; cbn [negb]; eauto].
  destruct (N.eqb_spec (dj (tshape a)) (di (tshape r))) as [E3|E3];
    [|unfold transpose_ij, get_shape; rewrite E1, E2, !N.eqb_refl; destruct (N.eqb_spec (dj (tshape a)) (di (tshape r))); [contradiction|]; cbn [negb]; eauto].
  assert (E : tshape r = swap_shape (tshape a)).
  { destruct (tshape r) as [x y z]. unfold swap_shape. cbn [di dj dk] in *. congruence. }
  pose proof (wf_alloc _ Wr) as Ar. rewrite (wf_eq _ Wr), (wf_eq _ Wa), E. rewrite E in Ar.
  rewrite transpose_of_fun by (try apply wf_alloc; assumption). eauto.
Qed.

Lemma mm_total bm (a b r : T) : wf a -> wf b -> wf r -> exists r', matrix_multiply bm a b r = Done r'.
Proof.
  intros Wa Wb Wr. destruct (check_matrix_multiply_dimensions (tshape a) (tshape b) (tshape r)) eqn:C.
  - rewrite (wf_eq _ Wa), (wf_eq _ Wb), (wf_eq _ Wr). rewrite matrix_multiply_of_fun by (try apply wf_alloc; assumption). eauto.
  - unfold matrix_multiply, get_shape. rewrite C. eauto.
Qed.

Lemma mm_first_total bm (a b r : T) : wf a -> wf b -> wf r -> exists r' e, matrix_multiply_transpose_first bm a b r = Done (r', e).
Proof.
  intros Wa Wb Wr. destruct (check_matrix_multiply_dimensions (swap_shape (tshape a)) (tshape b) (tshape r)) eqn:C.
  - rewrite (wf_eq _ Wa), (wf_eq _ Wb), (wf_eq _ Wr). rewrite matrix_multiply_first_of_fun by (try apply wf_alloc; assumption). eauto.
  - unfold matrix_multiply_transpose_first, get_shape. change shape_transpose_ij with swap_shape. rewrite C. cbn [negb]. eauto.
Qed.

Lemma mm_second_total bm (a b r : T) : wf a -> wf b -> wf r -> exists r' e, matrix_multiply_transpose_second bm a b r = Done (r', e).
Proof.
  intros Wa Wb Wr. destruct (check_matrix_multiply_dimensions (tshape a) (swap_shape (tshape b)) (tshape r)) eqn:C.
  - rewrite (wf_eq _ Wa), (wf_eq _ Wb), (wf_eq _ Wr). rewrite matrix_multiply_second_of_fun by (try apply wf_alloc; assumption). eauto.
  - unfold matrix_multiply_transpose_second, get_shape. change shape_transpose_ij with swap_shape. rewrite C. cbn [negb]. eauto.
Qed.

Lemma mm_relu_total bm (x w b r : T) : wf x -> wf w -> wf b -> wf r -> exists r', matrix_multiply_add_relu bm x w b r = Done r'.
Proof.
  intros Wx Ww Wb Wr. unfold matrix_multiply_add_relu, get_shape.
  destruct (check_matrix_multiply_dimensions (tshape w) (tshape x) (tshape r)) eqn:C; [|eauto].
  destruct (shape_eqb (tshape b) (tshape r)) eqn:Eb; [|eauto].
  pose proof (matrix_multiply_add_relu_of_fun bm (tshape x) (val x) (tshape w) (val w) (tshape b) (val b) (tshape r) (val r)
    (wf_alloc _ Wx) (wf_alloc _ Ww) (wf_alloc _ Wr) C (proj1 (shape_eqb_eq _ _) Eb)) as E.
  rewrite <- !wf_eq in E by assumption. unfold matrix_multiply_add_relu, get_shape in E. rewrite C, Eb in E. rewrite E. eauto.
Qed.

Lemma pool_total bm (a r : T) m stride : wf a -> wf r -> windows_fit (tshape a) m stride ->
  exists r', max_pool bm a m stride r = Done r'.
Proof.
  intros Wa Wr W. destruct (edge_bounds _ _ _ (u32_shape_alloc _ (wf_alloc _ Wa)) W) as (Bi & Bj).
  destruct W as (Hs & (Fi & Fj) & _).
  destruct (check_pool_spec bm (tshape a) m stride (tshape r)) as ([] & C & P); try assumption.
  - rewrite (wf_eq _ Wa), (wf_eq _ Wr). rewrite max_pool_of_fun; [eauto|apply wf_alloc, Wa|apply wf_alloc, Wr|exact C|apply P; reflexivity].
  - erewrite check_pool_false by (try reflexivity; exact C). eauto.
Qed.

Lemma track_total bm (a r : T) m stride o : wf a -> wf r -> windows_fit (tshape a) m stride ->
  exists r' o' e, max_pool_track_origin bm a m stride r o = Done (r', o', e).
Proof.
  intros Wa Wr W. destruct (edge_bounds _ _ _ (u32_shape_alloc _ (wf_alloc _ Wa)) W) as (Bi & Bj).
  destruct W as (Hs & (Fi & Fj) & Ei & Ej).
  destruct (check_pool_spec bm (tshape a) m stride (tshape r)) as ([] & C & P); try assumption.
  - destruct (N.eq_dec (len o) (di (tshape r) * dj (tshape r) * dk (tshape r))) as [L|L].
    + rewrite (wf_eq _ Wa), (wf_eq _ Wr).
      rewrite track_of_fun; [eauto|apply wf_alloc, Wa|apply wf_alloc, Wr|exact C|apply P; reflexivity|exact L].
    + destruct (track_rejects bm a r m stride o) as (e & E); try assumption; [split; assumption|right; exact L|].
      rewrite E. eauto.
  - destruct (track_rejects bm a r m stride o) as (e & E); try assumption; [split; assumption|left|].
    + intros X. apply P in X. discriminate.
    + rewrite E. eauto.
Qed.

Lemma softmax_done (a r : T) : wf a -> wf r -> exists r', softmax a r = Done r'.
Proof.
  intros Wa Wr. destruct (shape_eqb (tshape a) (tshape r)) eqn:E.
  - apply shape_eqb_eq in E. rewrite (wf_eq _ Wa), (wf_eq _ Wr), <- E. rewrite softmax_of_fun. eauto.
  - unfold softmax, get_shape. rewrite E. eauto.
Qed.

Lemma conv_total post bm (im k b r : T) stride ch : wf im -> wf k -> wf b -> wf r -> windows_fit (tshape im) (tshape k) stride ->
  exists r' e, conv_with post bm im k b stride r ch = Done (r', e).
Proof.
  intros Wi Wk Wb Wr (Hs & K & Ei & Ej).
  destruct (conv_with_no_panic post bm im k b r _ _ _ _ _ _ _ _ stride ch (holds_wf bm _ Wi) (holds_wf bm _ Wk) (holds_wf bm _ Wb)
    (holds_wf bm _ Wr) Hs K Ei Ej) as (r' & e & E & _). eauto.
Qed.

Lemma kernel_gradient_total bm (g im r : T) stride ch : wf g -> wf im -> wf r -> windows_fit (tshape im) (tshape r) stride ->
  exists r' e, convolution_backprop_kernel bm g im stride ch r = Done (r', e).
Proof.
  intros Wg Wi Wr W. destruct (edge_bounds _ _ _ (u32_shape_alloc _ (wf_alloc _ Wi)) W) as (Bi & Bj).
  destruct W as (Hs & (Fi & Fj) & _).
  destruct (check_conv_spec bm (tshape im) (tshape r) stride (tshape g) ch) as ([[]|e] & C & P); try assumption.
  - rewrite (wf_eq _ Wg), (wf_eq _ Wi), (wf_eq _ Wr).
    rewrite backprop_kernel_of_fun; [eauto|apply wf_alloc, Wg|apply wf_alloc, Wi|apply wf_alloc, Wr|exact C|apply P; reflexivity].
  - unfold convolution_backprop_kernel, get_shape. rewrite C. cbn [bind]. eauto.
Qed.

(** ** Pools *)
Definition pool_is (p : list T) (ss : list shape) : Prop := Forall wf p /\ map tshape p = ss.

Lemma pool_get p ss i : pool_is p ss -> there ss i -> exists t, vget p i = Done t /\ wf t /\ tshape t = shape_at ss i.
Proof.
  intros (W & <-) H. unfold there in H. rewrite len_map in H. rewrite Forall_forall in W.
  assert (E : exists t, nth_error p (N.to_nat i) = Some t).
  { destruct (nth_error p (N.to_nat i)) eqn:E; [eauto|]. apply nth_error_None in E. unfold len in H. lia. }
  destruct E as (t & E). exists t. split; [unfold vget; replace (i <? len p) with true by lia; rewrite E; reflexivity|].
  split; [apply W; eapply nth_error_In, E|]. unfold shape_at. symmetry. apply nth_error_nth. apply map_nth_error. exact E.
Qed.

Lemma pool_put p ss i t t' : pool_is p ss -> vget p i = Done t -> layout t' = layout t ->
  exists p', put p i t' = Done p' /\ pool_is p' ss.
Proof.
  intros (W & <-) G L. apply vget_done in G. destruct G as (Hi & G). unfold put. rewrite vset_done by exact Hi.
  eexists. split; [reflexivity|]. rewrite Forall_forall in W. split.
  - apply Forall_forall. intros x Hx. apply In_nth_error in Hx. destruct Hx as (n & Hn).
    destruct (Nat.eq_dec n (N.to_nat i)) as [->|D].
    + rewrite nth_error_list_set_same in Hn by (unfold len in Hi; lia). injection Hn as <-.
      apply (layout_wf t); [auto|]. apply W. eapply nth_error_In, G.
    + rewrite nth_error_list_set_other in Hn by congruence. apply W. eapply nth_error_In, Hn.
  - apply layout_shape in L. clear W. revert G. generalize (N.to_nat i). clear Hi i. induction p as [|x p IH]; intros [|n] G; try discriminate.
    + injection G as ->. cbn [list_set map]. rewrite L. reflexivity.
    + cbn [list_set map]. rewrite (IH n) by exact G. reflexivity.
Qed.

Lemma pool_fetch p ss l : pool_is p ss -> (forall k, In k l -> there ss k) ->
  exists ts, fetch_all p l = Done ts /\ forall t, In t ts -> wf t /\ exists k, In k l /\ tshape t = shape_at ss k.
Proof.
  intros P. induction l as [|i l IH]; intros H.
  { exists []. split; [reflexivity|]. intros t []. }
  destruct (pool_get p ss i P) as (t & E & W & S); [apply H; left; reflexivity|].
  destruct IH as (ts & E' & H'); [intros; apply H; right; assumption|].
  cbn [fetch_all]. rewrite E. cbn [bind]. rewrite E'. cbn [bind]. eexists. split; [reflexivity|].
  intros x [<-|Hx]; [split; [exact W|]; exists i; split; [left; reflexivity|exact S]|].
  destruct (H' x Hx) as (Wx & k & Hk & Sk). split; [exact Wx|]. exists k. split; [right; exact Hk|exact Sk].
Qed.

Ltac fetch P := repeat match goal with
  | H : there _ ?i |- context [vget _ ?i] =>
      let t := fresh "t" in let E := fresh "E" in let W := fresh "W" in let S := fresh "S" in
      destruct (pool_get _ _ _ P H) as (t & E & W & S); rewrite !E; cbn [bind]; clear H
  end.
Ltac conj := repeat match goal with H : _ /\ _ |- _ => destruct H end.

Lemma step_op bm (o : tensor_op F) p ss : pool_is p ss -> legal o ss ->
  exists p', run_op bm o p = Done p' /\ pool_is p' (ss ++ created o).
Proof.
  intros P Lg. destruct o; cbn [legal] in Lg; cbn [created run_op]; rewrite ?app_nil_r; conj.
  - rewrite tensor_new_done by exact Lg. cbn [bind]. eexists. split; [reflexivity|]. destruct P as (W & <-). split.
    + apply Forall_app. split; [exact W|]. constructor; [apply wf_of_fun, Lg|constructor].
    + rewrite map_app. reflexivity.
  - rewrite tensor_empty_done. cbn [bind]. eexists. split; [reflexivity|]. destruct P as (W & <-). split.
    + apply Forall_app. split; [exact W|]. constructor; [apply wf_of_fun, allocatable_111|constructor].
    + rewrite map_app. reflexivity.
  - fetch P. destruct (get_total bm t0 x) as (v & E1); [assumption|]. rewrite E1. cbn [bind]. eauto.
  - fetch P. destruct x as [i j k]. cbn [ix jx kx] in *. rewrite (wf_eq t0) by assumption. rewrite data_index_of_fun; [cbn [bind]; eauto|apply wf_alloc; assumption|].
    rewrite S. assumption.
  - fetch P. unfold total_items. rewrite total_size_done by (apply wf_alloc; assumption). cbn [bind]. eauto.
  - fetch P. eauto.
  - fetch P. eauto.
  - fetch P. destruct (set_total bm t0 x v) as (t' & E1); [assumption|]. rewrite E1. cbn [bind].
    eapply pool_put; [exact P|eassumption|]. eapply set_item_layout, E1.
  - fetch P. eapply pool_put; [exact P|eassumption|]. apply fill_with_value_layout.
  - fetch P. destruct (vec_total bm t0 v) as (t' & r & E1); [assumption|]. rewrite E1. cbn [bind].
    eapply pool_put; [exact P|eassumption|]. eapply fill_with_vec_layout, E1. assumption.
  - subst. fetch P. cbn [fill_with_uniform bind]. eapply pool_put; [exact P|eassumption|]. apply layout_data.
    rewrite map_length, seq_length. reflexivity.
  - subst. fetch P. cbn [fill_with_gaussian bind]. eapply pool_put; [exact P|eassumption|]. apply layout_data.
    rewrite map_length, seq_length. reflexivity.
  - fetch P. eapply pool_put; [exact P|eassumption|]. apply add_layout.
  - fetch P. eapply pool_put; [exact P|eassumption|]. apply add_to_self_layout.
  - fetch P. destruct (index_list_total bm t t0 l) as (d & e & E1); [assumption|assumption|]. rewrite E1. cbn [bind].
    eapply pool_put; [exact P|eassumption|]. eapply add_from_index_list_layout, E1.
  - fetch P. eapply pool_put; [exact P|eassumption|]. apply scale_layout.
  - fetch P. eapply pool_put; [exact P|eassumption|]. apply scale_self_layout.
  - fetch P. eapply pool_put; [exact P|eassumption|]. apply multiply_elementwise_layout.
  - fetch P. eapply pool_put; [exact P|eassumption|]. apply multiply_elementwise_self_layout.
  - fetch P. destruct (relu_self_and_store_mask t t0) as [[a' m'] e] eqn:E1. apply relu_self_layout in E1.
    destruct E1 as (L1 & L2). destruct (pool_put p ss a t a' P) as (p1 & E2 & P1); [assumption|assumption|].
    rewrite E2. cbn [bind]. destruct (N.eq_dec a m) as [->|D].
    + apply (pool_put p1 ss m a' m' P1).
      * unfold put, vset in E2. destruct (N.ltb_spec m (len p)) as [Hm|]; [|discriminate]. injection E2 as <-.
        unfold vget. rewrite len_list_set. replace (m <? len p) with true by lia.
        rewrite nth_error_list_set_same by (unfold len in Hm; lia). reflexivity.
      * congruence.
    + apply (pool_put p1 ss m t0 m' P1); [|assumption].
      unfold put, vset in E2. destruct (N.ltb_spec a (len p)) as [Ha|]; [|discriminate]. injection E2 as <-.
      apply vget_done in E0. destruct E0 as (Hm & E0).
      unfold vget. rewrite len_list_set. replace (m <? len p) with true by lia.
      rewrite nth_error_list_set_other by lia. rewrite E0. reflexivity.
  - fetch P. destruct (transpose_total bm t t0) as (d & e & E1); [assumption|assumption|]. rewrite E1. cbn [bind].
    eapply pool_put; [exact P|eassumption|]. eapply transpose_ij_layout, E1.
  - fetch P. destruct (mm_total bm t t0 t1) as (d & E2); try assumption. rewrite E2. cbn [bind].
    eapply pool_put; [exact P|eassumption|]. eapply matrix_multiply_layout, E2.
  - fetch P. destruct (mm_first_total bm t t0 t1) as (d & e & E2); try assumption. rewrite E2. cbn [bind].
    eapply pool_put; [exact P|eassumption|]. eapply matrix_multiply_first_layout, E2.
  - fetch P. destruct (mm_second_total bm t t0 t1) as (d & e & E2); try assumption. rewrite E2. cbn [bind].
    eapply pool_put; [exact P|eassumption|]. eapply matrix_multiply_second_layout, E2.
  - fetch P. destruct (mm_relu_total bm t t0 t1 t2) as (d & E3); try assumption. rewrite E3. cbn [bind].
    eapply pool_put; [exact P|eassumption|]. eapply matrix_multiply_add_relu_layout, E3.
  - destruct H0 as (Hs & (Fi & Fj) & _). unfold does_kernel_stride_fit_image.
    rewrite !u32_sub_done by assumption. cbn [bind]. rewrite !u32_rem_done by assumption. cbn [bind].
    destruct (negb _); [cbn [bind]; eauto|]. rewrite ?u32_sub_done by assumption. cbn [bind]. rewrite ?u32_rem_done by assumption. cbn [bind].
    destruct (negb _); cbn [bind]; eauto.
  - destruct (edge_bounds image kernel stride) as (Bi & Bj); try assumption.
    destruct H0 as (Hs & (Fi & Fj) & _). unfold get_convolution_dim_fit.
    rewrite !u32_sub_done by assumption. cbn [bind]. rewrite !u32_div_done by assumption. cbn [bind].
    rewrite !u32_add_done by assumption. cbn [bind]. eauto.
  - destruct (edge_bounds image mask stride) as (Bi & Bj); try assumption.
    destruct H0 as (Hs & (Fi & Fj) & _).
    destruct (check_pool_spec bm image mask stride r) as (b & C & _); try assumption. rewrite C. cbn [bind]. eauto.
  - fetch P. destruct (pool_total bm t t0 mask stride) as (d & E2); try assumption; [congruence|]. rewrite E2. cbn [bind].
    eapply pool_put; [exact P|eassumption|]. eapply max_pool_layout, E2.
  - fetch P. destruct (track_total bm t t0 mask stride origin) as (d & o' & e & E2); try assumption; [congruence|].
    rewrite E2. cbn [bind]. eapply pool_put; [exact P|eassumption|]. apply max_pool_track_layout in E2. apply E2.
  - fetch P. destruct (softmax_done t t0) as (d & E2); try assumption. rewrite E2. cbn [bind].
    eapply pool_put; [exact P|eassumption|]. eapply softmax_layout, E2.
  - fetch P. destruct (conv_total (fun x => x) bm t t0 t1 t2 stride ch) as (d & e & E3); try assumption; [congruence|].
    change (conv_with (fun x => x) bm t t0 t1 stride t2 ch) with (convolution_bias bm t t0 t1 stride t2 ch) in E3.
    rewrite E3. cbn [bind]. eapply pool_put; [exact P|eassumption|]. eapply convolution_bias_layout, E3.
  - fetch P. destruct (conv_total (fun x => fmax x fzero) bm t t0 t1 t2 stride ch) as (d & e & E3); try assumption; [congruence|].
    change (conv_with (fun x => fmax x fzero) bm t t0 t1 stride t2 ch) with (convolution_bias_relu bm t t0 t1 stride t2 ch) in E3.
    rewrite E3. cbn [bind]. eapply pool_put; [exact P|eassumption|]. eapply convolution_bias_relu_layout, E3.
  - destruct (pool_fetch p ss kernels P) as (ts & Ef & Hf); [intros k Hk; apply H1, Hk|].
    fetch P. rewrite Ef. cbn [bind].
    destruct (outgoing_total bm t t0 ts stride) as (d & e & E1); try assumption.
    { intros K HK. destruct (Hf K HK) as (WK & k & Hk & SK). split; [exact WK|]. rewrite SK, S, S0.
      destruct (H1 k Hk) as (_ & ? & ?). auto. }
    rewrite E1. cbn [bind]. eapply pool_put; [exact P|eassumption|]. eapply backprop_outgoing_layout, E1.
  - fetch P. destruct (kernel_gradient_total bm t t0 t1 stride ch) as (d & e & E2); try assumption; [congruence|].
    rewrite E2. cbn [bind]. eapply pool_put; [exact P|eassumption|]. eapply backprop_kernel_layout, E2.
Qed.

Lemma run_history bm (h : list (tensor_op F)) p ss : pool_is p ss -> legal_history h ss ->
  exists p', run_ops bm h p = Done p' /\ pool_is p' (ss ++ flat_map created h).
Proof.
  revert p ss. induction h as [|o h IH]; intros p ss P L.
  - exists p. split; [reflexivity|]. cbn [flat_map]. rewrite app_nil_r. exact P.
  - destruct L as (L1 & L2). destruct (step_op bm o p ss P L1) as (p1 & E1 & P1).
    destruct (IH p1 _ P1 L2) as (p' & E2 & P2). exists p'. split; [unfold run_ops; cbn [forM]; rewrite E1; exact E2|].
    cbn [flat_map]. rewrite app_assoc. exact P2.
Qed.

Lemma history_from_nothing bm (h : list (tensor_op F)) : legal_history h [] ->
  exists p, run_ops bm h [] = Done p /\ Forall wf p /\ map tshape p = flat_map created h.
Proof. apply (run_history bm h [] []). split; [constructor|reflexivity]. Qed.

Lemma history_from_pool bm (h : list (tensor_op F)) p : Forall wf p -> legal_history h (map tshape p) ->
  exists p', run_ops bm h p = Done p' /\ Forall wf p' /\ map tshape p' = map tshape p ++ flat_map created h.
Proof. intros W. apply (run_history bm h p). split; [exact W|reflexivity]. Qed.

End Ops.

(** ** C16: the first window at strides above 1 *)
Lemma first_window_unvisited n e stride : 0 < n -> 0 < e -> 1 < stride ->
  In 0 (covering n e stride (e - 1)) /\ ~ In 0 (visited n e stride (e - 1)).
Proof.
  intros Hn He Hs. split.
  - unfold covering. apply filter_In. split; [apply in_upto; exact Hn|]. lia.
  - unfold visited. rewrite filter_In. intros (_ & H). lia.
Qed.

(** Nothing is skipped exactly at stride 1 with no more windows than the kernel is long. *)
Lemma visited_all_iff m n e stride : tiles m e stride n -> 0 < e ->
  ((forall a, a < m -> visited n e stride a = covering n e stride a) <-> stride = 1 /\ n <= e).
Proof.
  intros (Hs & Hm & Hr & Hn) He. assert (Pn : 0 < n) by (rewrite Hn; generalize ((m - e) / stride); intros; lia). split.
  - intros H. assert (S : stride = 1).
    { destruct (N.eq_dec stride 1) as [|Ne]; [assumption|exfalso]. destruct (first_window_unvisited n e stride) as (I0 & N0); [exact Pn|exact He|clear - Hs Ne; lia|].
      apply N0. rewrite H by (clear - Hm He; lia). exact I0. }
    split; [exact S|]. subst stride. rewrite N.div_1_r in Hn.
    assert (I : In (n - 1) (visited n e 1 (n - 1))).
    { rewrite H by lia. unfold covering. apply filter_In. split; [apply in_upto; lia|]. lia. }
    unfold visited in I. apply filter_In in I. lia.
  - intros (-> & L) a Ha. rewrite N.div_1_r in Hn. unfold visited, covering.
    set (c := filter _ (upto n)). assert (All : forall i, In i c -> i < n /\ 1 * i <= a < 1 * i + e).
    { intros i Hi. unfold c in Hi. apply filter_In in Hi. destruct Hi as (Hi & Hb). apply in_upto in Hi. lia. }
    clearbody c. induction c as [|i c IH]; [reflexivity|]. simpl. destruct (All i (or_introl eq_refl)) as (A1 & A2).
    replace ((i <? e) && negb ((i =? 0) && (e <? a + 1))) with true by lia. f_equal. apply IH. intros k Hk. apply All. right. exact Hk.
Qed.
