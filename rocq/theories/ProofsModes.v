(** * Proofs for C67-C69 *)
From Coq Require Import ZifyBool ZifyNat ZifyN.
From Verif Require Import Base Arith Helper Tensor Convolution Network Bincode Serial Spec SpecLayer SpecNet SpecModes Loops TensorFacts OpsFacts.
From Verif Require Import ProofsTensor ProofsConv ProofsPool Layout LayerFacts NetFacts ProofsLayer NetRun.
Ltac Zify.zify_post_hook ::= Z.div_mod_to_equations.

Section Modes.
Context {F : Type} {AR : Arith F}.
Notation T := (tensor F).

Lemma zeros_of_fun bm s : allocatable s -> zeros bm (of_fun s (fun _ _ _ => fzero)) s.
Proof. intros A. apply holds_of_fun. exact A. Qed.

Lemma zeros_fill bm (t : T) s : shaped t s -> zeros bm (fill_with_value t fzero) s.
Proof. intros H. pose proof (shaped_eq _ _ H) as (A & ->). rewrite fill_with_value_of_fun. apply zeros_of_fun. exact A. Qed.

(** ** Backward outside training mode *)
Lemma backward_refused bm (l : layer F) X Y g og : get_run_mode l = Inference ->
  match l with LFC _ | LSoftmax _ => True | _ => False end -> exists e, backward bm l X Y g og = Done (l, og, Err e).
Proof.
  intros R K. destruct l as [l|l|l|l]; try destruct K; cbn [get_run_mode backward] in *.
  - unfold fc_backward. rewrite R. eexists. reflexivity.
  - unfold sm_backward. rewrite R. eexists. reflexivity.
Qed.

Lemma pool_backward_idle bm l (X Y g og : T) s : idle (F:=F) bm (LMaxPool l) -> wf g -> shaped og s ->
  exists og', backward bm (LMaxPool l) X Y g og = Done (LMaxPool l, og', Ok tt) /\ zeros bm og' s.
Proof.
  intros (_ & O) W H. cbn [dropped] in O. exists (fill_with_value og fzero). split; [|apply zeros_fill; exact H].
  cbn [backward]. unfold mp_backward, add_from_index_list, get_shape. rewrite O.
  rewrite total_size_done by (apply wf_alloc; exact W). cbn [bind].
  replace (_ <? len (@nil N)) with false by (unfold len; simpl; lia).
  pose proof (shaped_eq _ _ H) as (A & E). rewrite E, fill_with_value_of_fun. cbn [tshape of_fun].
  rewrite total_size_done by exact A. reflexivity.
Qed.

Lemma conv_backward_idle bm l (X Y g og : T) : idle bm (LConv l) -> cv_kernels l <> [] ->
  backward bm (LConv l) X Y g og = Panic PBounds.
Proof.
  intros (_ & O & _) K. cbn [backward]. unfold cv_backward. cbn [cv_set_mask cv_kernels cv_kernel_gradients]. rewrite O.
  rewrite Nrange_upto. destruct (cv_kernels l) as [|k ks]; [congruence|]. replace (len (k :: ks)) with (N.succ (len ks)) by (unfold len; simpl; lia).
  assert (E : upto (N.succ (len ks)) = 0 :: map N.succ (upto (len ks))).
  { unfold upto. rewrite N2Nat.inj_succ. cbn [seq map]. f_equal. rewrite <- seq_shift, !map_map. apply map_ext. intros a. lia. }
  rewrite E. cbn [tryM]. unfold vget at 1. replace (0 <? len (@nil T)) with false by (unfold len; simpl; lia). reflexivity.
Qed.

(** ** Buffers after a change of mode *)
Lemma new_gradients_zero bm (l : list T) acc : Forall (fun k => wf k) l ->
  exists g, forM l (fun k acc => g <- tensor_new bm (get_shape k) ;; Done (acc ++ [g])%list) acc = Done (acc ++ g)%list
    /\ Forall2 (fun g k => zeros bm g (tshape k)) g l.
Proof.
  intros H. revert acc. induction H as [|k l Hk H IH]; intros acc; cbn [forM].
  - exists []. rewrite app_nil_r. auto.
  - pose proof (wf_alloc _ Hk) as A. unfold get_shape at 1. rewrite tensor_new_done by exact A. cbn [bind].
    destruct (IH (acc ++ [of_fun (tshape k) (fun _ _ _ => fzero)])%list) as (g & E & G). rewrite E.
    exists (of_fun (tshape k) (fun _ _ _ => fzero) :: g). rewrite <- app_assoc. split; [reflexivity|].
    constructor; [apply zeros_of_fun; exact A|exact G].
Qed.

Lemma Forall2_repeat {A B} (P : A -> B -> Prop) x (l : list B) : (forall y, P x y) -> Forall2 P (repeat x (length l)) l.
Proof. intros H. induction l; simpl; constructor; auto. Qed.

Lemma repeat_map0 n : map (fun _ : N => 0) (repeat 0 n) = repeat 0 n.
Proof. induction n; simpl; congruence. Qed.

Lemma switch_buffers bm st (l : layer F) : layer_ok l ->
  exists l', switch_to bm st l = Done l' /\ params_of l' = params_of l /\ get_name l' = get_name l /\ get_run_mode l' = st
    /\ layer_ok l' /\ buffers bm st l'.
Proof.
  intros H. destruct (switch_to_ok bm st l H) as (l' & E & O & P & N & R). exists l'. split; [exact E|].
  do 4 (split; [assumption|]). clear O P N R.
  destruct l as [l|l|l|l], st; cbn [switch_to_training switch_to_inference layer_ok] in *; unfold lift1 in E;
    apply bind_done in E; destruct E as (l1 & E & [= <-]); cbn [buffers cleared dropped].
  - unfold cv_switch_to_inference, cv_update in E. cbn in E. rewrite tensor_empty_done in E. injection E as <-. cbn.
    auto using zeros_of_fun, allocatable_111.
  - destruct H as (ks & Ak & Hk & Ek & Lb & Hb & Ai & Ao & _). unfold cv_switch_to_training, cv_update in E. cbn [cv_run_state cv_set_run_state cv_kernels] in E.
    destruct (new_gradients_zero bm (cv_kernels l) []) as (g & Eg & G).
    { eapply Forall_impl; [|exact Hk]. intros a (W & _). exact W. }
    rewrite Eg in E. cbn [bind app] in E. rewrite tensor_new_done in E by apply allocatable_111. cbn [bind cv_output_shape] in E.
    rewrite tensor_new_done in E by exact Ao. injection E as <-. cbn. split; [exact G|].
    split; [apply Forall2_repeat; intros _; apply zeros_of_fun; apply allocatable_111|apply zeros_of_fun; exact Ao].
  - unfold fc_switch_to_inference, fc_update in E. cbn in E. rewrite tensor_empty_done in E. injection E as <-. cbn.
    auto 10 using zeros_of_fun, allocatable_111.
  - destruct H as (m & n & Hw & Hb & _). pose proof (wf_alloc _ (proj1 Hw)) as Aw. pose proof (wf_alloc _ (proj1 Hb)) as Ab.
    unfold fc_switch_to_training, fc_update in E. cbn [fc_run_state fc_set_run_state fc_weights fc_bias] in E.
    unfold fc_output_shape, get_shape in E. cbn [fc_bias] in E. rewrite !tensor_new_done in E by assumption. injection E as <-.
    unfold fc_clear_gradients. cbn. rewrite !fill_with_value_of_fun. auto 10 using zeros_of_fun.
  - unfold mp_switch_to_inference, mp_update in E. cbn in E. injection E as <-. reflexivity.
  - destruct H as (Ai & Ao & _). unfold mp_switch_to_training, mp_update in E. cbn [mp_run_state mp_set_run_state mp_output_shape] in E.
    rewrite total_size_done in E by exact Ao. injection E as <-. unfold mp_clear_gradients. cbn [mp_origin mp_output_shape]. apply repeat_map0.
  - unfold sm_switch_to_inference, sm_update in E. cbn in E. rewrite tensor_empty_done in E. injection E as <-. cbn.
    auto using zeros_of_fun, allocatable_111.
  - destruct H as (A & _). unfold sm_switch_to_training, sm_update in E. cbn [sm_run_state sm_set_run_state sm_shape] in E.
    rewrite tensor_new_done in E by apply allocatable_111. cbn [bind] in E. rewrite tensor_new_done in E by exact A. injection E as <-.
    unfold sm_clear_gradients. cbn [sm_intermediate1 sm_intermediate2 sm_shape]. rewrite !fill_with_value_of_fun. split; apply zeros_of_fun; [apply allocatable_111|exact A].
Qed.

(** Nothing of the past is left. *)
Lemma switch_forgets bm st (l1 l2 : layer F) : params_of l1 = params_of l2 -> get_name l1 = get_name l2 -> switch_to bm st l1 = switch_to bm st l2.
Proof.
  intros E N. destruct l1 as [a|a|a|a], l2 as [b|b|b|b]; cbn [params_of get_name] in *; try discriminate E; destruct a, b; cbn in *;
    injection E; intros; subst; destruct st; reflexivity.
Qed.

Lemma clear_buffers bm (l : layer F) : layer_ok l -> get_run_mode l = Training ->
  params_of (clear_gradients l) = params_of l /\ get_name (clear_gradients l) = get_name l /\ get_run_mode (clear_gradients l) = Training
  /\ match l, clear_gradients l with
     | LConv l, LConv l' =>
         Forall2 (fun g k => zeros bm g (tshape k)) (cv_kernel_gradients l') (cv_kernels l)
         /\ cv_bias_gradients l' = cv_bias_gradients l /\ cv_relu_mask l' = cv_relu_mask l
     | _, l' => cleared bm l'
     end.
Proof.
  intros H R. destruct l as [l|l|l|l]; cbn [layer_ok clear_gradients get_run_mode params_of get_name] in *; cbn;
    repeat (split; [first [reflexivity|assumption]|]).
  - destruct H as (ks & _ & Hk & _ & _ & _ & _ & _ & _ & Ht). destruct (Ht R) as (_ & G & L). split; [|split; reflexivity].
    clear Ht. revert L. generalize dependent (cv_kernels l). induction G as [|g gs Hg G IH]; intros [|k k0] Hk L; unfold len in L; simpl in L; try lia; simpl; constructor.
    + rewrite (proj2 (Forall_inv Hk)). apply zeros_fill. exact Hg.
    + apply IH; [exact (Forall_inv_tail Hk)|]. unfold len. lia.
  - destruct H as (m & n & Hw & Hb & Ht). destruct (Ht R) as (H1 & H2 & H3 & H4). rewrite (proj2 Hw), (proj2 Hb). auto 10 using zeros_fill.
  - destruct H as (_ & _ & _ & Ht). destruct (Ht R) as (L & _). unfold len in L. rewrite <- L, Nat2N.id.
    generalize (mp_origin l). intros o. induction o; simpl; congruence.
  - destruct H as (A & Ht). destruct (Ht R) as (H1 & H2). auto using zeros_fill.
Qed.

End Modes.

(** ** Networks *)
Section Networks.
Context {F : Type} {AR : Arith F} {BT : Bits F}.

Lemma map_layers_switch bm st (ls : list (layer F)) acc : Forall layer_ok ls ->
  exists ls', forM ls (fun l acc => l' <- switch_to bm st l ;; Done (acc ++ [l'])%list) acc = Done (acc ++ ls')%list
    /\ map params_of ls' = map params_of ls /\ map get_name ls' = map get_name ls
    /\ Forall (fun l => get_run_mode l = st /\ buffers bm st l) ls'.
Proof.
  intros H. revert acc. induction H as [|l ls Hl H IH]; intros acc; cbn [forM].
  - exists []. rewrite app_nil_r. auto.
  - destruct (switch_buffers bm st l Hl) as (l' & -> & P & N & R & _ & B). cbn [bind].
    destruct (IH (acc ++ [l'])%list) as (ls' & -> & Ps & Ns & Bs). exists (l' :: ls'). rewrite <- app_assoc. split; [reflexivity|].
    cbn [map]. rewrite P, N, Ps, Ns. auto.
Qed.

Lemma net_switch_training bm (n : network F) : relu_agrees F -> well_built bm n ->
  exists n', net_switch_to_training bm n = Done n'
    /\ map params_of (layers n') = map params_of (layers n) /\ map get_name (layers n') = map get_name (layers n)
    /\ Forall (fun l => get_run_mode l = Training /\ cleared bm l) (layers n')
    /\ intermediate_states n' = intermediate_states n
    /\ Forall2 (fun g s => zeros bm g (tshape s)) (intermediate_gradients n') (intermediate_states n).
Proof.
  intros RA W. destruct (built_ok bm n RA W) as (_ & L & S & _). unfold net_switch_to_training, map_layers.
  destruct (map_layers_switch bm Training (layers n) [] L) as (ls & E & P & N & B). cbn [switch_to] in E. rewrite E. cbn [bind app].
  destruct (new_gradients_zero bm (intermediate_states n) [] S) as (g & -> & G). cbn [bind app]. eexists. split; [reflexivity|]. cbn. auto.
Qed.

Lemma net_switch_inference bm (n : network F) : relu_agrees F -> well_built bm n ->
  exists n', net_switch_to_inference bm n = Done n'
    /\ map params_of (layers n') = map params_of (layers n) /\ map get_name (layers n') = map get_name (layers n)
    /\ Forall (fun l => get_run_mode l = Inference /\ dropped bm l) (layers n')
    /\ intermediate_states n' = intermediate_states n /\ intermediate_gradients n' = [].
Proof.
  intros RA W. destruct (built_ok bm n RA W) as (_ & L & S & _). unfold net_switch_to_inference, map_layers.
  destruct (map_layers_switch bm Inference (layers n) [] L) as (ls & E & P & N & B). cbn [switch_to] in E. rewrite E. cbn [bind app].
  eexists. split; [reflexivity|]. cbn. auto.
Qed.

(** Two networks with the same parameters cannot be told apart after a switch to training mode, except by the values of
    their last run. *)
Lemma map_layers_same bm st (l1 l2 : list (layer F)) acc : map params_of l1 = map params_of l2 -> map get_name l1 = map get_name l2 ->
  forM l1 (fun l acc => l' <- switch_to bm st l ;; Done (acc ++ [l'])%list) acc = forM l2 (fun l acc => l' <- switch_to bm st l ;; Done (acc ++ [l'])%list) acc.
Proof.
  revert l2 acc. induction l1 as [|a l1 IH]; intros [|b l2] acc P N; cbn [map] in P, N; try discriminate; [reflexivity|].
  cbn [forM]. injection P as P1 P2. injection N as N1 N2. rewrite (switch_forgets bm st a b P1 N1). destruct (switch_to bm st b); cbn [bind]; [|reflexivity].
  apply IH; assumption.
Qed.

Lemma net_switch_same bm (n1 n2 n1' n2' : network F) : map params_of (layers n1) = map params_of (layers n2) -> map get_name (layers n1) = map get_name (layers n2) ->
  net_switch_to_training bm n1 = Done n1' -> net_switch_to_training bm n2 = Done n2' -> layers n1' = layers n2'.
Proof.
  intros P N E1 E2. unfold net_switch_to_training, map_layers in *. pose proof (map_layers_same bm Training _ _ [] P N) as E. cbn [switch_to] in E. rewrite E in E1.
  apply bind_done in E1. destruct E1 as (ls & X & E1). rewrite X in E2. cbn [bind] in E2.
  apply bind_done in E1. destruct E1 as (g & _ & [= <-]). apply bind_done in E2. destruct E2 as (g2 & _ & [= <-]). reflexivity.
Qed.

End Networks.
