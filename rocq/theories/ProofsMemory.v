(** * Proofs for C95 *)
From Coq Require Import ZifyBool ZifyNat ZifyN.
From Verif Require Import Base Arith Helper Tensor Convolution Network Bincode Serial Spec SpecLayer SpecNet SpecModes SpecMemory Loops TensorFacts OpsFacts.
From Verif Require Import ProofsTensor ProofsConv ProofsPool Layout LayerFacts NetFacts ProofsLayer NetRun NetBack ProofsModes.
Ltac Zify.zify_post_hook ::= Z.div_mod_to_equations.

Section Memory.
Context {F : Type} {AR : Arith F} {BT : Bits F}.
Notation T := (tensor F).

Lemma total_app a b : total (a ++ b) = total a + total b.
Proof.
  induction a as [|x a IH]; [reflexivity|]. change (total ((x :: a) ++ b)) with (x + total (a ++ b)). change (total (x :: a)) with (x + total a).
  rewrite IH. lia.
Qed.

Lemma stored_app (a b : list T) : stored (a ++ b) = stored a + stored b.
Proof. unfold stored. rewrite map_app. apply total_app. Qed.

Lemma stored_cons (t : T) l : stored (t :: l) = len (data t) + stored l.
Proof. reflexivity. Qed.

Lemma layout_len (a b : T) : layout a = layout b -> len (data a) = len (data b).
Proof. unfold layout, len. intros [= _ _ ->]. reflexivity. Qed.

Lemma stored_layout (a b : list T) : map layout a = map layout b -> stored a = stored b.
Proof.
  intros E. unfold stored. f_equal. pose proof (f_equal (map (fun x => N.of_nat (snd x))) E) as Q. rewrite !map_map in Q. exact Q.
Qed.

Lemma wf_len (t : T) : wf t -> len (data t) = volume (tshape t).
Proof. intros (_ & _ & E). exact E. Qed.

Lemma stored_wf (l : list T) : Forall wf l -> stored l = total (map volume (map tshape l)).
Proof.
  intros H. unfold stored. f_equal. rewrite map_map. apply map_ext_in. rewrite Forall_forall in H. intros t It. apply wf_len. apply H. exact It.
Qed.

(** ** One layer *)
Lemma forward_stored bm l (X Y Y' : T) l' e : forward bm l X Y = Done (l', Y', e) -> layer_stored l' = layer_stored l.
Proof.
  unfold forward. destruct l as [l|l|l|l]; intros H; unfold lift3 in H; apply bind_done in H;
    destruct H as (((l1 & t1) & e1) & E & H); injection H as <- <- <-.
  - unfold cv_forward in E. destruct (cv_run_state l) eqn:R.
    + apply bind_done in E. destruct E as ((out & r) & E & H). injection H as <- <- <-. reflexivity.
    + apply bind_done in E. destruct E as ((out & r) & E & H). destruct r as [[]|er]; [|injection H as <- <- <-; reflexivity].
      destruct (relu_self_and_store_mask out (cv_relu_mask l)) as ((out' & mask) & r') eqn:M.
      injection H as <- <- <-. apply relu_self_layout in M. unfold cv_set_mask.
      cbn [layer_stored cv_kernels cv_biases cv_kernel_gradients cv_bias_gradients cv_relu_mask]. rewrite !stored_app, !stored_cons.
      rewrite (layout_len _ _ (proj2 M)). reflexivity.
  - unfold fc_forward in E. destruct (fc_run_state l) eqn:R.
    + apply bind_done in E. destruct E as (out & E & H). injection H as <- <- <-. reflexivity.
    + apply bind_done in E. destruct E as (out & E & H).
      destruct (relu_self_and_store_mask (add_to_self out (fc_bias l)) (fc_relu_mask l)) as ((out' & mask) & r') eqn:M.
      injection H as <- <- <-. apply relu_self_layout in M.
      cbn [layer_stored fc_weights fc_bias fc_weights_gradients fc_weights_gradients_intermediate fc_bias_gradients fc_relu_mask]. rewrite !stored_cons.
      rewrite (layout_len _ _ (proj2 M)). reflexivity.
  - unfold mp_forward in E. destruct (mp_run_state l) eqn:R.
    + apply bind_done in E. destruct E as (out & E & H). injection H as <- <- <-. reflexivity.
    + apply bind_done in E. destruct E as (((out & o) & r) & E & H). injection H as <- <- <-.
      apply max_pool_track_layout in E. cbn. unfold len. rewrite (proj2 E). reflexivity.
  - unfold sm_forward in E. apply bind_done in E. destruct E as (out & E & H). injection H as <- <- <-. reflexivity.
Qed.

Lemma backward_stored bm l (X Y g og og' : T) l' e : backward bm l X Y g og = Done (l', og', e) -> layer_stored l' = layer_stored l.
Proof.
  unfold backward. destruct l as [l|l|l|l]; intros H; unfold lift3 in H; apply bind_done in H; destruct H as (((l1 & t1) & e1) & E & H);
    injection H as <- <- <-; cbn [layer_stored].
  - pose proof (cv_backward_kept _ _ _ _ _ _ _ _ _ E) as (L & G & M & P & _). cbn [params_of] in P. injection P as P1 P2 _ _ _.
    assert (B : cv_bias_gradients l1 = cv_bias_gradients l).
    { unfold cv_backward in E. apply bind_done in E. destruct E as ((kg & r) & _ & E). destruct r as [[]|er].
      - apply bind_done in E. destruct E as ((og1 & r2) & _ & E). injection E as <- <- <-. reflexivity.
      - injection E as <- <- <-. reflexivity. }
    rewrite !stored_app, !stored_cons, P1, P2, B, (stored_layout _ _ G), (layout_len _ _ M). reflexivity.
  - pose proof (fc_backward_kept _ _ _ _ _ _ _ _ _ E) as (_ & L1 & L2 & L3 & L4 & P1 & P2 & _).
    rewrite !stored_cons, P1, P2, (layout_len _ _ L1), (layout_len _ _ L2), (layout_len _ _ L3), (layout_len _ _ L4). reflexivity.
  - apply mp_backward_kept in E. destruct E as (_ & ->). reflexivity.
  - apply sm_backward_kept in E. destruct E as (_ & L1 & L2 & _). rewrite !stored_cons, (layout_len _ _ L1), (layout_len _ _ L2). reflexivity.
Qed.

Lemma shaped_len (t : T) s : shaped t s -> len (data t) = volume s.
Proof. intros (W & <-). apply wf_len. exact W. Qed.

Lemma zeros_len bm (t : T) s : zeros bm t s -> len (data t) = volume s.
Proof. intros (W & <- & _). apply wf_len. exact W. Qed.

Lemma stored_forall2 {A} (P : T -> A -> Prop) v (l : list T) m : Forall2 P l m -> (forall t x, P t x -> len (data t) = v x) -> stored l = total (map v m).
Proof. intros H E. unfold stored. f_equal. induction H; cbn [map]; [reflexivity|]. f_equal; auto. Qed.

Lemma total_ones {A} (l : list A) : total (map (fun _ => 1) l) = len l.
Proof. unfold len. induction l as [|a l IH]; [reflexivity|]. cbn [map]. change (total (1 :: map (fun _ : A => 1) l)) with (1 + total (map (fun _ : A => 1) l)). rewrite IH. cbn [length]. lia. Qed.

Lemma buffers_stored bm st (l : layer F) : layer_ok l -> buffers bm st l -> layer_stored l = takes st (params_of l).
Proof.
  destruct l as [l|l|l|l]; cbn [layer_ok params_of]; intros O B; cbn [layer_stored].
  - destruct O as (ks & A & Hk & _ & _ & Hb & _). rewrite !stored_app, !stored_cons.
    assert (Ek : stored (cv_kernels l) = total (map (fun t => volume (tshape t)) (cv_kernels l))).
    { rewrite stored_wf, map_map; [reflexivity|]. eapply Forall_impl; [|exact Hk]. intros a (W & _). exact W. }
    assert (Eb : stored (cv_biases l) = total (map (fun t => volume (tshape t)) (cv_biases l))).
    { rewrite stored_wf, map_map; [reflexivity|]. eapply Forall_impl; [|exact Hb]. intros a (W & _). exact W. }
    rewrite Ek, Eb. destruct st; cbn [buffers cleared dropped takes] in *.
    + destruct B as (-> & -> & B). rewrite (zeros_len _ _ _ B). change (stored (@nil T)) with 0. change (volume (mkShape 1 1 1)) with 1. lia.
    + destruct B as (B1 & B2 & B3). rewrite (zeros_len _ _ _ B3).
      rewrite (stored_forall2 _ (fun k => volume (tshape k)) _ _ B1) by (intros t x Z; apply (zeros_len _ _ _ Z)).
      rewrite (stored_forall2 _ (fun _ => 1) _ _ B2) by (intros t x Z; apply (zeros_len _ _ _ Z)). rewrite total_ones. change (stored (@nil T)) with 0. lia.
  - destruct O as (m & n & Hw & Hb & _). rewrite !stored_cons, (wf_len _ (proj1 Hw)), (wf_len _ (proj1 Hb)).
    destruct st; cbn [buffers cleared dropped takes] in *; destruct B as (B1 & B2 & B3 & B4);
      rewrite (zeros_len _ _ _ B1), (zeros_len _ _ _ B2), (zeros_len _ _ _ B3), (zeros_len _ _ _ B4); change (stored (@nil T)) with 0.
    + change (volume (mkShape 1 1 1)) with 1. lia.
    + lia.
  - destruct st; cbn [buffers cleared dropped takes] in *; rewrite B; [reflexivity|]. unfold len. rewrite repeat_length. unfold volume. lia.
  - destruct st; cbn [buffers cleared dropped takes] in *; destruct B as (B1 & B2); rewrite !stored_cons, (zeros_len _ _ _ B1), (zeros_len _ _ _ B2);
      change (stored (@nil T)) with 0; change (volume (mkShape 1 1 1)) with 1; lia.
Qed.

Definition sized (l : layer F) : Prop := layer_stored l = takes (get_run_mode l) (params_of l).

Lemma switched_sized bm st (l l' : layer F) : switch_to bm st l = Done l' -> layer_ok l' -> sized l'.
Proof.
  intros E O. pose proof (switch_kept bm st l l') as K. assert (I : ident l' = (params_of l, get_name l, st)) by (apply K; destruct st; exact E).
  injection I as P N M. destruct (switch_buffers bm st l' O) as (l2 & E2 & P2 & _ & _ & O2 & B).
  rewrite (switch_forgets bm st l' l P N), E in E2. injection E2 as <-. unfold sized. rewrite M. apply buffers_stored with (bm := bm); assumption.
Qed.

Lemma sized_same (l l' : layer F) : ident l' = ident l -> layer_stored l' = layer_stored l -> sized l -> sized l'.
Proof. unfold ident, sized. intros [= -> _ ->] -> H. exact H. Qed.

Lemma map_total (ls ls' : list (layer F)) : map ident ls' = map ident ls -> Forall sized ls -> Forall sized ls' ->
  map layer_stored ls' = map layer_stored ls.
Proof.
  revert ls'; induction ls as [|l ls IH]; intros [|l' ls'] E H H'; try discriminate; cbn [map] in *; [reflexivity|].
  pose proof (f_equal (hd (ident l)) E) as E1. cbn [hd] in E1. apply (f_equal (@tl _)) in E. cbn [tl] in E.
  inversion_clear H; inversion_clear H'. f_equal; [|apply IH; assumption]. unfold ident, sized in *. injection E1 as Ep _ Em. congruence.
Qed.

(** ** Whole networks *)
Lemma Forall_vset {A} (P : A -> Prop) l i x l' : Forall P l -> P x -> vset l i x = Done l' -> Forall P l'.
Proof. intros H Hx V. unfold vset in V. destruct (_ <? _); [|discriminate]. injection V as <-. apply Forall_list_set; assumption. Qed.

Lemma infer_loop_sized bm is ls states ls' states' r :
  tryM is (infer_step bm) (ls, states) = Done ((ls', states'), r) -> Forall sized ls -> Forall sized ls'.
Proof.
  intros H O. refine (tryM_done_inv (fun s => Forall sized (fst s)) _ _ _ _ _ _ _ H); [exact O|].
  clear. intros i (ls & gr) (ls' & gr') r _ O H. cbn [fst] in *. unfold infer_step in H. apply bind_done in H. destruct H as (l & El & H).
  apply bind_done in H. destruct H as (x & Ex & H). apply bind_done in H. destruct H as (y & Ey & H).
  apply bind_done in H. destruct H as (((l1 & y1) & r1) & Ef & H).
  apply bind_done in H. destruct H as (ls1 & Vl & H). apply bind_done in H. destruct H as (st1 & Vs & H). injection H as <- <- <-.
  apply vget_done in El. destruct El as (Li & El). eapply Forall_vset; [exact O| |exact Vl].
  eapply sized_same; [eapply forward_kept; exact Ef|eapply forward_stored; exact Ef|]. eapply Forall_nth; eassumption.
Qed.

Lemma backward_loop_sized bm states is ls grads ls' grads' r :
  tryM is (backward_step bm states) (ls, grads) = Done ((ls', grads'), r) -> Forall sized ls -> Forall sized ls'.
Proof.
  intros H O. refine (tryM_done_inv (fun s => Forall sized (fst s)) _ _ _ _ _ _ _ H); [exact O|].
  clear. intros i (ls & gr) (ls' & gr') r _ O H. cbn [fst] in *. unfold backward_step in H.
  apply bind_done in H. destruct H as (l & El & H). apply bind_done in H. destruct H as (g & Eg & H).
  apply bind_done in H. destruct H as (og & Eo & H). apply bind_done in H. destruct H as (x & _ & H). apply bind_done in H. destruct H as (y & _ & H).
  apply bind_done in H. destruct H as (((l1 & y1) & r1) & Ef & H).
  apply bind_done in H. destruct H as (ls1 & Vl & H). apply bind_done in H. destruct H as (st1 & Vs & H). injection H as <- <- <-.
  apply vget_done in El. destruct El as (Li & El). eapply Forall_vset; [exact O| |exact Vl].
  eapply sized_same; [eapply backward_ident; exact Ef|eapply backward_stored; exact Ef|]. eapply Forall_nth; eassumption.
Qed.

(** The gradients the network keeps belong to its last boundaries. *)
Definition measured (n : network F) : Prop :=
  Forall sized (layers n) /\ (exists bs, boundaries (layers n) = (bs ++ map tshape (intermediate_gradients n))%list)
  /\ (net_run_state n = Inference -> intermediate_gradients n = []).

Lemma measured_new st : measured (@network_new F st).
Proof. split; [constructor|]. split; [exists []; reflexivity|reflexivity]. Qed.

Lemma measured_add bm n (l : layer F) n' r : measured n -> add_layer bm n l = Done (n', r) -> Forall layer_ok (layers n') -> measured n'.
Proof.
  intros (S & (bs & B) & Z) D O. apply add_layer_done in D. destruct D as [D|(_ & -> & _)]; [|split; eauto].
  destruct D as (-> & _ & l1 & ss & L & I & Es & St & Sh & Sn & _ & _ & R' & gs & G' & Gs).
  assert (Ol : layer_ok l1) by (rewrite L in O; apply Forall_app in O; destruct O as (_ & O); inversion O; assumption).
  split; [|split].
  - rewrite L. apply Forall_app. split; [exact S|]. constructor; [|constructor]. eapply (switched_sized bm (net_run_state n) l); [|exact Ol].
    destruct (net_run_state n); exact Es.
  - rewrite G', Gs, L. destruct (params_shapes l l1) as (Pi & Po); [injection I as -> _ _; reflexivity|].
    destruct (net_run_state n) eqn:R.
    + rewrite Z by reflexivity. eexists. cbn. rewrite app_nil_r. reflexivity.
    + destruct (layers n) as [|a ls] eqn:El.
      * cbn [boundaries] in B. symmetry in B. apply app_eq_nil in B. destruct B as (_ & B). apply map_eq_nil in B. rewrite B. exists [].
        cbn [app boundaries map]. rewrite Sh, Pi, Po. reflexivity.
      * exists bs. rewrite boundaries_app by discriminate. rewrite B, map_app, Sh, Po, app_assoc. reflexivity.
  - rewrite R', G', Gs. intros R. rewrite R, (Z R). reflexivity.
Qed.

Lemma measured_infer bm n (X : T) n' r : measured n -> infer bm n X = Done (n', r) -> measured n'.
Proof.
  intros (S & (bs & B) & Z) H. pose proof (infer_kept _ _ _ _ _ H) as (I & Eg & _ & _ & Er & _). split; [|split].
  - unfold infer in H. destruct (negb _); [injection H as <- <-; exact S|]. destruct (_ <? 2); [injection H as <- <-; exact S|].
    apply bind_done in H. destruct H as (st & Vs & H). apply bind_done in H. destruct H as (((ls & st') & r') & E & H). injection H as <- <-.
    cbn. eapply infer_loop_sized; eassumption.
  - rewrite Eg, (ident_boundaries _ _ I). eauto.
  - rewrite Er, Eg. exact Z.
Qed.

Lemma backward_gradients bm n (g : T) n' r : net_ok n -> measured n -> net_backward bm n g = Done (n', r) ->
  map tshape (intermediate_gradients n') = map tshape (intermediate_gradients n).
Proof.
  intros (St & _) (_ & (bs & B) & _) H. unfold net_backward in H.
  destruct (negb (shape_eqb _ _)) eqn:Sg; [injection H as <- <-; reflexivity|].
  destruct (len (layers n) <? 1) eqn:Ll; [injection H as <- <-; reflexivity|]. destruct (negb (run_state_eqb _ _)); [injection H as <- <-; reflexivity|].
  apply bind_done in H. destruct H as (gr & Vs & H). apply bind_done in H. destruct H as (((ls & st') & r') & E & H).
  injection H as <- <-. cbn [intermediate_gradients]. apply backward_loop_kept in E. destruct E as (_ & L). apply layout_shapes in L.
  rewrite L. unfold vset in Vs. destruct (N.ltb_spec (len (layers n)) (len (intermediate_gradients n))) as [Lt|]; [|discriminate]. injection Vs as <-.
  assert (NE : layers n <> []) by (intros E; rewrite E in Ll; discriminate).
  pose proof (boundaries_length (layers n) NE) as Lb. rewrite B in Lb. unfold len in Lb, Lt. rewrite app_length, map_length in Lb.
  assert (bs = []) by (destruct bs; [reflexivity|cbn [length] in Lb; lia]). subst bs. cbn [app] in B.
  destruct (nth_error (intermediate_gradients n) (N.to_nat (len (layers n)))) as [y|] eqn:Ny.
  2: { apply nth_error_None in Ny. unfold len in *. lia. }
  apply map_list_set with (y := y); [exact Ny|]. apply negb_false_iff, shape_eqb_eq in Sg. unfold get_shape in Sg. rewrite Sg.
  destruct St as (_ & _ & Eo & _). rewrite Eo. pose proof (map_nth_error tshape _ _ Ny) as Nb. rewrite <- B in Nb.
  rewrite (last_boundary (layers n) (mkShape 0 0 0)) in Nb; [congruence|exact NE].
Qed.

Lemma measured_backward bm n (g : T) n' r : net_ok n -> measured n -> net_backward bm n g = Done (n', r) -> measured n'.
Proof.
  intros O M H. pose proof (backward_gradients _ _ _ _ _ O M H) as G. destruct M as (S & (bs & B) & Z).
  pose proof (net_backward_kept _ _ _ _ _ H) as (I & _ & _ & _ & Er). split; [|split].
  - unfold net_backward in H. destruct (negb (shape_eqb _ _)); [injection H as <- <-; exact S|].
    destruct (len (layers n) <? 1); [injection H as <- <-; exact S|]. destruct (negb (run_state_eqb _ _)); [injection H as <- <-; exact S|].
    apply bind_done in H. destruct H as (gr & Vs & H). apply bind_done in H. destruct H as (((ls & st') & r') & E & H).
    injection H as <- <-. cbn. eapply backward_loop_sized; eassumption.
  - rewrite G, (ident_boundaries _ _ I). eauto.
  - rewrite Er. intros R. specialize (Z R). rewrite Z in G. cbn in G. apply map_eq_nil in G. exact G.
Qed.

Lemma map_layers_sized bm st (ls ls' : list (layer F)) : Forall2 (fun l l' => switch_to bm st l = Done l') ls ls' -> Forall layer_ok ls' -> Forall sized ls'.
Proof. induction 1 as [|l l' ls ls' E H IH]; intros O; inversion_clear O; constructor; [eapply switched_sized; eassumption|auto]. Qed.

Lemma measured_training bm n (n' : network F) : net_ok n -> net_switch_to_training bm n = Done n' -> measured n'.
Proof.
  intros O E. destruct (training_ok bm n O) as (n2 & E' & O' & B). rewrite E in E'. injection E' as <-. split; [|split].
  - destruct O' as (_ & Lo & _). unfold net_switch_to_training in E. apply bind_done in E. destruct E as (ls & E & H). apply bind_done in H. destruct H as (g & _ & H).
    injection H as <-. cbn in *. apply map_layers_done in E. eapply (map_layers_sized bm Training); eassumption.
  - exists []. rewrite B. reflexivity.
  - apply net_training_kept in E. destruct E as (_ & _ & _ & _ & ->). discriminate.
Qed.

Lemma measured_inference bm n (n' : network F) : net_ok n -> net_switch_to_inference bm n = Done n' -> measured n'.
Proof.
  intros O E. destruct (inference_ok bm n O) as (n2 & E' & O'). rewrite E in E'. injection E' as <-.
  pose proof (net_inference_kept _ _ _ E) as (_ & _ & G & _). split; [|split].
  - destruct O' as (_ & Lo & _). unfold net_switch_to_inference in E. apply bind_done in E. destruct E as (ls & E & H).
    injection H as <-. cbn in *. apply map_layers_done in E. eapply (map_layers_sized bm Inference); eassumption.
  - exists (boundaries (layers n')). rewrite G, app_nil_r. reflexivity.
  - intros _. exact G.
Qed.

Lemma measured_built bm n : relu_agrees F -> well_built bm n -> measured n.
Proof.
  intros RA H. induction H as [st|n op n' r W IH G E|n fs name n' r W IH E O]; [apply measured_new| |].
  - pose proof (built_ok bm n RA W) as O. pose proof (good_step bm n op n' r RA O G E) as O'.
    destruct op as [l|fs name|x|g| |]; cbn [run_op good_op] in *.
    + eapply measured_add; [exact IH|exact E|apply O'].
    + destruct G.
    + eapply measured_infer; eassumption.
    + exact (measured_backward bm n g n' r O IH E).
    + apply bind_done in E. destruct E as (n1 & E & Q). injection Q as <- <-. exact (measured_training bm n n1 O E).
    + apply bind_done in E. destruct E as (n1 & E & Q). injection Q as <- <-. exact (measured_inference bm n n1 O E).
  - refine (load_ind bm measured _ fs name n n' r IH E O). intros. eapply measured_add; eassumption.
Qed.

Lemma sized_map (ls : list (layer F)) : Forall sized ls -> map layer_stored ls = map (fun l => takes (get_run_mode l) (params_of l)) ls.
Proof. intros H. apply map_ext_in. rewrite Forall_forall in H. exact H. Qed.

Lemma memory_built bm n : relu_agrees F -> well_built bm n ->
  map layer_stored (layers n) = map (fun l => takes (get_run_mode l) (params_of l)) (layers n)
  /\ stored (intermediate_states n) = total (map volume (boundaries (layers n)))
  /\ (exists bs, boundaries (layers n) = (bs ++ map tshape (intermediate_gradients n))%list)
  /\ stored (intermediate_gradients n) <= total (map volume (boundaries (layers n))).
Proof.
  intros RA W. destruct (measured_built bm n RA W) as (S & (bs & B) & _). destruct (built_ok bm n RA W) as (St & _ & Ws & Wg).
  split; [apply sized_map; exact S|]. split; [rewrite (stored_wf _ Ws); destruct St as (_ & _ & _ & ->); reflexivity|]. split; [eauto|].
  rewrite (stored_wf _ Wg), B, map_app, total_app. lia.
Qed.

Lemma memory_training bm n : relu_agrees F -> training_built bm n ->
  net_stored n = total (map (takes Training) (map params_of (layers n))) + 2 * total (map volume (boundaries (layers n))).
Proof.
  intros RA W. pose proof (training_built_in bm n RA W) as (_ & M & G). apply training_built_well in W.
  destruct (memory_built bm n RA W) as (E & Es & _). unfold net_stored. rewrite E, Es. destruct (built_ok bm n RA W) as (_ & _ & _ & Wg).
  rewrite (stored_wf _ Wg), G, map_map. rewrite (map_ext_in _ (fun l => takes Training (params_of l))); [lia|].
  intros l Il. rewrite Forall_forall in M. rewrite (M l Il). reflexivity.
Qed.

Lemma memory_inference bm n (n' : network F) : relu_agrees F -> well_built bm n -> net_switch_to_inference bm n = Done n' ->
  net_stored n' = total (map (takes Inference) (map params_of (layers n))) + total (map volume (boundaries (layers n))).
Proof.
  intros RA W E. assert (W' : well_built bm n').
  { apply (built_step bm n OInference n' (Ok tt)); [exact W|exact I|]. cbn [run_op]. rewrite E. reflexivity. }
  destruct (memory_built bm n' RA W') as (Q & Es & _). pose proof (net_inference_kept _ _ _ E) as (H & _ & G & _).
  assert (P : map params_of (layers n') = map params_of (layers n)).
  { pose proof (f_equal (map (fun x => fst (fst x))) H) as K. rewrite !map_map in K. exact K. }
  unfold net_stored. rewrite Q, Es, G, (boundaries_params _ _ P), map_map.
  assert (K : map (fun l => takes (get_run_mode l) (params_of l)) (layers n') = map (fun l => takes Inference (params_of l)) (layers n)).
  { pose proof (f_equal (map (fun x => takes (snd x) (fst (fst x)))) H) as K. rewrite !map_map in K. exact K. }
  rewrite K. change (stored (@nil T)) with 0. lia.
Qed.

Lemma memory_stable bm n op n' r : relu_agrees F -> well_built bm n -> good_op op ->
  match op with OInfer _ | OBackward _ => True | _ => False end -> run_op bm n op = Done (n', r) -> net_stored n' = net_stored n.
Proof.
  intros RA W G K E. pose proof (built_step bm n op n' r W G E) as W'.
  destruct (memory_built bm n RA W) as (Q & Es & _). destruct (memory_built bm n' RA W') as (Q' & Es' & _).
  destruct (built_ok bm n RA W) as (_ & _ & _ & Wg). destruct (built_ok bm n' RA W') as (_ & _ & _ & Wg').
  pose proof (measured_built bm n RA W) as M. pose proof (built_ok bm n RA W) as O.
  assert (H : map ident (layers n') = map ident (layers n) /\ map tshape (intermediate_gradients n') = map tshape (intermediate_gradients n)).
  { destruct op; try destruct K; cbn [run_op] in E.
    - apply infer_kept in E. destruct E as (I & -> & _). auto.
    - split; [eapply net_backward_kept; exact E|eapply backward_gradients; eassumption]. }
  destruct H as (I & S). unfold net_stored. rewrite Q, Q', Es, Es', (stored_wf _ Wg), (stored_wf _ Wg'), S, (ident_boundaries _ _ I).
  assert (L : map (fun l => takes (get_run_mode l) (params_of l)) (layers n') = map (fun l => takes (get_run_mode l) (params_of l)) (layers n)).
  { pose proof (f_equal (map (fun x => takes (snd x) (fst (fst x)))) I) as L. rewrite !map_map in L. exact L. }
  rewrite L. reflexivity.
Qed.

End Memory.
