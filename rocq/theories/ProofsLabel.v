(** * Proofs for C107 *)
From Verif Require Import Base Arith Helper Tensor Convolution Network Bincode Serial Spec SpecLayer SpecNet SpecPlatform SpecLabel Loops ProofsFree.

Section Any.
Context {F : Type} {AR : Arith F} {BT : Bits F} (bm : build).
Notation T := (tensor F).

Lemma renamed_refl (l : layer F) : renamed l l.
Proof. destruct l as [[]|[]|[]|[]]; eexists; reflexivity. Qed.
Lemma renamed_in (l l' : layer F) : renamed l l' -> get_input_shape l' = get_input_shape l.
Proof. intros (s & ->). destruct l; reflexivity. Qed.
Lemma renamed_out (l l' : layer F) : renamed l l' -> get_output_shape l' = get_output_shape l.
Proof. intros (s & ->). destruct l; reflexivity. Qed.

Lemma outcome_refl {A} (R : A -> A -> Prop) (x : res A) : (forall a, R a a) -> outcome R x x.
Proof. destruct x; cbn; auto. Qed.

Ltac same := repeat first
  [ apply o_pure; let a := fresh "a" in intros a _
  | match goal with |- outcome _ (let '(_, _) := ?a in _) _ => destruct a end
  | match goal with |- outcome _ (match ?r with Ok _ => _ | Err _ => _ end) _ => destruct r end
  | match goal with |- outcome _ (if ?b then _ else _) _ => destruct b end
  | match goal with |- outcome _ (Done _) (Done _) => apply o_done end ].
Ltac put := repeat split; first [eexists; reflexivity | reflexivity | apply renamed_refl].

Lemma label_forward l l' (X Y : T) : renamed l l' -> outcome (both (both renamed eq) eq) (forward bm l X Y) (forward bm l' X Y).
Proof.
  intros (s & ->). destruct l as [[a1 a2 a3 a4 a5 a6 a7 a8 a9 st]|[a1 a2 a3 a4 a5 a6 a7 st]|[a1 a2 a3 a4 a5 st a6]|[a1 a2 a3 a4 st]]; cbn [forward rename]; unfold lift3.
  - eapply (o_bind (both (both (fun a b => renamed (LConv a) (LConv b)) eq) eq)); [|intros [[] ?] [[] ?] ((? & ?) & ?); cbn [fst snd] in *; subst; repeat split; assumption].
    unfold cv_forward. cbn [cv_run_state cv_output_shape cv_kernels cv_biases cv_stride cv_relu_mask]. destruct st; same; put.
  - eapply (o_bind (both (both (fun a b => renamed (LFC a) (LFC b)) eq) eq)); [|intros [[] ?] [[] ?] ((? & ?) & ?); cbn [fst snd] in *; subst; repeat split; assumption].
    unfold fc_forward. cbn [fc_run_state fc_weights fc_bias fc_relu_mask fc_weights_gradients fc_weights_gradients_intermediate fc_bias_gradients fc_name].
    destruct st; same; put.
  - eapply (o_bind (both (both (fun a b => renamed (LMaxPool a : layer F) (LMaxPool b)) eq) eq)); [|intros [[] ?] [[] ?] ((? & ?) & ?); cbn [fst snd] in *; subst; repeat split; assumption].
    unfold mp_forward. cbn [mp_run_state mp_mask_shape mp_stride mp_origin]. destruct st; same; put.
  - eapply (o_bind (both (both (fun a b => renamed (LSoftmax a) (LSoftmax b)) eq) eq)); [|intros [[] ?] [[] ?] ((? & ?) & ?); cbn [fst snd] in *; subst; repeat split; assumption].
    unfold sm_forward. same; put.
Qed.

Lemma label_backward l l' (X Y G O : T) : renamed l l' -> outcome (both (both renamed eq) eq) (backward bm l X Y G O) (backward bm l' X Y G O).
Proof.
  intros (s & ->). destruct l as [[a1 a2 a3 a4 a5 a6 a7 a8 a9 st]|[a1 a2 a3 a4 a5 a6 a7 st]|[a1 a2 a3 a4 a5 st a6]|[a1 a2 a3 a4 st]]; cbn [backward rename]; unfold lift3.
  - eapply (o_bind (both (both (fun a b => renamed (LConv a) (LConv b)) eq) eq)); [|intros [[] ?] [[] ?] ((? & ?) & ?); cbn [fst snd] in *; subst; repeat split; assumption].
    unfold cv_backward. cbn [cv_set_mask cv_set_kernel_gradients cv_kernel_gradients cv_run_state cv_output_shape cv_kernels cv_biases cv_stride cv_relu_mask]. cbv zeta. same; put.
  - eapply (o_bind (both (both (fun a b => renamed (LFC a) (LFC b)) eq) eq)); [|intros [[] ?] [[] ?] ((? & ?) & ?); cbn [fst snd] in *; subst; repeat split; assumption].
    unfold fc_backward. cbn [fc_run_state fc_weights fc_bias fc_relu_mask fc_weights_gradients fc_weights_gradients_intermediate fc_bias_gradients fc_name]. cbv zeta. same; put.
  - eapply (o_bind (both (both (fun a b => renamed (LMaxPool a : layer F) (LMaxPool b)) eq) eq)); [|intros [[] ?] [[] ?] ((? & ?) & ?); cbn [fst snd] in *; subst; repeat split; assumption].
    unfold mp_backward. cbn [mp_run_state mp_mask_shape mp_stride mp_origin]. cbv zeta. same; put.
  - eapply (o_bind (both (both (fun a b => renamed (LSoftmax a) (LSoftmax b)) eq) eq)); [|intros [[] ?] [[] ?] ((? & ?) & ?); cbn [fst snd] in *; subst; repeat split; assumption].
    unfold sm_backward. cbn [sm_run_state sm_intermediate1 sm_intermediate2 sm_shape sm_name]. cbv zeta. same; put.
Qed.

Lemma label_switch st (l l' : layer F) : renamed l l' ->
  outcome renamed (match st with Inference => switch_to_inference bm l | Training => switch_to_training bm l end)
    (match st with Inference => switch_to_inference bm l' | Training => switch_to_training bm l' end).
Proof.
  intros (s & ->). destruct st, l as [c|f|p|m]; cbn [switch_to_inference switch_to_training rename]; unfold lift1.
  all: unfold cv_switch_to_inference, cv_switch_to_training, cv_update, fc_switch_to_inference, fc_switch_to_training, fc_update, fc_output_shape,
    mp_switch_to_inference, mp_switch_to_training, mp_update, sm_switch_to_inference, sm_switch_to_training, sm_update.
  all: cbn [cv_set_run_state cv_run_state cv_kernels cv_biases cv_stride cv_input_shape cv_output_shape cv_name fc_set_run_state fc_run_state fc_weights fc_bias fc_name
    mp_set_run_state mp_run_state mp_input_shape mp_mask_shape mp_output_shape mp_stride mp_name sm_set_run_state sm_run_state sm_shape sm_name].
  all: match goal with |- outcome _ (bind _ (fun l => Done (?c l))) _ => eapply (o_bind (fun a b => renamed (c a : layer F) (c b))); [|intros; assumption] end.
  all: same; put.
Qed.

Lemma label_add n n' (l l' : layer F) : renamed_net n n' -> renamed l l' -> outcome (both renamed_net eq) (add_layer bm n l) (add_layer bm n' l').
Proof.
  destruct n as [ls s g ins outs st], n' as [ls' s' g' ins' outs' st']. unfold renamed_net. cbn [net_run_state layers intermediate_states intermediate_gradients net_input_shape net_output_shape].
  intros (Hl & -> & -> & -> & -> & ->) Hn. unfold add_layer. cbn [net_run_state layers intermediate_states intermediate_gradients net_input_shape net_output_shape].
  eapply o_bind; [apply label_switch, Hn|]. intros m m' Hm. rewrite (renamed_in _ _ Hm), (renamed_out _ _ Hm). cbv zeta.
  assert (Ha : Forall2 renamed (ls ++ [m]) (ls' ++ [m'])) by (apply Forall2_app; [exact Hl|repeat constructor; assumption]).
  destruct (o_rev _ _ _ Hl) as [|z z' r r' Hz _].
  - apply o_pure. intros s0 _. apply o_pure. intros s1 _. apply o_pure. intros g1 _. split; [|reflexivity]. repeat split. exact Ha.
  - rewrite (renamed_out _ _ Hz). destruct (negb _); [split; [repeat split; exact Hl|reflexivity]|]. apply o_pure. intros s1 _. apply o_pure. intros g1 _. split; [|reflexivity]. repeat split. exact Ha.
Qed.

Lemma label_infer n n' (x : T) : renamed_net n n' -> outcome (both renamed_net eq) (infer bm n x) (infer bm n' x).
Proof.
  destruct n as [ls s g ins outs st], n' as [ls' s' g' ins' outs' st']. unfold renamed_net. cbn [net_run_state layers intermediate_states intermediate_gradients net_input_shape net_output_shape].
  intros (Hl & -> & -> & -> & -> & ->). unfold infer. cbn [net_run_state layers intermediate_states intermediate_gradients net_input_shape net_output_shape].
  rewrite (o_len _ _ _ Hl). destruct (negb _); [split; [repeat split; exact Hl|reflexivity]|].
  destruct (len s <? 2); [split; [repeat split; exact Hl|reflexivity]|]. apply o_pure. intros s1 _.
  eapply (o_bind (both (both (Forall2 renamed) eq) eq)).
  - apply o_tryM; [split; [exact Hl|reflexivity]|]. intros i [ls1 t1] [ls1' t1'] (H1 & H2). cbn [fst snd] in *. subst t1'. unfold infer_step.
    eapply o_bind; [apply o_vget, H1|]. intros. apply o_pure. intros. apply o_pure. intros.
    eapply o_bind; [apply label_forward; eassumption|]. intros [[? ?] ?] [[? ?] ?] ((? & ?) & ?). cbn [fst snd] in *. subst.
    eapply o_bind; [apply o_vset; eassumption|]. intros. apply o_pure. intros. repeat split; assumption.
  - intros [[? ?] ?] [[? ?] ?] ((? & ?) & ?). cbn [fst snd] in *. subst. repeat split; assumption.
Qed.

Lemma label_net_backward n n' (x : T) : renamed_net n n' -> outcome (both renamed_net eq) (net_backward bm n x) (net_backward bm n' x).
Proof.
  destruct n as [ls s g ins outs st], n' as [ls' s' g' ins' outs' st']. unfold renamed_net. cbn [net_run_state layers intermediate_states intermediate_gradients net_input_shape net_output_shape].
  intros (Hl & -> & -> & -> & -> & ->). unfold net_backward. cbn [net_run_state layers intermediate_states intermediate_gradients net_input_shape net_output_shape].
  rewrite (o_len _ _ _ Hl). destruct (negb _); [split; [repeat split; exact Hl|reflexivity]|].
  destruct (len ls <? 1); [split; [repeat split; exact Hl|reflexivity]|]. destruct (negb _); [split; [repeat split; exact Hl|reflexivity]|]. apply o_pure. intros g1 _.
  eapply (o_bind (both (both (Forall2 renamed) eq) eq)).
  - apply o_tryM; [split; [exact Hl|reflexivity]|]. intros i [ls1 t1] [ls1' t1'] (H1 & H2). cbn [fst snd] in *. subst t1'. unfold backward_step.
    eapply o_bind; [apply o_vget, H1|]. intros. do 4 (apply o_pure; intros).
    eapply o_bind; [apply label_backward; eassumption|]. intros [[? ?] ?] [[? ?] ?] ((? & ?) & ?). cbn [fst snd] in *. subst.
    eapply o_bind; [apply o_vset; eassumption|]. intros. apply o_pure. intros. repeat split; assumption.
  - intros [[? ?] ?] [[? ?] ?] ((? & ?) & ?). cbn [fst snd] in *. subst. repeat split; assumption.
Qed.

Lemma label_map st (ls ls' : list (layer F)) : Forall2 renamed ls ls' ->
  outcome (Forall2 renamed) (map_layers (match st with Inference => switch_to_inference bm | Training => switch_to_training bm end) ls)
    (map_layers (match st with Inference => switch_to_inference bm | Training => switch_to_training bm end) ls').
Proof.
  intros H. unfold map_layers. eapply o_forM2; [exact H|constructor|]. intros l l' s s' Hl Hs. eapply o_bind.
  { pose proof (label_switch st l l' Hl) as Q. destruct st; exact Q. }
  intros. apply o_done, Forall2_app; [assumption|]. repeat constructor; assumption.
Qed.

Lemma label_load n n' fs name : renamed_net n n' -> outcome (both renamed_net eq) (network_load bm n fs name) (network_load bm n' fs name).
Proof.
  intros H. unfold network_load. destruct (fs name) as [content|]; [|split; [exact H|reflexivity]].
  destruct (deserialize dec_network content) as [sn|]; [|split; [exact H|reflexivity]].
  unfold populate_network. apply o_tryM; [exact H|]. clear H n n'. intros s n n' H.
  assert (G : forall X (c : X -> layer F) (r : res (X * result unit)), outcome (both renamed_net eq) (load_and_add bm c r n) (load_and_add bm c r n')).
  { intros X c r. unfold load_and_add. apply o_pure. intros [l [u|msg]] _; [|split; [exact H|reflexivity]]. apply label_add; [exact H|apply renamed_refl]. }
  destruct s; unfold add_to_network; apply G.
Qed.

Lemma label_step n n' (op op' : net_op F) : renamed_net n n' -> renamed_op op op' ->
  outcome (fun a b => renamed_net (fst a) (fst b) /\ snd b = snd a) (run_op bm n op) (run_op bm n' op').
Proof.
  intros H O.
  assert (G : outcome (both renamed_net eq) (run_op bm n op) (run_op bm n' op')).
  { destruct op; cbn [renamed_op] in O; [destruct op'; try discriminate|subst op'..]; cbn [run_op].
    - apply label_add; assumption.
    - apply label_load, H.
    - apply label_infer, H.
    - apply label_net_backward, H.
    - pose proof H as (Hl & Hs & _ & Hi & Ho & _). unfold net_switch_to_training. rewrite Hs. eapply (o_bind renamed_net).
      + eapply o_bind; [apply (label_map Training), Hl|]. intros. apply o_pure. intros. apply o_done. unfold renamed_net. cbn. auto 10.
      + intros. split; [assumption|reflexivity].
    - pose proof H as (Hl & Hs & _ & Hi & Ho & _). unfold net_switch_to_inference. eapply (o_bind renamed_net).
      + eapply o_bind; [apply (label_map Inference), Hl|]. intros. apply o_done. unfold renamed_net. cbn. auto 10.
      + intros. split; [assumption|reflexivity]. }
  eapply o_weak; [exact G|]. intros [] [] (Q1 & Q2). split; [exact Q1|symmetry; exact Q2].
Qed.

(** C107 *)
Lemma label_history ops ops' : Forall2 renamed_op ops ops' -> forall n n', renamed_net n n' ->
  outcome (fun a b => renamed_net (fst a) (fst b) /\ snd b = snd a) (history bm n ops) (history bm n' ops').
Proof.
  induction 1 as [|op op' ops ops' Ho _ IH]; intros n n' H; cbn [history]; [split; [exact H|reflexivity]|].
  eapply o_bind; [apply label_step; eassumption|]. intros [n1 r] [n1' r'] (H1 & E). cbn [fst snd] in *. subst r'.
  eapply o_bind; [apply IH, H1|]. intros [n2 rs] [n2' rs'] (H2 & E). cbn [fst snd] in *. subst rs'. split; [exact H2|reflexivity].
Qed.

Lemma label_new (s s' : string) :
  (forall i o, outcome (fun a b => renamed (LFC a) (LFC b)) (fc_new bm i o s) (fc_new bm i o s'))
  /\ (forall ks ins stride d, outcome (renamed_result LConv) (cv_new bm ks ins stride d s) (cv_new bm ks ins stride d s'))
  /\ (forall ms ins stride, outcome (renamed_result (F := F) LMaxPool) (mp_new bm ms ins stride s) (mp_new bm ms ins stride s'))
  /\ (forall sh, outcome (renamed_result LSoftmax) (sm_new bm sh s) (sm_new bm sh s')).
Proof.
  split; [|split; [|split]]; intros.
  - unfold fc_new. apply o_pure. intros e _. apply o_pure. intros w _. apply o_pure. intros b _.
    eapply (o_bind (fun a b => renamed (LFC (fst a)) (LFC (fst b)) /\ snd b = snd a)).
    + unfold fc_fill_from_state, fc_update. cbn [fc_run_state fc_weights fc_bias fc_name]. destruct (negb _); [split; [apply renamed_refl|reflexivity]|].
      destruct (negb _); [split; [apply renamed_refl|reflexivity]|]. destruct (negb _); [split; [apply renamed_refl|reflexivity]|].
      eapply (o_bind (fun a b => renamed (LFC a) (LFC b))); [destruct (fc_run_state e); same; put|]. intros. split; [assumption|reflexivity].
    + intros [l [u|m]] [l' r] (H & Q); cbn [fst snd] in *; subst r; [exact H|reflexivity].
  - unfold cv_new. apply o_pure. intros e _. apply o_pure. intros k _. cbv zeta. apply o_pure. intros b _.
    eapply (o_bind (fun a b => renamed (LConv (fst a)) (LConv (fst b)) /\ snd b = snd a)).
    + unfold cv_fill_from_state. destruct (repeat k (N.to_nat d)); same; put.
    + intros [l [u|m]] [l' r] (H & Q); cbn [fst snd] in *; subst r; [exact H|reflexivity].
  - unfold mp_new. eapply (o_bind (fun a b => renamed (LMaxPool (fst a) : layer F) (LMaxPool (fst b)) /\ snd b = snd a)).
    + unfold mp_fill_from_state. same; put.
    + intros [l [u|m]] [l' r] (H & Q); cbn [fst snd] in *; subst r; [exact H|reflexivity].
  - unfold sm_new. apply o_pure. intros e _. eapply (o_bind (fun a b => renamed (LSoftmax (fst a)) (LSoftmax (fst b)) /\ snd b = snd a)).
    + unfold sm_fill_from_state, sm_update. cbn [sm_run_state sm_shape sm_name]. eapply (o_bind (fun a b => renamed (LSoftmax a) (LSoftmax b))); [destruct (sm_run_state e); same; put|].
      intros. split; [assumption|reflexivity].
    + intros [l [u|m]] [l' r] (H & Q); cbn [fst snd] in *; subst r; [exact H|reflexivity].
Qed.

End Any.
