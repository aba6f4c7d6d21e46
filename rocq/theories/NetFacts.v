(** * Histories of network operations: shapes, parameters, modes *)
From Coq Require Import ZifyBool ZifyNat ZifyN.
From Verif Require Import Base Arith Helper Tensor Convolution Network Bincode Serial Spec SpecLayer SpecNet Loops TensorFacts OpsFacts.
From Verif Require Import ProofsTensor ProofsConv Layout LayerFacts.
Ltac Zify.zify_post_hook ::= Z.div_mod_to_equations.

Section Facts.
Context {F : Type} {AR : Arith F}.
Notation T := (tensor F).

(** ** Unconditional facts about one layer *)

(** Parameters, name and mode. *)
Definition ident (l : layer F) := (params_of l, get_name l, get_run_mode l).

Lemma forward_kept bm l (X Y Y' : T) l' e :
  forward bm l X Y = Done (l', Y', e) -> layout Y' = layout Y /\ ident l' = ident l.
Proof.
  unfold forward. destruct l as [l|l|l|l]; intros H; unfold lift3 in H; apply bind_done in H;
    destruct H as (((l1 & t1) & e1) & E & H); injection H as <- <- <-.
  - unfold cv_forward in E. destruct (cv_run_state l) eqn:R.
    + apply bind_done in E. destruct E as ((out & r) & E & H). injection H as <- <- <-. split; [|reflexivity].
      eapply tryM_layout; [|exact E]. intros i s s' r' H. apply bind_done in H. destruct H as (k & _ & H).
      apply bind_done in H. destruct H as (b & _ & H). eapply convolution_bias_relu_layout, H.
    + apply bind_done in E. destruct E as ((out & r) & E & H). apply tryM_layout in E.
      2: { intros i s s' r' H'. apply bind_done in H'. destruct H' as (k & _ & H'). apply bind_done in H'. destruct H' as (b & _ & H').
           eapply convolution_bias_layout, H'. }
      destruct r as [[]|er]; [|injection H as <- <- <-; split; [exact E|reflexivity]].
      destruct (relu_self_and_store_mask out (cv_relu_mask l)) as ((out' & mask) & r') eqn:M.
      injection H as <- <- <-. apply relu_self_layout in M. split; [rewrite (proj1 M); exact E|reflexivity].
  - unfold fc_forward in E. destruct (fc_run_state l) eqn:R.
    + apply bind_done in E. destruct E as (out & E & H). injection H as <- <- <-. split; [|reflexivity].
      eapply matrix_multiply_add_relu_layout, E.
    + apply bind_done in E. destruct E as (out & E & H). apply matrix_multiply_layout in E.
      destruct (relu_self_and_store_mask (add_to_self out (fc_bias l)) (fc_relu_mask l)) as ((out' & mask) & r') eqn:M.
      injection H as <- <- <-. apply relu_self_layout in M. split; [rewrite (proj1 M), add_to_self_layout; exact E|].
      unfold ident. cbn. rewrite R. reflexivity.
  - unfold mp_forward in E. destruct (mp_run_state l) eqn:R.
    + apply bind_done in E. destruct E as (out & E & H). injection H as <- <- <-. split; [|reflexivity]. eapply max_pool_layout, E.
    + apply bind_done in E. destruct E as (((out & o) & r) & E & H). injection H as <- <- <-. split; [|reflexivity].
      apply max_pool_track_layout in E. apply E.
  - unfold sm_forward in E. apply bind_done in E. destruct E as (out & E & H). injection H as <- <- <-. split; [|reflexivity].
    eapply softmax_layout, E.
Qed.

Lemma backward_ident bm l (X Y g og og' : T) l' e :
  backward bm l X Y g og = Done (l', og', e) -> layout og' = layout og /\ ident l' = ident l.
Proof. intros H. apply backward_kept in H. destruct H as (L & P & N & R & _). split; [exact L|]. unfold ident. congruence. Qed.

(** A switch keeps the parameters and the name and sets the mode. *)
Lemma switch_kept bm st l l' :
  match st with Training => switch_to_training bm l | Inference => switch_to_inference bm l end = Done l' ->
  ident l' = (params_of l, get_name l, st).
Proof.
  destruct l as [l|l|l|l].
  - intros H. assert (E : exists l1, cv_update bm (cv_set_run_state l st) = Done l1 /\ l' = LConv l1).
    { destruct st; cbn [switch_to_training switch_to_inference] in H; unfold lift1, cv_switch_to_training, cv_switch_to_inference in H; apply bind_done in H;
        destruct H as (l1 & E & H); injection H as <-; eauto. }
    destruct E as (l1 & E & ->). unfold cv_update in E. cbn [cv_set_run_state cv_run_state] in E. destruct st; res_inv; reflexivity.
  - intros H. assert (E : exists l1, fc_update bm (fc_set_run_state l st) = Done l1 /\ l' = LFC l1).
    { destruct st; cbn [switch_to_training switch_to_inference] in H; unfold lift1, fc_switch_to_training, fc_switch_to_inference in H; apply bind_done in H;
        destruct H as (l1 & E & H); injection H as <-; eauto. }
    destruct E as (l1 & E & ->). unfold fc_update in E. cbn [fc_set_run_state fc_run_state] in E. destruct st; res_inv; reflexivity.
  - intros H. assert (E : exists l1, mp_update bm (mp_set_run_state l st) = Done l1 /\ l' = LMaxPool l1).
    { destruct st; cbn [switch_to_training switch_to_inference] in H; unfold lift1, mp_switch_to_training, mp_switch_to_inference in H; apply bind_done in H;
        destruct H as (l1 & E & H); injection H as <-; eauto. }
    destruct E as (l1 & E & ->). unfold mp_update in E. cbn [mp_set_run_state mp_run_state] in E. destruct st; res_inv; reflexivity.
  - intros H. assert (E : exists l1, sm_update bm (sm_set_run_state l st) = Done l1 /\ l' = LSoftmax l1).
    { destruct st; cbn [switch_to_training switch_to_inference] in H; unfold lift1, sm_switch_to_training, sm_switch_to_inference in H; apply bind_done in H;
        destruct H as (l1 & E & H); injection H as <-; eauto. }
    destruct E as (l1 & E & ->). unfold sm_update in E. cbn [sm_set_run_state sm_run_state] in E. destruct st; res_inv; reflexivity.
Qed.

(** ** Lists of layers *)
Lemma map_list_set {A B} (f : A -> B) l n x y : nth_error l n = Some y -> f x = f y -> map f (list_set l n x) = map f l.
Proof.
  revert n; induction l as [|a l IH]; intros [|n] E H; simpl in *; try discriminate.
  - injection E as ->. rewrite H. reflexivity.
  - f_equal. apply IH; assumption.
Qed.

Lemma get_or_unwrap_done {A} (l : list A) i x : get_or_unwrap l i = Done x -> nth_error l (N.to_nat i) = Some x /\ i < len l.
Proof. unfold get_or_unwrap. intros H. destruct (vget l i) eqn:E; [|discriminate]. injection H as ->. apply vget_done in E. tauto. Qed.

Lemma vset_kept {A B} (f : A -> B) l i x y l' : nth_error l (N.to_nat i) = Some y -> f x = f y -> vset l i x = Done l' -> map f l' = map f l.
Proof.
  intros E H V. assert (i < len l). { unfold len. assert (nth_error l (N.to_nat i) <> None) as Q by congruence. apply nth_error_Some in Q. lia. }
  rewrite vset_done in V by assumption. injection V as <-. eapply map_list_set; eassumption.
Qed.

Lemma infer_step_kept bm i ls states ls' states' r :
  infer_step bm i (ls, states) = Done ((ls', states'), r) -> map ident ls' = map ident ls /\ map layout states' = map layout states.
Proof.
  unfold infer_step. intros H. apply bind_done in H. destruct H as (l & El & H). apply bind_done in H. destruct H as (x & Ex & H).
  apply bind_done in H. destruct H as (y & Ey & H). apply bind_done in H. destruct H as (((l1 & y1) & r1) & Ef & H).
  apply bind_done in H. destruct H as (ls1 & Vl & H). apply bind_done in H. destruct H as (st1 & Vs & H). injection H as <- <- <-.
  apply forward_kept in Ef. destruct Ef as (L & I). apply vget_done in El. apply get_or_unwrap_done in Ey.
  split; eapply vset_kept; try eassumption; [apply El|apply Ey].
Qed.

Lemma infer_loop_kept bm is ls states ls' states' r :
  tryM is (infer_step bm) (ls, states) = Done ((ls', states'), r) -> map ident ls' = map ident ls /\ map layout states' = map layout states.
Proof.
  intros H. refine (tryM_done_inv (fun s => map ident (fst s) = map ident ls /\ map layout (snd s) = map layout states) _ _ _ _ _ _ _ H).
  - split; reflexivity.
  - intros i (l1 & s1) (l2 & s2) r' _ (H1 & H2) E. apply infer_step_kept in E. cbn in *. split; etransitivity; try apply E; assumption.
Qed.

Lemma backward_step_kept bm states i ls grads ls' grads' r :
  backward_step bm states i (ls, grads) = Done ((ls', grads'), r) -> map ident ls' = map ident ls /\ map layout grads' = map layout grads.
Proof.
  unfold backward_step. intros H. apply bind_done in H. destruct H as (l & El & H). apply bind_done in H. destruct H as (g & Eg & H).
  apply bind_done in H. destruct H as (og & Eo & H). apply bind_done in H. destruct H as (x & _ & H). apply bind_done in H. destruct H as (y & _ & H).
  apply bind_done in H. destruct H as (((l1 & y1) & r1) & Ef & H).
  apply bind_done in H. destruct H as (ls1 & Vl & H). apply bind_done in H. destruct H as (st1 & Vs & H). injection H as <- <- <-.
  apply backward_ident in Ef. destruct Ef as (L & I). apply vget_done in El. apply get_or_unwrap_done in Eo.
  split; eapply vset_kept; try eassumption; [apply El|apply Eo].
Qed.

Lemma backward_loop_kept bm states is ls grads ls' grads' r :
  tryM is (backward_step bm states) (ls, grads) = Done ((ls', grads'), r) -> map ident ls' = map ident ls /\ map layout grads' = map layout grads.
Proof.
  intros H. refine (tryM_done_inv (fun s => map ident (fst s) = map ident ls /\ map layout (snd s) = map layout grads) _ _ _ _ _ _ _ H).
  - split; reflexivity.
  - intros i (l1 & s1) (l2 & s2) r' _ (H1 & H2) E. apply backward_step_kept in E. cbn in *. split; etransitivity; try apply E; assumption.
Qed.

(** [map_layers] is a map of results. *)
Lemma map_layers_acc (f : layer F -> res (layer F)) ls acc out :
  forM ls (fun l acc => l' <- f l ;; Done (acc ++ [l'])%list) acc = Done out ->
  exists ls', out = (acc ++ ls')%list /\ Forall2 (fun l l' => f l = Done l') ls ls'.
Proof.
  revert acc; induction ls as [|l ls IH]; intros acc H; cbn [forM] in H.
  - injection H as <-. exists []. rewrite app_nil_r. split; [reflexivity|constructor].
  - apply bind_done in H. destruct H as (acc1 & E & H). apply bind_done in E. destruct E as (l' & E & Q). injection Q as <-.
    apply IH in H. destruct H as (ls' & -> & H). exists (l' :: ls'). rewrite <- app_assoc. split; [reflexivity|constructor; assumption].
Qed.

Lemma map_layers_done (f : layer F -> res (layer F)) ls ls' : map_layers f ls = Done ls' -> Forall2 (fun l l' => f l = Done l') ls ls'.
Proof. intros H. apply map_layers_acc in H. destruct H as (l & -> & H). exact H. Qed.

Lemma Forall2_map {A B C} (R : A -> B -> Prop) (f : A -> C) (g : B -> C) la lb :
  Forall2 R la lb -> (forall a b, R a b -> g b = f a) -> map g lb = map f la.
Proof. intros H E. induction H; simpl; [reflexivity|]. f_equal; auto. Qed.

Lemma map_layers_ident bm st ls ls' :
  map_layers (match st with Training => switch_to_training bm | Inference => switch_to_inference bm end) ls = Done ls' ->
  map ident ls' = map (fun l => (params_of l, get_name l, st)) ls.
Proof.
  intros H. apply map_layers_done in H. eapply Forall2_map; [exact H|]. intros a b E. apply (switch_kept bm st). destruct st; exact E.
Qed.

(** ** Operations *)
Lemma ident_split (ls ls' : list (layer F)) : map ident ls' = map ident ls ->
  map params_of ls' = map params_of ls /\ map get_name ls' = map get_name ls /\ map get_run_mode ls' = map get_run_mode ls.
Proof.
  intros E. split; [|split].
  - pose proof (f_equal (map (fun x => fst (fst x))) E) as Q. rewrite !map_map in Q. exact Q.
  - pose proof (f_equal (map (fun x => snd (fst x))) E) as Q. rewrite !map_map in Q. exact Q.
  - pose proof (f_equal (map snd) E) as Q. rewrite !map_map in Q. exact Q.
Qed.

Lemma infer_kept bm n (x : T) n' r : infer bm n x = Done (n', r) ->
  map ident (layers n') = map ident (layers n) /\ intermediate_gradients n' = intermediate_gradients n
  /\ net_input_shape n' = net_input_shape n /\ net_output_shape n' = net_output_shape n /\ net_run_state n' = net_run_state n
  /\ (map tshape (intermediate_states n) = boundaries (layers n) -> net_input_shape n = hd (mkShape 0 0 0) (boundaries (layers n)) ->
      map tshape (intermediate_states n') = map tshape (intermediate_states n)).
Proof.
  unfold infer. destruct (shape_eqb_spec (get_shape x) (net_input_shape n)) as [Ex|]; cbn [negb]; [|intros [= <- <-]; auto 10].
  destruct (len (intermediate_states n) <? 2) eqn:L; [intros [= <- <-]; auto 10|].
  intros H. apply bind_done in H. destruct H as (st & Vs & H). apply bind_done in H. destruct H as (((ls & st') & r') & E & H).
  injection H as <- <-. cbn. apply infer_loop_kept in E. destruct E as (I & S). repeat (split; [first [assumption|reflexivity]|]).
  intros B Hi. assert (Q : map tshape st' = map tshape st).
  { pose proof (f_equal (map (fun x => snd (fst x))) S) as Q. rewrite !map_map in Q. exact Q. }
  rewrite Q. destruct (intermediate_states n) as [|s0 ss] eqn:Es; [discriminate|].
  eapply vset_kept with (i := 0) (y := s0); [reflexivity| |exact Vs]. unfold get_shape in Ex. rewrite Ex, Hi, <- B. reflexivity.
Qed.

Lemma net_backward_kept bm n (g : T) n' r : net_backward bm n g = Done (n', r) ->
  map ident (layers n') = map ident (layers n) /\ intermediate_states n' = intermediate_states n
  /\ net_input_shape n' = net_input_shape n /\ net_output_shape n' = net_output_shape n /\ net_run_state n' = net_run_state n.
Proof.
  unfold net_backward. destruct (shape_eqb _ _); cbn [negb]; [|intros [= <- <-]; auto 10].
  destruct (len (layers n) <? 1); [intros [= <- <-]; auto 10|]. destruct (run_state_eqb _ _); cbn [negb]; [|intros [= <- <-]; auto 10].
  intros H. apply bind_done in H. destruct H as (gr & Vs & H). apply bind_done in H. destruct H as (((ls & st') & r') & E & H).
  injection H as <- <-. cbn. apply backward_loop_kept in E. destruct E as (I & S). auto.
Qed.

Lemma net_training_kept bm (n n' : network F) : net_switch_to_training bm n = Done n' ->
  map ident (layers n') = map (fun l => (params_of l, get_name l, Training)) (layers n) /\ intermediate_states n' = intermediate_states n
  /\ net_input_shape n' = net_input_shape n /\ net_output_shape n' = net_output_shape n /\ net_run_state n' = Training.
Proof.
  unfold net_switch_to_training. intros H. apply bind_done in H. destruct H as (ls & E & H). apply bind_done in H. destruct H as (g & _ & H).
  injection H as <-. cbn. apply (map_layers_ident bm Training) in E. auto.
Qed.

Lemma net_inference_kept bm (n n' : network F) : net_switch_to_inference bm n = Done n' ->
  map ident (layers n') = map (fun l => (params_of l, get_name l, Inference)) (layers n) /\ intermediate_states n' = intermediate_states n
  /\ intermediate_gradients n' = []
  /\ net_input_shape n' = net_input_shape n /\ net_output_shape n' = net_output_shape n /\ net_run_state n' = Training.
Proof.
  unfold net_switch_to_inference. intros H. apply bind_done in H. destruct H as (ls & E & H).
  injection H as <-. cbn. apply (map_layers_ident bm Inference) in E. auto 10.
Qed.

Lemma rev_cons_last {A} (l : list A) x xs : rev l = x :: xs -> l = (rev xs ++ [x])%list.
Proof. intros E. rewrite <- (rev_involutive l), E. reflexivity. Qed.

Lemma add_layer_done bm n l n' r : add_layer bm n l = Done (n', r) ->
  (r = Ok tt /\ (layers n = [] \/ exists ls last, layers n = (ls ++ [last])%list /\ get_output_shape last = get_input_shape l)
   /\ exists l' ss, layers n' = (layers n ++ [l'])%list /\ ident l' = (params_of l, get_name l, net_run_state n)
      /\ (match net_run_state n with Training => switch_to_training bm l | Inference => switch_to_inference bm l end = Done l')
      /\ intermediate_states n' = (intermediate_states n ++ ss)%list
      /\ map tshape ss = (match layers n with [] => [get_input_shape l; get_output_shape l] | _ => [get_output_shape l] end)
      /\ (forall s : T, In s ss -> tensor_new bm (tshape s) = Done s)
      /\ net_input_shape n' = match layers n with [] => get_input_shape l | _ => net_input_shape n end
      /\ net_output_shape n' = get_output_shape l /\ net_run_state n' = net_run_state n
      /\ exists gs, intermediate_gradients n' = (intermediate_gradients n ++ gs)%list
           /\ gs = match net_run_state n with Training => ss | Inference => [] end)
  \/ ((exists e, r = Err e) /\ n' = n /\ exists ls last, layers n = (ls ++ [last])%list /\ get_output_shape last <> get_input_shape l).
Proof.
  unfold add_layer. intros H. apply bind_done in H. destruct H as (l' & Es & H).
  pose proof (switch_kept bm (net_run_state n) l l' Es) as I.
  assert (P : params_of l' = params_of l) by exact (f_equal (fun x => fst (fst x)) I).
  destruct (params_shapes _ _ P) as (Pi & Po).
  destruct (rev (layers n)) as [|last xs] eqn:R.
  - assert (Ln : layers n = []) by (rewrite <- (rev_involutive (layers n)), R; reflexivity).
    apply bind_done in H. destruct H as (s0 & E0 & H). apply bind_done in H. destruct H as (s1 & E1 & H).
    apply bind_done in H. destruct H as (g & Eg & H). injection H as <- <-. cbn. left. split; [reflexivity|]. split; [auto|].
    pose proof (tensor_new_shape _ _ _ E0) as S0. pose proof (tensor_new_shape _ _ _ E1) as S1.
    rewrite Pi in E0, S0. rewrite Po in E1, S1.
    exists l', [s0; s1]. rewrite Ln. cbn [app]. split; [reflexivity|]. split; [exact I|]. split; [exact Es|]. split; [reflexivity|].
    split; [cbn [map]; rewrite S0, S1; reflexivity|]. split. { intros s [<-|[<-|[]]]; [rewrite S0|rewrite S1]; assumption. }
    split; [exact Pi|]. split; [exact Po|]. split; [reflexivity|]. rewrite Pi, Po in Eg.
    destruct (net_run_state n); cbn [run_state_eqb] in Eg.
    + injection Eg as <-. exists []. rewrite app_nil_r. auto.
    + rewrite E0, E1 in Eg. cbn [bind] in Eg. injection Eg as <-. eauto.
  - apply rev_cons_last in R. destruct (shape_eqb_spec (get_output_shape last) (get_input_shape l')) as [E|NE]; cbn [negb] in H.
    + apply bind_done in H. destruct H as (s1 & E1 & H). apply bind_done in H. destruct H as (g & Eg & H). injection H as <- <-. cbn.
      left. split; [reflexivity|]. rewrite Pi in E. split; [right; eauto|].
      pose proof (tensor_new_shape _ _ _ E1) as S1. rewrite Po in E1, S1. exists l', [s1].
      split; [reflexivity|]. split; [exact I|]. split; [exact Es|]. split; [reflexivity|].
      assert (Ln : layers n <> []) by (rewrite R; destruct (rev xs); discriminate).
      split; [cbn [map]; rewrite S1; destruct (layers n); [congruence|reflexivity]|].
      split; [intros s [<-|[]]; rewrite S1; assumption|]. split; [destruct (layers n); [congruence|reflexivity]|].
      split; [exact Po|]. split; [reflexivity|]. rewrite Po in Eg.
      destruct (net_run_state n); cbn [run_state_eqb] in Eg.
      * injection Eg as <-. exists []. rewrite app_nil_r. auto.
      * rewrite E1 in Eg. cbn [bind] in Eg. injection Eg as <-. eauto.
    + injection H as <- <-. right. split; [eauto|]. split; [reflexivity|]. rewrite Pi in NE. eauto.
Qed.

(** ** Structure *)
Lemma params_maps (ls ls' : list (layer F)) : map params_of ls' = map params_of ls ->
  map get_input_shape ls' = map get_input_shape ls /\ map get_output_shape ls' = map get_output_shape ls.
Proof.
  revert ls'; induction ls as [|l ls IH]; intros [|l' ls'] E; try discriminate; [auto|].
  cbn [map] in *. pose proof (f_equal (hd (params_of l)) E) as E1. cbn [hd] in E1. apply params_shapes in E1.
  apply (f_equal (@tl _)) in E. apply IH in E. destruct E1, E. split; f_equal; assumption.
Qed.

Lemma boundaries_params (ls ls' : list (layer F)) : map params_of ls' = map params_of ls -> boundaries ls' = boundaries ls.
Proof.
  intros E. apply params_maps in E. destruct E as (E1 & E2). destruct ls as [|l ls], ls' as [|l' ls']; try discriminate; [reflexivity|].
  unfold boundaries. rewrite E2. f_equal. cbn [map] in E1. congruence.
Qed.

Lemma linked_params s (ls ls' : list (layer F)) : map params_of ls' = map params_of ls -> linked s ls -> linked s ls'.
Proof.
  revert s ls'; induction ls as [|l ls IH]; intros s [|l' ls'] E H; try discriminate; [exact I|].
  cbn [linked map] in *. pose proof (f_equal (hd (params_of l)) E) as E1. cbn [hd] in E1. apply params_shapes in E1.
  apply (f_equal (@tl _)) in E. destruct E1 as (-> & ->). destruct H as (H1 & H2). split; [exact H1|]. apply IH; assumption.
Qed.

Lemma linked_app s (ls : list (layer F)) l : linked s ls -> get_input_shape l = last (map get_output_shape ls) s -> linked s (ls ++ [l]).
Proof.
  revert s; induction ls as [|a ls IH]; intros s H E; cbn [linked app] in *; [cbn in E; auto|].
  destruct H as (H1 & H2). split; [exact H1|]. apply IH; [exact H2|]. rewrite E. cbn [map].
  generalize (map get_output_shape ls) as m. induction m as [|b m IHm]; [reflexivity|]. simpl in *. destruct m; [reflexivity|exact IHm].
Qed.

Lemma boundaries_app (ls : list (layer F)) l : ls <> [] -> boundaries (ls ++ [l]) = (boundaries ls ++ [get_output_shape l])%list.
Proof. destruct ls as [|a ls]; [congruence|]. intros _. unfold boundaries. cbn [app]. f_equal. change (a :: ls ++ [l]) with ((a :: ls) ++ [l])%list.
  rewrite map_app. reflexivity. Qed.

Lemma structured_new st : structured (@network_new F st).
Proof. repeat split. Qed.

Lemma structured_same (n n' : network F) :
  map params_of (layers n') = map params_of (layers n) -> net_input_shape n' = net_input_shape n -> net_output_shape n' = net_output_shape n ->
  map tshape (intermediate_states n') = map tshape (intermediate_states n) -> structured n -> structured n'.
Proof.
  intros P I O S (H1 & H2 & H3 & H4). unfold structured. rewrite (boundaries_params _ _ P), I, O, S.
  split; [eapply linked_params; eassumption|]. auto.
Qed.

Lemma last_boundaries (ls : list (layer F)) l d : last (boundaries (ls ++ [l])) d = get_output_shape l.
Proof.
  destruct ls as [|a ls]; [reflexivity|]. rewrite boundaries_app by discriminate. apply last_last.
Qed.

Lemma add_layer_structured bm n l n' r : structured n -> add_layer bm n l = Done (n', r) -> structured n'.
Proof.
  intros (H1 & H2 & H3 & H4) H. apply add_layer_done in H. destruct H as [H|(_ & -> & _)]; [|split; auto].
  destruct H as (_ & C & l' & ss & L & I & _ & S & M & _ & Ii & Oo & _).
  assert (P : params_of l' = params_of l) by exact (f_equal (fun x => fst (fst x)) I). destruct (params_shapes _ _ P) as (Pi & Po).
  unfold structured. rewrite L, Ii, Oo, S, map_app, M, H4, last_boundaries, Po.
  destruct (layers n) as [|a ls] eqn:Ln.
  - cbn. rewrite Pi, Po. auto.
  - destruct C as [C|(ls0 & last0 & C & E)]; [discriminate|]. rewrite boundaries_app by discriminate. rewrite Po.
    split; [|split; [rewrite H2; reflexivity|]; auto].
    apply linked_app; [exact H1|]. rewrite Pi, C, map_app. cbn [map]. rewrite last_last. symmetry; exact E.
Qed.

Lemma populate_structured {BT : Bits F} bm sn n n' r : structured n -> populate_network bm sn n = Done (n', r) -> structured n'.
Proof.
  intros H E. unfold populate_network in E. refine (tryM_done_inv structured _ _ _ _ _ H _ E). clear.
  intros s n n' r _ H E. unfold add_to_network in E.
  destruct s as [m|m|m|m]; unfold load_and_add in E; apply bind_done in E; destruct E as ((l & e) & _ & E);
    (destruct e; [|injection E as <- <-; exact H]); eapply add_layer_structured; eassumption.
Qed.

Lemma run_op_structured {BT : Bits F} bm n op n' r : structured n -> run_op bm n op = Done (n', r) -> structured n'.
Proof.
  intros H E. destruct op as [l|fs name|x|g| |]; cbn [run_op] in E.
  - eapply add_layer_structured; eassumption.
  - unfold network_load in E. destruct (fs name); [|injection E as <- <-; exact H].
    destruct (deserialize dec_network b); [|injection E as <- <-; exact H]. eapply populate_structured; eassumption.
  - apply infer_kept in E. destruct E as (I & _ & E1 & E2 & _ & E3). pose proof H as (_ & H2 & _ & H4).
    eapply structured_same; try eassumption; [apply ident_split; exact I|]. apply E3; assumption.
  - apply net_backward_kept in E. destruct E as (I & E0 & E1 & E2 & _).
    eapply structured_same; try eassumption; [apply ident_split; exact I|congruence].
  - apply bind_done in E. destruct E as (n1 & E & Q). injection Q as <- <-. apply net_training_kept in E. destruct E as (I & E0 & E1 & E2 & _).
    eapply structured_same; try eassumption; [|congruence]. pose proof (f_equal (map (fun x => fst (fst x))) I) as Q. rewrite !map_map in Q. exact Q.
  - apply bind_done in E. destruct E as (n1 & E & Q). injection Q as <- <-. apply net_inference_kept in E. destruct E as (I & E0 & _ & E1 & E2 & _).
    eapply structured_same; try eassumption; [|congruence]. pose proof (f_equal (map (fun x => fst (fst x))) I) as Q. rewrite !map_map in Q. exact Q.
Qed.

(** C31 *)
Lemma reachable_structured {BT : Bits F} bm n : reachable bm n -> structured n.
Proof. induction 1; [apply structured_new|eapply run_op_structured; eassumption]. Qed.

(** C54 *)
Lemma run_op_params {BT : Bits F} bm n op n' r : run_op bm n op = Done (n', r) -> runs_only op ->
  map params_of (layers n') = map params_of (layers n) /\ map get_name (layers n') = map get_name (layers n).
Proof.
  intros E R. assert (Q : map (fun x => fst x) (map ident (layers n')) = map (fun x => fst x) (map ident (layers n))).
  { destruct op as [l|fs name|x|g| |]; cbn [run_op] in E; try destruct R.
    - apply infer_kept in E. rewrite (proj1 E). reflexivity.
    - apply net_backward_kept in E. rewrite (proj1 E). reflexivity.
    - apply bind_done in E. destruct E as (n1 & E & Q). injection Q as <- <-. apply net_training_kept in E. rewrite (proj1 E), !map_map. reflexivity.
    - apply bind_done in E. destruct E as (n1 & E & Q). injection Q as <- <-. apply net_inference_kept in E. rewrite (proj1 E), !map_map. reflexivity. }
  rewrite !map_map in Q. split.
  - pose proof (f_equal (map fst) Q) as P. rewrite !map_map in P. exact P.
  - pose proof (f_equal (map snd) Q) as P. rewrite !map_map in P. exact P.
Qed.

Lemma serialized_params {BT : Bits F} (l l' : layer F) : params_of l' = params_of l -> get_name l' = get_name l -> get_serialized l' = get_serialized l.
Proof.
  destruct l as [l|l|l|l], l' as [l'|l'|l'|l']; cbn [params_of get_name]; try discriminate; cbn [get_serialized].
  - unfold cv_get_serialized. intros [= -> -> -> -> _] ->. reflexivity.
  - unfold fc_get_serialized. intros [= -> ->] ->. reflexivity.
  - unfold mp_get_serialized. intros [= -> -> _ ->] ->. reflexivity.
  - unfold sm_get_serialized. intros [= ->] ->. reflexivity.
Qed.

Lemma new_from_params {BT : Bits F} (n n' : network F) :
  map params_of (layers n') = map params_of (layers n) -> map get_name (layers n') = map get_name (layers n) ->
  new_from_network n' = new_from_network n.
Proof.
  unfold new_from_network. generalize (layers n) as ls, (layers n') as ls'. induction ls as [|l ls IH]; intros [|l' ls'] E1 E2; try discriminate; [reflexivity|].
  cbn [map] in *. f_equal.
  - apply serialized_params; [exact (f_equal (hd (params_of l)) E1)|exact (f_equal (hd (get_name l)) E2)].
  - apply IH; [exact (f_equal (@tl _) E1)|exact (f_equal (@tl _) E2)].
Qed.

(** ** C55 *)
Lemma boundaries_length (ls : list (layer F)) : ls <> [] -> len (boundaries ls) = len ls + 1.
Proof. destruct ls; [congruence|]. intros _. unfold boundaries, len. cbn [length]. rewrite map_length. cbn [length]. lia. Qed.

Lemma states_length (n : network F) : structured n -> len (intermediate_states n) = match layers n with [] => 0 | _ => len (layers n) + 1 end.
Proof.
  intros (_ & _ & _ & H). rewrite <- (len_map tshape), H. destruct (layers n) eqn:E; [reflexivity|]. apply boundaries_length. discriminate.
Qed.

End Facts.
