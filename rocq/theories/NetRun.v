(** * Running networks of well-formed layers *)
From Coq Require Import ZifyBool ZifyNat ZifyN.
From Verif Require Import Base Arith Helper Tensor Convolution Network Bincode Serial Spec SpecLayer SpecNet Loops TensorFacts OpsFacts.
From Verif Require Import ProofsTensor ProofsConv Layout LayerFacts NetFacts.
Ltac Zify.zify_post_hook ::= Z.div_mod_to_equations.

Section Facts.
Context {F : Type} {AR : Arith F}.
Notation T := (tensor F).

Lemma layer_ok_alloc (l : layer F) : layer_ok l -> allocatable (get_input_shape l) /\ allocatable (get_output_shape l).
Proof.
  destruct l as [l|l|l|l]; cbn [layer_ok get_input_shape get_output_shape].
  - intros (ks & _ & H). destruct H as (_ & _ & _ & _ & A1 & A2 & _). auto.
  - intros (m & n & Hw & Hb & _). unfold fc_input_shape, fc_output_shape, get_shape. rewrite (proj2 Hw), (proj2 Hb). cbn [dj].
    apply shaped_eq in Hw. destruct Hw as ((A1 & A2 & A3 & A4 & A5) & _). cbn [di dj dk] in *.
    apply shaped_eq in Hb. split; [|apply Hb]. repeat split; cbn [di dj dk]; lia.
  - intros (A1 & A2 & _). auto.
  - intros (A & _). auto.
Qed.

Lemma composes_snoc bm ps p (X Y Z : T) : composes bm ps X Y -> computes bm p Y Z -> composes bm (ps ++ [p]) X Z.
Proof.
  revert X; induction ps as [|q ps IH]; intros X H C; cbn [composes app] in *.
  - subst. eauto.
  - destruct H as (W & C1 & H). exists W. split; [exact C1|]. apply IH; assumption.
Qed.

Lemma firstn_snoc {A} (l : list A) n x : nth_error l n = Some x -> firstn (S n) l = (firstn n l ++ [x])%list.
Proof.
  revert n; induction l as [|a l IH]; intros [|n] H; simpl in *; try discriminate; [congruence|]. f_equal. apply IH. exact H.
Qed.

Lemma Forall_list_set {A} (P : A -> Prop) l n x : Forall P l -> P x -> Forall P (list_set l n x).
Proof. apply LayerFacts.Forall_list_set. Qed.

Lemma nth_boundaries (ls : list (layer F)) s k l : linked s ls -> (ls = [] \/ s = hd s (boundaries ls)) -> nth_error ls k = Some l ->
  nth_error (boundaries ls) k = Some (get_input_shape l) /\ nth_error (boundaries ls) (S k) = Some (get_output_shape l).
Proof.
  intros H _ E. split; [|destruct ls as [|a ls]; [destruct k; discriminate|]; cbn [boundaries nth_error];
    rewrite nth_error_map, E; reflexivity].
  revert s ls l H E. induction k as [|k IH]; intros s [|a ls] l H E; try discriminate; cbn [linked] in H; destruct H as (H1 & H2).
  - injection E as ->. reflexivity.
  - cbn [nth_error] in E. cbn [boundaries nth_error map]. destruct k as [|k].
    + destruct ls as [|b ls]; [discriminate|]. injection E as ->. cbn [linked] in H2. destruct H2 as (-> & _). reflexivity.
    + specialize (IH (get_output_shape a) ls l H2 E). destruct ls as [|b ls]; [discriminate|]. exact IH.
Qed.

Lemma nth_error_Some_lt {A} (l : list A) k x : nth_error l k = Some x -> (k < length l)%nat.
Proof. intros E. apply nth_error_Some. congruence. Qed.

Definition nth_is {A B} (f : A -> B) (l : list A) k b : Prop := exists a, nth_error l k = Some a /\ f a = b.

Lemma map_nth_is {A B} (f : A -> B) (l : list A) k b : nth_error (map f l) k = Some b -> nth_is f l k b.
Proof. rewrite nth_error_map. destruct (nth_error l k) eqn:E; [|discriminate]. intros [= <-]. exists a. auto. Qed.

(** The forward loop. *)
Lemma infer_loop bm (ls : list (layer F)) states X k s0 :
  relu_agrees F -> linked s0 ls -> map tshape states = boundaries ls -> Forall layer_ok ls -> Forall wf states ->
  nth_error states 0 = Some X -> k <= len ls ->
  exists ls' states', tryM (upto k) (infer_step bm) (ls, states) = Done ((ls', states'), Ok tt)
    /\ map ident ls' = map ident ls /\ Forall layer_ok ls' /\ map layout states' = map layout states /\ Forall wf states'
    /\ (forall Y, nth_error states' (N.to_nat k) = Some Y -> composes bm (firstn (N.to_nat k) (map params_of ls)) X Y).
Proof.
  intros RA Hl Hs Ho Hw H0. induction k as [|k IH] using N.peano_ind; intros Hk.
  - exists ls, states. rewrite upto_0. cbn [tryM]. do 5 (split; [auto|]). intros Y E. change (N.to_nat 0) with 0%nat in *. cbn. congruence.
  - destruct IH as (ls1 & st1 & E & I1 & O1 & L1 & W1 & C1); [lia|]. rewrite upto_succ, tryM_app, E. cbn [bind tryM].
    destruct (vget_some ls1 k) as (l & Nl & Vl).
    { assert (len ls1 = len ls) by (rewrite <- (len_map ident ls1), I1, len_map; reflexivity). lia. }
    assert (P1 : map params_of ls1 = map params_of ls) by (apply ident_split; exact I1).
    pose proof (Forall_nth _ _ _ _ O1 Nl) as Ol.
    assert (Nb := nth_boundaries ls1 s0 (N.to_nat k) l (linked_params _ _ _ P1 Hl)).
    destruct Nb as (B1 & B2); [|exact Nl|].
    { destruct ls1 as [|a ls1]; [left; reflexivity|right]. apply linked_params with (ls' := a :: ls1) in Hl; [|exact P1].
      cbn [linked] in Hl. destruct Hl as (<- & _). reflexivity. }
    rewrite (boundaries_params _ _ P1) in B1, B2.
    assert (S1 : map tshape st1 = map tshape states).
    { pose proof (f_equal (map (fun x => snd (fst x))) L1) as Q. rewrite !map_map in Q. exact Q. }
    rewrite <- Hs, <- S1 in B1, B2. apply map_nth_is in B1, B2. destruct B1 as (x & Nx & Sx), B2 as (y & Ny & Sy).
    assert (Vx : vget st1 k = Done x) by (destruct (vget_some st1 k) as (x' & Nx' & ->); [unfold len; apply nth_error_Some_lt in Nx; lia|congruence]).
    assert (Ny' : nth_error st1 (N.to_nat (k + 1)) = Some y) by (replace (N.to_nat (k + 1)) with (S (N.to_nat k)) by lia; exact Ny).
    assert (Ly : k + 1 < len st1) by (unfold len; apply nth_error_Some_lt in Ny'; lia).
    assert (Vy : vget st1 (k + 1) = Done y) by (destruct (vget_some st1 (k + 1)) as (y' & Ny2 & ->); [exact Ly|congruence]).
    unfold infer_step at 1, get_or_unwrap. rewrite Vl, Vx, Vy. cbn [bind].
    destruct (forward_ok bm l x y RA Ol) as (l' & Y & EF & CF & Ol' & SY & P & Nm & M).
    { split; [eapply Forall_nth; eassumption|exact Sx]. } { split; [eapply Forall_nth; eassumption|exact Sy]. }
    rewrite EF. cbn [bind]. pose proof (forward_kept _ _ _ _ _ _ _ EF) as (LY & Il).
    rewrite !vset_done by (first [exact Ly|apply vget_done in Vl; tauto]). cbn [bind].
    exists (list_set ls1 (N.to_nat k) l'), (list_set st1 (N.to_nat (k + 1)) Y). split; [reflexivity|].
    split; [rewrite (map_list_set ident ls1 _ l' l Nl Il); exact I1|]. split; [apply Forall_list_set; assumption|].
    split; [rewrite (map_list_set layout st1 _ Y y Ny' LY); exact L1|]. split; [apply Forall_list_set; [assumption|apply SY]|].
    intros Y' EY'. replace (N.to_nat (N.succ k)) with (N.to_nat (k + 1)) in EY' by lia.
    rewrite nth_error_list_set_same in EY' by (unfold len in Ly; lia). injection EY' as <-.
    replace (N.to_nat (N.succ k)) with (S (N.to_nat k)) by lia.
    assert (Np : nth_error (map params_of ls) (N.to_nat k) = Some (params_of l)) by (rewrite <- P1, nth_error_map, Nl; reflexivity).
    rewrite (firstn_snoc _ _ _ Np). apply composes_snoc with (Y := x); [apply C1; exact Nx|exact CF].
Qed.

Lemma rev_last {A} (l : list A) x : nth_error l (length l - 1) = Some x -> rev l = x :: tl (rev l).
Proof.
  destruct (rev l) as [|y r] eqn:E.
  - assert (l = []) by (rewrite <- (rev_involutive l), E; reflexivity). subst. discriminate.
  - apply rev_cons_last in E. subst l. rewrite app_length. cbn [length]. replace (length (rev r) + 1 - 1)%nat with (length (rev r)) by lia.
    rewrite nth_error_app2, Nat.sub_diag by lia. cbn. congruence.
Qed.

(** C33, C34 *)
Lemma infer_ok bm n (X : T) :
  relu_agrees F -> net_ok n -> layers n <> [] -> wf X -> tshape X = net_input_shape n ->
  exists n' Y, infer bm n X = Done (n', Ok tt) /\ net_ok n' /\ map ident (layers n') = map ident (layers n)
    /\ get_output n' = Done (Ok Y) /\ composes bm (map params_of (layers n)) X Y.
Proof.
  intros RA (St & Lo & Sw & Gw) NE WX SX. pose proof St as (H1 & H2 & H3 & H4). pose proof (states_length n St) as Ls.
  unfold infer. unfold get_shape. rewrite SX, shape_eqb_refl. cbn [negb].
  destruct (layers n) as [|l0 ls0] eqn:El; [congruence|]. rewrite <- El in *. clear NE.
  assert (Ls' : len (intermediate_states n) = len (layers n) + 1) by (rewrite Ls, El; reflexivity).
  assert (L1 : 1 <= len (layers n)) by (rewrite El; unfold len; cbn [length]; lia).
  destruct (N.ltb_spec (len (intermediate_states n)) 2); [lia|]. rewrite vset_done by lia. cbn [bind].
  change (N.to_nat 0) with 0%nat. destruct (intermediate_states n) as [|s0 ss] eqn:Es; [unfold len in Ls'; cbn in Ls'; lia|]. cbn [list_set].
  rewrite Nrange_upto.
  destruct (infer_loop bm (layers n) (X :: ss) X (len (layers n)) (net_input_shape n) RA) as (ls' & st' & E & I & O & L & W & C);
    try assumption; try reflexivity.
  - cbn [map] in *. rewrite <- H4. f_equal. rewrite SX, H2, <- H4. reflexivity.
  - constructor; [exact WX|]. inversion Sw; assumption.
  - rewrite E. cbn [bind]. assert (Lst : length st' = length (s0 :: ss)).
    { rewrite <- (map_length layout st'), L, map_length. reflexivity. }
    assert (N1 : N.to_nat (len (layers n)) = (length st' - 1)%nat).
    { rewrite Lst. unfold len in *. lia. }
    destruct (nth_error st' (length st' - 1)) as [Y|] eqn:NY.
    2: { apply nth_error_None in NY. cbn in Lst. lia. }
    eexists. exists Y. split; [reflexivity|]. split; [|split; [exact I|split]].
    + split; [|split; [exact O|split; [exact W|exact Gw]]].
      eapply structured_same with (n := n); try reflexivity; [apply ident_split; exact I| |exact St].
      cbn [intermediate_states]. rewrite Es. pose proof (f_equal (map (fun x => snd (fst x))) L) as Q. rewrite !map_map in Q. cbn in Q.
      etransitivity; [exact Q|]. cbn [map]. f_equal. rewrite SX, H2, <- H4. reflexivity.
    + unfold get_output. cbn [intermediate_states]. unfold len. rewrite Lst. cbn [length].
      destruct (N.ltb_spec (N.of_nat (S (length ss))) 2); [unfold len in *; cbn [length] in *; lia|].
      rewrite (rev_last _ _ NY). reflexivity.
    + specialize (C Y). rewrite N1 in C. specialize (C NY). rewrite <- N1 in C. unfold len in C. rewrite Nat2N.id in C.
      rewrite firstn_all2 in C by (rewrite map_length; lia). exact C.
Qed.

(** ** Preservation *)
Lemma net_ok_new st : net_ok (@network_new F st).
Proof. split; [apply structured_new|]. repeat split; constructor. Qed.

Lemma tensor_new_wf bm s (t : T) : allocatable s -> tensor_new bm s = Done t -> wf t.
Proof. intros A H. rewrite tensor_new_done in H by exact A. injection H as <-. apply wf_of_fun. exact A. Qed.

Lemma add_layer_ok bm n l : net_ok n -> layer_ok l ->
  exists n' r, add_layer bm n l = Done (n', r) /\ net_ok n' /\ (r = Ok tt \/ n' = n).
Proof.
  intros (St & Lo & Sw & Gw) Ol. destruct (switch_to_ok bm (net_run_state n) l Ol) as (l' & Es & Ol' & P & Nm & M).
  destruct (params_shapes _ _ P) as (Pi & Po). destruct (layer_ok_alloc _ Ol) as (Ai & Ao).
  assert (D : exists n' r, add_layer bm n l = Done (n', r)).
  { unfold add_layer. rewrite Es. cbn [bind]. rewrite Pi, Po. destruct (rev (layers n)).
    - rewrite !tensor_new_done by assumption. cbn [bind]. destruct (run_state_eqb _ _); cbn [bind]; eauto.
    - destruct (negb _); [eauto|]. rewrite !tensor_new_done by assumption. cbn [bind]. destruct (run_state_eqb _ _); cbn [bind]; eauto. }
  destruct D as (n' & r & D). exists n', r. split; [exact D|]. pose proof (add_layer_structured _ _ _ _ _ St D) as St'.
  apply add_layer_done in D. destruct D as [D|(_ & -> & _)]; [|split; [split; auto|right; reflexivity]].
  destruct D as (-> & _ & l1 & ss & L & _ & Es' & S & Sh & Sn & _ & _ & _ & gs & G & Gs). rewrite Es in Es'. injection Es' as <-.
  assert (Wss : Forall wf ss).
  { rewrite Forall_forall. intros t Ht. eapply tensor_new_wf; [|apply Sn; exact Ht].
    assert (In (tshape t) (map tshape ss)) as Q by (apply in_map; exact Ht). rewrite Sh in Q.
    destruct (layers n); cbn in Q; intuition congruence. }
  split; [|left; reflexivity]. split; [exact St'|]. rewrite L, S, G. split; [apply Forall_app; auto|]. split; [apply Forall_app; auto|].
  apply Forall_app. split; [exact Gw|]. subst gs. destruct (net_run_state n); [constructor|exact Wss].
Qed.

Lemma Forall_wf_layout (l l' : list T) : map layout l' = map layout l -> Forall wf l -> Forall wf l'.
Proof.
  revert l'; induction l as [|a l IH]; intros [|b l'] E H; try discriminate; constructor.
  - pose proof (f_equal (hd (layout b)) E) as E1. cbn [hd map] in E1. eapply layout_wf; [symmetry; exact E1|]. inversion H; assumption.
  - apply (f_equal (@tl _)) in E. apply IH; [exact E|]. inversion H; assumption.
Qed.

Lemma backward_loop_ok bm states is ls grads ls' grads' r :
  tryM is (backward_step bm states) (ls, grads) = Done ((ls', grads'), r) -> Forall layer_ok ls -> Forall layer_ok ls'.
Proof.
  intros H O. refine (tryM_done_inv (fun s => Forall layer_ok (fst s)) _ _ _ _ _ _ _ H); [exact O|].
  clear. intros i (ls & gr) (ls' & gr') r _ O H. cbn [fst] in *. unfold backward_step in H.
  apply bind_done in H. destruct H as (l & El & H). apply bind_done in H. destruct H as (g & Eg & H).
  apply bind_done in H. destruct H as (og & Eo & H). apply bind_done in H. destruct H as (x & _ & H). apply bind_done in H. destruct H as (y & _ & H).
  apply bind_done in H. destruct H as (((l1 & y1) & r1) & Ef & H).
  apply bind_done in H. destruct H as (ls1 & Vl & H). apply bind_done in H. destruct H as (st1 & Vs & H). injection H as <- <- <-.
  apply backward_kept in Ef. destruct Ef as (_ & _ & _ & _ & K). apply vget_done in El. destruct El as (Li & El).
  rewrite vset_done in Vl by exact Li. injection Vl as <-. apply Forall_list_set; [exact O|]. apply K. eapply Forall_nth; eassumption.
Qed.

Lemma net_backward_ok bm n (g : T) n' r : net_ok n -> wf g -> net_backward bm n g = Done (n', r) -> net_ok n'.
Proof.
  intros (St & Lo & Sw & Gw) Wg H. pose proof (net_backward_kept _ _ _ _ _ H) as (I & Es & Ei & Eo & Er).
  split. { eapply structured_same with (n := n); try assumption; [apply ident_split; exact I|congruence]. }
  rewrite Es. unfold net_backward in H. destruct (negb (shape_eqb _ _)); [injection H as <- <-; auto|].
  destruct (len (layers n) <? 1); [injection H as <- <-; auto|]. destruct (negb (run_state_eqb _ _)); [injection H as <- <-; auto|].
  apply bind_done in H. destruct H as (gr & Vs & H). apply bind_done in H. destruct H as (((ls & st') & r') & E & H).
  injection H as <- <-. cbn [layers intermediate_gradients]. split; [eapply backward_loop_ok; eassumption|]. split; [exact Sw|].
  apply backward_loop_kept in E. destruct E as (_ & L). eapply Forall_wf_layout; [exact L|].
  unfold vset in Vs. destruct (_ <? _); [|discriminate]. injection Vs as <-. apply Forall_list_set; assumption.
Qed.

Lemma map_layers_total bm st ls : Forall layer_ok ls ->
  exists ls', map_layers (match st with Training => switch_to_training bm | Inference => switch_to_inference bm end) ls = Done ls'
    /\ Forall layer_ok ls'.
Proof.
  intros H. unfold map_layers. set (f := match st with Training => _ | Inference => _ end).
  assert (G : forall acc, Forall layer_ok acc -> exists ls', forM ls (fun l acc => l' <- f l ;; Done (acc ++ [l'])%list) acc = Done ls' /\ Forall layer_ok ls').
  { induction H as [|l ls Hl H IH]; intros acc Ha; cbn [forM]; [eauto|].
    destruct (switch_to_ok bm st l Hl) as (l' & E & O & _). assert (E' : f l = Done l') by (subst f; destruct st; exact E).
    rewrite E'. cbn [bind]. apply IH. apply Forall_app. auto. }
  apply G. constructor.
Qed.

Lemma new_grads_total bm (l : list T) acc : Forall wf l -> Forall wf acc ->
  exists g, forM l (fun s acc => t <- tensor_new bm (get_shape s) ;; Done (acc ++ [t])%list) acc = Done g /\ Forall wf g
    /\ map tshape g = (map tshape acc ++ map tshape l)%list.
Proof.
  intros H. revert acc. induction H as [|t l Ht H IH]; intros acc Ha; cbn [forM].
  - exists acc. rewrite app_nil_r. auto.
  - unfold get_shape at 1. rewrite tensor_new_done by (apply wf_alloc; exact Ht). cbn [bind].
    destruct (IH (acc ++ [of_fun (tshape t) (fun _ _ _ => fzero)])%list) as (g & E & W & S).
    { apply Forall_app. split; [exact Ha|]. constructor; [apply wf_of_fun, wf_alloc; exact Ht|constructor]. }
    exists g. split; [exact E|]. split; [exact W|]. rewrite S, map_app, <- app_assoc. reflexivity.
Qed.

Lemma training_ok bm (n : network F) : net_ok n -> exists n', net_switch_to_training bm n = Done n' /\ net_ok n'
  /\ map tshape (intermediate_gradients n') = boundaries (layers n').
Proof.
  intros (St & Lo & Sw & Gw). destruct (map_layers_total bm Training _ Lo) as (ls' & E & O).
  destruct (new_grads_total bm (intermediate_states n) [] Sw (Forall_nil _)) as (g & Eg & Wg & Sg).
  assert (D : net_switch_to_training bm n = Done (mkNet ls' (intermediate_states n) g (net_input_shape n) (net_output_shape n) Training)).
  { unfold net_switch_to_training. rewrite E. cbn [bind]. rewrite Eg. reflexivity. }
  eexists. split; [exact D|]. apply net_training_kept in D. destruct D as (I & _). cbn [layers] in I.
  assert (P : map params_of ls' = map params_of (layers n)).
  { pose proof (f_equal (map (fun x => fst (fst x))) I) as Q. rewrite !map_map in Q. exact Q. }
  split.
  - split; [eapply structured_same with (n := n); try reflexivity; assumption|]. cbn. auto.
  - cbn. rewrite Sg. cbn [app map]. rewrite (boundaries_params _ _ P). apply St.
Qed.

Lemma inference_ok bm (n : network F) : net_ok n -> exists n', net_switch_to_inference bm n = Done n' /\ net_ok n'.
Proof.
  intros (St & Lo & Sw & Gw). destruct (map_layers_total bm Inference _ Lo) as (ls' & E & O).
  assert (D : net_switch_to_inference bm n = Done (mkNet ls' (intermediate_states n) [] (net_input_shape n) (net_output_shape n) Training)).
  { unfold net_switch_to_inference. rewrite E. reflexivity. }
  eexists. split; [exact D|]. apply net_inference_kept in D. destruct D as (I & _). cbn [layers] in I.
  assert (P : map params_of ls' = map params_of (layers n)).
  { pose proof (f_equal (map (fun x => fst (fst x))) I) as Q. rewrite !map_map in Q. exact Q. }
  split; [eapply structured_same with (n := n); try reflexivity; assumption|]. cbn. auto.
Qed.

Lemma infer_cases bm n (X : T) : structured n ->
  (tshape X <> net_input_shape n \/ layers n = [] -> exists e, infer bm n X = Done (n, Err e)).
Proof.
  intros St H. unfold infer, get_shape. destruct (shape_eqb_spec (tshape X) (net_input_shape n)) as [E|]; cbn [negb]; [|eauto].
  destruct H as [H|H]; [congruence|]. rewrite (states_length n St), H. eexists; reflexivity.
Qed.

Lemma infer_net_ok bm n (X : T) n' r : relu_agrees F -> net_ok n -> wf X -> infer bm n X = Done (n', r) -> net_ok n'.
Proof.
  intros RA H W E. destruct (shape_eqb_spec (tshape X) (net_input_shape n)) as [S|S].
  - destruct (layers n) eqn:L.
    + destruct (infer_cases bm n X (proj1 H)) as (e & E'); [auto|]. rewrite E in E'. injection E' as -> _. exact H.
    + destruct (infer_ok bm n X RA H) as (n1 & Y & E' & H' & _); [congruence|assumption|assumption|]. rewrite E in E'. injection E' as -> _. exact H'.
  - destruct (infer_cases bm n X (proj1 H)) as (e & E'); [auto|]. rewrite E in E'. injection E' as -> _. exact H.
Qed.

Lemma good_step {BT : Bits F} bm n op n' r : relu_agrees F -> net_ok n -> good_op op -> run_op bm n op = Done (n', r) -> net_ok n'.
Proof.
  intros RA H G E. destruct op as [l|fs name|x|g| |]; cbn [run_op good_op] in *.
  - destruct (add_layer_ok bm n l H G) as (n1 & r1 & E' & H' & _). rewrite E in E'. injection E' as -> _. exact H'.
  - destruct G.
  - eapply infer_net_ok; eassumption.
  - eapply net_backward_ok; eassumption.
  - apply bind_done in E. destruct E as (n1 & E & Q). injection Q as <- <-. destruct (training_ok bm n H) as (n2 & E' & H' & _). congruence.
  - apply bind_done in E. destruct E as (n1 & E & Q). injection Q as <- <-. destruct (inference_ok bm n H) as (n2 & E' & H'). congruence.
Qed.

(** Adding a layer that turns out well-formed. *)
Lemma add_layer_kept bm n (l : layer F) n' r : net_ok n -> add_layer bm n l = Done (n', r) -> Forall layer_ok (layers n') -> net_ok n'.
Proof.
  intros (St & Lo & Sw & Gw) D O. pose proof (add_layer_structured _ _ _ _ _ St D) as St'.
  apply add_layer_done in D. destruct D as [D|(_ & -> & _)]; [|split; auto].
  destruct D as (-> & _ & l1 & ss & L & I & Es' & S & Sh & Sn & _ & _ & _ & gs & G & Gs).
  assert (Ol : layer_ok l1) by (rewrite L in O; apply Forall_app in O; destruct O as (_ & O); inversion O; assumption).
  destruct (layer_ok_alloc _ Ol) as (Ai & Ao). destruct (params_shapes l l1) as (Pi & Po); [injection I as -> _ _; reflexivity|].
  assert (Wss : Forall wf ss).
  { rewrite Forall_forall. intros t Ht. eapply tensor_new_wf; [|apply Sn; exact Ht].
    assert (In (tshape t) (map tshape ss)) as Q by (apply in_map; exact Ht). rewrite Sh in Q.
    destruct (layers n); cbn in Q; intuition congruence. }
  split; [exact St'|]. split; [exact O|]. rewrite S, G. split; [apply Forall_app; auto|].
  apply Forall_app. split; [exact Gw|]. subst gs. destruct (net_run_state n); [constructor|exact Wss].
Qed.

Lemma layers_grow bm n (l : layer F) n' r : add_layer bm n l = Done (n', r) -> exists ls, layers n' = (layers n ++ ls)%list.
Proof.
  intros D. apply add_layer_done in D. destruct D as [(_ & _ & l1 & ss & L & _)|(_ & -> & _)]; [eauto|]. exists []. rewrite app_nil_r. reflexivity.
Qed.

(** Properties of the network kept by [add_layer], over a whole load. *)
Lemma populate_ind {BT : Bits F} bm (P : network F -> Prop) :
  (forall n l n' r, P n -> add_layer bm n l = Done (n', r) -> Forall layer_ok (layers n') -> P n') ->
  forall sn n n' r, P n -> populate_network bm sn n = Done (n', r) -> Forall layer_ok (layers n') -> P n'.
Proof.
  intros HP. unfold populate_network.
  assert (A : forall s n n' r, add_to_network bm s n = Done (n', r) -> n' = n \/ exists l, add_layer bm n l = Done (n', r)).
  { intros s n n' r H. unfold add_to_network, load_and_add in H.
    destruct s; apply bind_done in H; destruct H as ((l & e) & E & H); destruct e; first [injection H as <- <-; auto|eauto]. }
  assert (G : forall sn n n' r, tryM sn (add_to_network bm) n = Done (n', r) -> exists ls, layers n' = (layers n ++ ls)%list).
  { induction sn as [|s sn IH]; intros n n' r H; cbn [tryM] in H.
    - injection H as <- <-. exists []. rewrite app_nil_r. reflexivity.
    - apply bind_done in H. destruct H as ((n1 & r1) & E & H). assert (E1 : exists ls, layers n1 = (layers n ++ ls)%list).
      { apply A in E. destruct E as [->|(l & E)]; [exists []; rewrite app_nil_r; reflexivity|eapply layers_grow; exact E]. }
      destruct r1; [|injection H as <- <-; exact E1]. destruct E1 as (l1 & E1). apply IH in H. destruct H as (l2 & H).
      exists (l1 ++ l2)%list. rewrite H, E1, app_assoc. reflexivity. }
  induction sn as [|s sn IH]; intros n n' r Hn H O; cbn [tryM] in H.
  - injection H as <- <-. exact Hn.
  - apply bind_done in H. destruct H as ((n1 & r1) & E & H). apply A in E.
    assert (O1 : Forall layer_ok (layers n1)).
    { destruct r1; [|injection H as <- <-; exact O]. apply G in H. destruct H as (ls & H). rewrite H in O. apply Forall_app in O. apply O. }
    assert (H1 : P n1) by (destruct E as [->|(l & E)]; [exact Hn|eapply HP; eassumption]).
    destruct r1; [eapply IH; eassumption|]. injection H as <- <-. exact H1.
Qed.

Lemma load_ind {BT : Bits F} bm (P : network F -> Prop) :
  (forall n l n' r, P n -> add_layer bm n l = Done (n', r) -> Forall layer_ok (layers n') -> P n') ->
  forall fs name n n' r, P n -> run_op bm n (OLoad fs name) = Done (n', r) -> Forall layer_ok (layers n') -> P n'.
Proof.
  intros HP fs name n n' r Hn H O. cbn [run_op] in H. unfold network_load in H.
  destruct (fs name); [|injection H as <- <-; exact Hn]. destruct (deserialize _ _); [|injection H as <- <-; exact Hn].
  exact (populate_ind bm P HP _ _ _ _ Hn H O).
Qed.

Lemma built_ok {BT : Bits F} bm n : relu_agrees F -> well_built bm n -> net_ok n.
Proof.
  intros RA H. induction H as [st|n op n' r _ IH G E|n fs name n' r _ IH E O]; [apply net_ok_new|eapply good_step; eassumption|].
  refine (load_ind bm net_ok _ fs name n n' r IH E O). intros. eapply add_layer_kept; eassumption.
Qed.

End Facts.
