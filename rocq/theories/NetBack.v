(** * Backward passes of networks in training mode *)
From Coq Require Import ZifyBool ZifyNat ZifyN.
From Verif Require Import Base Arith Helper Tensor Convolution Network Bincode Serial Spec SpecLayer SpecNet Loops TensorFacts OpsFacts.
From Verif Require Import ProofsTensor ProofsConv Layout LayerFacts BackFacts NetFacts NetRun.
Ltac Zify.zify_post_hook ::= Z.div_mod_to_equations.

Section Facts.
Context {F : Type} {AR : Arith F}.
Notation T := (tensor F).

Definition in_training (n : network F) : Prop :=
  net_run_state n = Training /\ Forall (fun l => get_run_mode l = Training) (layers n)
  /\ map tshape (intermediate_gradients n) = boundaries (layers n).

Lemma modes_ident (ls : list (layer F)) ls' : map ident ls' = map ident ls ->
  Forall (fun l => get_run_mode l = Training) ls -> Forall (fun l => get_run_mode l = Training) ls'.
Proof.
  revert ls'; induction ls as [|l ls IH]; intros [|l' ls'] E H; try discriminate; constructor; cbn [map] in E.
  - assert (E1 : ident l' = ident l) by exact (f_equal (hd (ident l)) E). inversion H; subst. injection E1 as _ _ ->. assumption.
  - apply (f_equal (@tl _)) in E. cbn [tl] in E. apply IH; [exact E|]. inversion H; assumption.
Qed.

Lemma layout_shapes (l l' : list T) : map layout l' = map layout l -> map tshape l' = map tshape l.
Proof. intros E. pose proof (f_equal (map (fun x => snd (fst x))) E) as Q. rewrite !map_map in Q. exact Q. Qed.

Lemma ident_boundaries (ls ls' : list (layer F)) : map ident ls' = map ident ls -> boundaries ls' = boundaries ls.
Proof. intros E. apply boundaries_params, ident_split, E. Qed.

Lemma in_training_new : in_training (network_new Training).
Proof. repeat split. constructor. Qed.

Lemma in_training_add bm n (l : layer F) n' r : structured n -> in_training n -> add_layer bm n l = Done (n', r) -> in_training n'.
Proof.
  intros St (R & M & G) D. apply add_layer_done in D. destruct D as [D|(_ & -> & _)]; [|repeat split; assumption].
  destruct D as (-> & _ & l1 & ss & L & I & _ & S & Sh & Sn & _ & _ & R' & gs & G' & Gs).
  split; [congruence|]. split.
  - rewrite L. apply Forall_app. split; [exact M|]. constructor; [|constructor]. injection I as _ _ ->. exact R.
  - rewrite G', Gs, R, map_app, G, L. destruct (params_shapes l l1) as (Pi & Po); [injection I as -> _ _; reflexivity|].
    destruct (layers n) as [|a ls]; cbn [boundaries app map] in *; [rewrite Sh, Pi, Po; reflexivity|].
    rewrite Sh, map_app. cbn [map]. rewrite Po. rewrite app_comm_cons. reflexivity.
Qed.

Lemma last_boundary (ls : list (layer F)) d : ls <> [] -> nth_error (boundaries ls) (N.to_nat (len ls)) = Some (last (boundaries ls) d).
Proof.
  intros NE. pose proof (boundaries_length ls NE) as Lb.
  destruct (exists_last (l := boundaries ls)) as (bs & b & Eb). { intros E. rewrite E in Lb. unfold len in Lb. cbn in Lb. lia. }
  rewrite Eb in *. rewrite last_last. unfold len in *. rewrite app_length in Lb. cbn [length] in Lb.
  rewrite nth_error_app2 by lia. replace (N.to_nat (N.of_nat (length ls)) - length bs)%nat with 0%nat by lia. reflexivity.
Qed.

Lemma in_training_step {BT : Bits F} bm n op n' r : net_ok n -> in_training n -> good_op op -> op <> OInference ->
  run_op bm n op = Done (n', r) -> in_training n'.
Proof.
  intros Ok (R & M & G) Go Ne H. pose proof Ok as (St & _). destruct op as [l|fs name|x|g| |]; cbn [run_op good_op] in *.
  - eapply in_training_add; [exact St| |exact H]. repeat split; assumption.
  - destruct Go.
  - apply infer_kept in H. destruct H as (I & Eg & _ & _ & Er & _). split; [congruence|]. split; [eapply modes_ident; eassumption|].
    rewrite Eg, (ident_boundaries _ _ I). exact G.
  - pose proof (net_backward_kept _ _ _ _ _ H) as (I & _ & _ & _ & Er). split; [congruence|]. split; [eapply modes_ident; eassumption|].
    rewrite (ident_boundaries _ _ I), <- G. unfold net_backward in H.
    destruct (negb (shape_eqb _ _)) eqn:Sg; [injection H as <- <-; reflexivity|].
    destruct (len (layers n) <? 1); [injection H as <- <-; reflexivity|]. destruct (negb (run_state_eqb _ _)); [injection H as <- <-; reflexivity|].
    apply bind_done in H. destruct H as (gr & Vs & H). apply bind_done in H. destruct H as (((ls & st') & r') & E & H).
    injection H as <- <-. cbn [intermediate_gradients]. apply backward_loop_kept in E. destruct E as (_ & L). apply layout_shapes in L.
    rewrite L. unfold vset in Vs. destruct (N.ltb_spec (len (layers n)) (len (intermediate_gradients n))) as [Lt|]; [|discriminate]. injection Vs as <-.
    destruct (nth_error (intermediate_gradients n) (N.to_nat (len (layers n)))) as [y|] eqn:Ny.
    2: { apply nth_error_None in Ny. unfold len in *. lia. }
    apply map_list_set with (y := y); [exact Ny|]. apply negb_false_iff, shape_eqb_eq in Sg. unfold get_shape in Sg. rewrite Sg.
    destruct St as (_ & _ & Eo & _). rewrite Eo. pose proof (map_nth_error tshape _ _ Ny) as Nb. rewrite G in Nb.
    rewrite (last_boundary (layers n) (mkShape 0 0 0)) in Nb; [congruence|]. intros El. rewrite El in G. apply map_eq_nil in G. rewrite G in Ny. destruct (N.to_nat _); discriminate.
  - apply bind_done in H. destruct H as (n1 & E & Q). injection Q as <- <-. destruct (training_ok bm n Ok) as (n2 & E' & _ & B).
    rewrite E in E'. injection E' as <-. apply net_training_kept in E. destruct E as (I & _ & _ & _ & R').
    split; [exact R'|]. split; [|exact B]. clear - I.
    revert I. generalize (layers n). induction (layers n1) as [|l ls IH]; intros [|l0 ls0] I; try discriminate; constructor; cbn [map] in I.
    + assert (E1 := f_equal (hd (ident l)) I). cbn [hd] in E1. injection E1 as _ _ ->. reflexivity.
    + apply (f_equal (@tl _)) in I. cbn [tl] in I. eapply IH; exact I.
  - congruence.
Qed.

Lemma training_built_well {BT : Bits F} bm (n : network F) : training_built bm n -> well_built bm n.
Proof.
  induction 1 as [|n n' W E|n op n' r _ IH G _ E|n fs name n' r _ IH E O].
  - apply built_new.
  - apply (built_step bm n OTrain n' (Ok tt)); [exact W|exact I|]. cbn [run_op]. rewrite E. reflexivity.
  - eapply built_step; eassumption.
  - eapply built_load; eassumption.
Qed.

Lemma training_built_in {BT : Bits F} bm (n : network F) : relu_agrees F -> training_built bm n -> in_training n.
Proof.
  intros RA. induction 1 as [|n n' W E|n op n' r T IH G Ne E|n fs name n' r T IH E O].
  - apply in_training_new.
  - pose proof (built_ok bm n RA W) as Ok. destruct (training_ok bm n Ok) as (n2 & E' & _ & B). rewrite E in E'. injection E' as <-.
    apply net_training_kept in E. destruct E as (I & _ & _ & _ & R'). split; [exact R'|]. split; [|exact B]. clear - I.
    revert I. generalize (layers n). induction (layers n') as [|l ls IH]; intros [|l0 ls0] I; try discriminate; constructor; cbn [map] in I.
    + assert (E1 := f_equal (hd (ident l)) I). cbn [hd] in E1. injection E1 as _ _ ->. reflexivity.
    + apply (f_equal (@tl _)) in I. cbn [tl] in I. eapply IH; exact I.
  - eapply in_training_step; try eassumption. eapply built_ok; [exact RA|]. apply training_built_well. exact T.
  - refine (proj2 (load_ind bm (fun n => structured n /\ in_training n) _ fs name n n' r _ E O)).
    + intros n0 l n1 r0 (S0 & T0) D _. split; [eapply add_layer_structured; eassumption|eapply in_training_add; eassumption].
    + split; [|exact IH]. eapply built_ok; [exact RA|]. apply training_built_well. exact T.
Qed.

Lemma rev_upto_succ k : rev (upto (N.succ k)) = k :: rev (upto k).
Proof. rewrite upto_succ, rev_app_distr. reflexivity. Qed.

Lemma back_params (l l' : layer F) : params_of l' = params_of l -> (stays_inside l -> stays_inside l') /\ (backs l -> backs l').
Proof.
  destruct l, l'; cbn [params_of stays_inside backs]; intros E; try discriminate; split; auto; try injection E as E1 E2 E3 E4 E5; try congruence.
  rewrite E1, E3, E4, E5. auto.
Qed.

Lemma Forall_params (P : layer F -> Prop) : (forall l l', params_of l' = params_of l -> P l -> P l') ->
  forall ls ls', map params_of ls' = map params_of ls -> Forall P ls -> Forall P ls'.
Proof.
  intros HP. induction ls as [|l ls IH]; intros [|l' ls'] E H; try discriminate; constructor; cbn [map] in E.
  - assert (E1 : params_of l' = params_of l) by exact (f_equal (hd (params_of l)) E). inversion H; subst. eapply HP; eassumption.
  - apply (f_equal (@tl _)) in E. cbn [tl] in E. apply IH; [exact E|]. inversion H; assumption.
Qed.

Lemma nth_shaped (ss : list T) ls k s : map tshape ss = boundaries ls -> Forall wf ss -> nth_error (boundaries (F := F) ls) k = Some s ->
  exists t, nth_error ss k = Some t /\ shaped t s.
Proof.
  intros E W N. rewrite <- E in N. apply map_nth_is in N. destruct N as (t & N & S). exists t. split; [exact N|].
  split; [eapply Forall_nth; eassumption|exact S].
Qed.

Lemma backward_step_total bm (ls : list (layer F)) states grads s0 k :
  linked s0 ls -> Forall layer_ok ls -> Forall stays_inside ls -> Forall (fun l => get_run_mode l = Training) ls -> Forall wf states -> Forall wf grads ->
  map tshape states = boundaries ls -> map tshape grads = boundaries ls -> k < len ls ->
  exists ls' grads' r, backward_step bm states k (ls, grads) = Done ((ls', grads'), r)
    /\ (Forall backs ls -> r = Ok tt).
Proof.
  intros Hl O NC M Ws Wg Es Eg Hk. destruct (vget_some ls k) as (l & Nl & Vl); [exact Hk|].
  destruct (nth_boundaries ls s0 (N.to_nat k) l Hl) as (B1 & B2); [|exact Nl|].
  { destruct ls as [|a ls]; [left; reflexivity|right]. cbn [linked] in Hl. destruct Hl as (<- & _). reflexivity. }
  replace (S (N.to_nat k)) with (N.to_nat (k + 1)) in B2 by lia.
  destruct (nth_shaped _ _ _ _ Es Ws B1) as (x & Nx & Sx). destruct (nth_shaped _ _ _ _ Es Ws B2) as (y & Ny & Sy).
  destruct (nth_shaped _ _ _ _ Eg Wg B1) as (og & No & So). destruct (nth_shaped _ _ _ _ Eg Wg B2) as (g & Ng & Sg).
  assert (V : forall (A : Type) (l : list A) i a, nth_error l (N.to_nat i) = Some a -> vget l i = Done a).
  { intros A l0 i a E. destruct (vget_some l0 i) as (a' & E' & ->); [|congruence]. apply nth_error_Some_lt in E. unfold len. lia. }
  destruct (backward_total bm l x y g og (Forall_nth _ _ _ _ O Nl) (Forall_nth _ _ _ _ NC Nl) (Forall_nth _ _ _ _ M Nl) Sx Sy Sg So) as (l' & og' & r & E & HOk).
  unfold backward_step, get_or_unwrap. rewrite Vl, (V _ _ _ _ Nx), (V _ _ _ _ Ny), (V _ _ _ _ Ng), (V _ _ _ _ No). cbn [bind].
  rewrite E. cbn [bind]. rewrite vset_done by exact Hk. cbn [bind].
  rewrite vset_done by (apply nth_error_Some_lt in No; unfold len; lia). cbn [bind]. do 3 eexists. split; [reflexivity|].
  intros B. apply HOk. exact (Forall_nth _ _ _ _ B Nl).
Qed.

Lemma backward_loop_total bm states s0 k : Forall wf states ->
  forall (ls : list (layer F)) grads, linked s0 ls -> Forall layer_ok ls -> Forall stays_inside ls -> Forall (fun l => get_run_mode l = Training) ls -> Forall wf grads ->
  map tshape states = boundaries ls -> map tshape grads = boundaries ls -> k <= len ls ->
  exists ls' grads' r, tryM (rev (upto k)) (backward_step bm states) (ls, grads) = Done ((ls', grads'), r)
    /\ (Forall backs ls -> r = Ok tt).
Proof.
  intros Ws. induction k as [|k IH] using N.peano_ind; intros ls grads Hl O NC M Wg Es Eg Hk.
  - rewrite upto_0. cbn. do 3 eexists. split; [reflexivity|auto].
  - rewrite rev_upto_succ. cbn [tryM].
    destruct (backward_step_total bm ls states grads s0 k Hl O NC M Ws Wg Es Eg) as (ls1 & gr1 & r1 & E & H1); [lia|]. rewrite E. cbn [bind].
    destruct r1 as [[]|e]; [|do 3 eexists; split; [reflexivity|exact H1]].
    pose proof (backward_step_kept _ _ _ _ _ _ _ _ E) as (I & L). pose proof (proj1 (ident_split _ _ I)) as P.
    assert (O1 : Forall layer_ok ls1).
    { eapply (backward_loop_ok bm states [k] ls grads ls1 gr1 (Ok tt)); [|exact O]. cbn [tryM]. rewrite E. reflexivity. }
    destruct (IH ls1 gr1) as (ls' & gr' & r & E' & H').
    + eapply linked_params; eassumption.
    + exact O1.
    + eapply Forall_params; [|exact P|exact NC]. intros; eapply back_params; eassumption.
    + eapply modes_ident; eassumption.
    + eapply Forall_wf_layout; eassumption.
    + rewrite (ident_boundaries _ _ I). exact Es.
    + rewrite (layout_shapes _ _ L), (ident_boundaries _ _ I). exact Eg.
    + assert (len ls1 = len ls) by (rewrite <- (len_map ident ls1), I, len_map; reflexivity). lia.
    + exists ls', gr', r. split; [exact E'|]. intros B. apply H'.
      eapply Forall_params; [|exact P|exact B]. intros; eapply back_params; eassumption.
Qed.

Lemma net_backward_total bm n (g : T) :
  net_ok n -> in_training n -> Forall stays_inside (layers n) -> wf g ->
  exists n' r, net_backward bm n g = Done (n', r)
    /\ (layers n <> [] -> tshape g = net_output_shape n -> Forall backs (layers n) -> r = Ok tt).
Proof.
  intros (St & Lo & Sw & Gw) (R & M & G) NC Wg. unfold net_backward, get_shape.
  destruct (shape_eqb_spec (tshape g) (net_output_shape n)) as [Sg|Sg]; cbn [negb]; [|do 2 eexists; split; [reflexivity|tauto]].
  destruct (N.ltb_spec (len (layers n)) 1) as [L|L].
  { do 2 eexists. split; [reflexivity|]. intros NE. destruct (layers n); [congruence|]. unfold len in L. cbn [length] in L. lia. }
  rewrite R. cbn [run_state_eqb negb].
  assert (Lg : len (intermediate_gradients n) = len (layers n) + 1).
  { rewrite <- (len_map tshape), G. apply boundaries_length. intros E. rewrite E in L. unfold len in L. cbn in L. lia. }
  rewrite vset_done by lia. cbn [bind]. rewrite Nrange_upto.
  assert (Nl : nth_error (boundaries (layers n)) (N.to_nat (len (layers n))) = Some (tshape g)).
  { rewrite (last_boundary _ (mkShape 0 0 0)), Sg; [f_equal; symmetry; apply St|].
    intros E. rewrite E in L. unfold len in L. cbn in L. lia. }
  destruct (backward_loop_total bm (intermediate_states n) (net_input_shape n) (len (layers n)) Sw (layers n)
    (list_set (intermediate_gradients n) (N.to_nat (len (layers n))) g)) as (ls' & gr' & r & E & H); try assumption.
  - apply St.
  - apply Forall_list_set; assumption.
  - apply St.
  - rewrite <- G. rewrite <- G in Nl. apply map_nth_is in Nl. destruct Nl as (y & Ny & Sy). apply map_list_set with (y := y); [exact Ny|congruence].
  - lia.
  - rewrite E. cbn [bind]. do 2 eexists. split; [reflexivity|]. intros _ _. exact H.
Qed.

End Facts.
