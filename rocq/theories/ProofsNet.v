(** * Proofs for C31-C36, C54, C55 *)
From Coq Require Import ZifyBool ZifyNat ZifyN.
From Verif Require Import Base Arith Helper Tensor Convolution Network Bincode Serial Float32 Spec SpecLayer SpecNet Loops TensorFacts OpsFacts.
From Verif Require Import ProofsTensor ProofsConv ProofsFloat Layout LayerFacts BackFacts NetFacts NetRun NetBack.
Ltac Zify.zify_post_hook ::= Z.div_mod_to_equations.

Section Facts.
Context {F : Type} {AR : Arith F}.
Notation T := (tensor F).

(** ** C32 *)
Lemma output_of_last (n : network F) ls last : structured n -> layers n = (ls ++ [last])%list -> net_output_shape n = get_output_shape last.
Proof. intros (_ & _ & -> & _) E. rewrite E. apply last_boundaries. Qed.

Lemma add_layer_exact bm n (l : layer F) n' r :
  structured n -> layers n <> [] -> add_layer bm n l = Done (n', r) ->
  (r = Ok tt <-> get_input_shape l = net_output_shape n)
  /\ (r <> Ok tt -> n' = n)
  /\ (r = Ok tt -> exists l', layers n' = (layers n ++ [l'])%list /\ params_of l' = params_of l /\ get_name l' = get_name l
        /\ get_run_mode l' = get_run_state n /\ net_output_shape n' = get_output_shape l).
Proof.
  intros St NE D. apply add_layer_done in D. destruct D as [D|D].
  - destruct D as (-> & [E|(ls & last & E & S)] & l1 & ss & L & I & _ & _ & _ & _ & _ & O & _); [congruence|].
    rewrite (output_of_last _ _ _ St E). split; [split; congruence|]. split; [congruence|]. intros _.
    exists l1. split; [exact L|]. injection I as -> -> ->. auto.
  - destruct D as ((e & ->) & -> & ls & last & E & S). rewrite (output_of_last _ _ _ St E).
    split; [split; [discriminate|congruence]|]. split; [reflexivity|discriminate].
Qed.

(** ** C34 *)
Lemma infer_exact bm n (X : T) : relu_agrees F -> net_ok n -> wf X ->
  exists n' r, infer bm n X = Done (n', r)
    /\ (r = Ok tt <-> tshape X = net_input_shape n /\ layers n <> [])
    /\ (r <> Ok tt -> n' = n).
Proof.
  intros RA H W. destruct (shape_eqb_spec (tshape X) (net_input_shape n)) as [S|S].
  - destruct (layers n) eqn:L.
    + destruct (infer_cases bm n X (proj1 H)) as (e & E); [auto|]. do 2 eexists. split; [exact E|].
      split; [split; [discriminate|tauto]|reflexivity].
    + destruct (infer_ok bm n X RA H) as (n1 & Y & E & _); [congruence|assumption|assumption|]. do 2 eexists. split; [exact E|].
      split; [split; [intros _; split; [exact S|discriminate]|reflexivity]|congruence].
  - destruct (infer_cases bm n X (proj1 H)) as (e & E); [auto|]. do 2 eexists. split; [exact E|].
    split; [split; [discriminate|tauto]|reflexivity].
Qed.

(** ** C33 *)
Lemma infer_composes bm n (X : T) n' : relu_agrees F -> net_ok n -> wf X -> infer bm n X = Done (n', Ok tt) ->
  exists Y, get_output n' = Done (Ok Y) /\ composes bm (map params_of (layers n)) X Y.
Proof.
  intros RA H W E. destruct (infer_exact bm n X RA H W) as (n1 & r & E' & I & _). rewrite E in E'. injection E' as <- <-.
  destruct (proj1 I eq_refl) as (S & NE). destruct (infer_ok bm n X RA H NE W S) as (n2 & Y & E2 & _ & _ & G & C).
  rewrite E in E2. injection E2 as <-. eauto.
Qed.

Lemma infer_same bm n1 n2 (X : T) n1' n2' : relu_agrees F -> net_ok n1 -> net_ok n2 -> wf X ->
  map params_of (layers n1) = map params_of (layers n2) ->
  infer bm n1 X = Done (n1', Ok tt) -> infer bm n2 X = Done (n2', Ok tt) -> get_output n1' = get_output n2'.
Proof.
  intros RA H1 H2 W P E1 E2. destruct (infer_composes _ _ _ _ RA H1 W E1) as (Y1 & G1 & C1).
  destruct (infer_composes _ _ _ _ RA H2 W E2) as (Y2 & G2 & C2). rewrite P in C1.
  rewrite G1, G2. do 2 f_equal. eapply composes_fun; eassumption.
Qed.

(** ** C35 *)
Definition modes (st : run_state) (n : network F) : Prop := net_run_state n = st /\ Forall (fun l => get_run_mode l = st) (layers n).

Lemma modes_kept (st : run_state) (ls ls' : list (layer F)) : map ident ls' = map ident ls ->
  Forall (fun l => get_run_mode l = st) ls -> Forall (fun l => get_run_mode l = st) ls'.
Proof.
  revert ls'; induction ls as [|l ls IH]; intros [|l' ls'] E H; try discriminate; constructor; cbn [map] in E.
  - assert (E1 : ident l' = ident l) by exact (f_equal (hd (ident l)) E). inversion H; subst. injection E1 as _ _ ->. reflexivity.
  - apply (f_equal (@tl _)) in E. cbn [tl] in E. apply IH; [exact E|]. inversion H; assumption.
Qed.

Lemma modes_set (st : run_state) (ls ls' : list (layer F)) : map ident ls' = map (fun l => (params_of l, get_name l, st)) ls ->
  Forall (fun l => get_run_mode l = st) ls'.
Proof.
  revert ls; induction ls' as [|l ls' IH]; intros [|l0 ls] E; try discriminate; constructor; cbn [map] in E.
  - assert (E1 := f_equal (hd (ident l)) E). cbn [hd] in E1. injection E1 as _ _ ->. reflexivity.
  - apply (f_equal (@tl _)) in E. cbn [tl] in E. eapply IH; exact E.
Qed.

Lemma modes_add bm st n (l : layer F) n' r : modes st n -> add_layer bm n l = Done (n', r) -> modes st n'.
Proof.
  intros (R & M) D. apply add_layer_done in D. destruct D as [D|(_ & -> & _)]; [|split; assumption].
  destruct D as (-> & _ & l1 & ss & L & I & _ & S & Sh & Sn & _ & _ & R' & _). split; [congruence|]. rewrite L.
  apply Forall_app. split; [exact M|]. constructor; [|constructor]. injection I as _ _ ->. exact R.
Qed.

Lemma modes_step {BT : Bits F} bm st n op n' r : modes st n -> op <> OTrain -> op <> OInference -> run_op bm n op = Done (n', r) -> modes st n'.
Proof.
  intros (R & M) N1 N2 H. destruct op as [l|fs name|x|g| |]; cbn [run_op] in H; try congruence.
  - eapply modes_add; [split; eassumption|exact H].
  - unfold network_load in H. destruct (fs name); [|injection H as <- <-; split; assumption].
    destruct (deserialize _ _) as [sn|]; [|injection H as <- <-; split; assumption]. unfold populate_network in H.
    refine (tryM_done_inv (modes st) _ _ _ _ _ _ _ H); [split; assumption|]. clear. intros s n n' r _ M H.
    unfold add_to_network, load_and_add in H.
    destruct s; apply bind_done in H; destruct H as ((l & e) & E & H);
      destruct e; first [injection H as <- <-; exact M|eapply modes_add; eassumption].
  - apply infer_kept in H. destruct H as (I & _ & _ & _ & Er & _). split; [congruence|]. eapply modes_kept; eassumption.
  - apply net_backward_kept in H. destruct H as (I & _ & _ & _ & Er). split; [congruence|]. eapply modes_kept; eassumption.
Qed.

Lemma modes_ran {BT : Bits F} bm st n n' : modes st n -> ran bm n n' -> modes st n'.
Proof. intros M H. induction H; [exact M|]. eapply modes_step; eassumption. Qed.

Lemma modes_training {BT : Bits F} bm n n1 n2 : net_switch_to_training bm n = Done n1 -> ran bm n1 n2 ->
  get_run_state n2 = Training /\ Forall (fun l => get_run_mode l = Training) (layers n2).
Proof.
  intros E H. apply (modes_ran bm Training n1); [|exact H]. apply net_training_kept in E. destruct E as (I & _ & _ & _ & R).
  split; [exact R|]. eapply modes_set; exact I.
Qed.

Lemma modes_created {BT : Bits F} bm st n : ran bm (network_new st) n ->
  get_run_state n = st /\ Forall (fun l => get_run_mode l = st) (layers n).
Proof. intros H. apply (modes_ran bm st (network_new st)); [|exact H]. split; [reflexivity|constructor]. Qed.

Lemma modes_inference bm n n1 : net_switch_to_inference bm n = Done n1 -> Forall (fun l => get_run_mode l = Inference) (layers n1).
Proof. intros E. apply net_inference_kept in E. destruct E as (I & _). eapply modes_set; exact I. Qed.

(** ** C36 *)
Lemma backward_inference bm n (g : T) : net_run_state n = Inference -> exists e, net_backward bm n g = Done (n, Err e).
Proof.
  intros R. unfold net_backward. destruct (negb (shape_eqb _ _)); [eauto|]. destruct (len (layers n) <? 1); [eauto|].
  rewrite R. cbn. eauto.
Qed.

(** ** C55 *)
Lemma state_exposed n id : structured n ->
  (id <= len (layers n) /\ layers n <> [] ->
     exists t : T, get_intermediate_state n id = Done (Ok t) /\ nth_error (boundaries (layers n)) (N.to_nat id) = Some (tshape t))
  /\ (~ (id <= len (layers n) /\ layers n <> []) -> exists e, get_intermediate_state n id = Done (Err e)).
Proof.
  intros St. pose proof (states_length n St) as L. unfold get_intermediate_state. split.
  - intros (H & NE). destruct (layers n) as [|l ls] eqn:E; [congruence|]. rewrite <- E in *.
    destruct (N.leb_spec (len (intermediate_states n)) id); [lia|]. destruct (vget_some (intermediate_states n) id) as (t & Nt & ->); [lia|].
    cbn [bind]. exists t. split; [reflexivity|]. destruct St as (_ & _ & _ & <-). apply map_nth_error. exact Nt.
  - intros H. destruct (N.leb_spec (len (intermediate_states n)) id) as [|Lt]; [eauto|]. exfalso. apply H.
    destruct (layers n) as [|l ls]; [lia|]. split; [lia|discriminate].
Qed.

Lemma output_is_last (n : network F) : structured n ->
  (layers n <> [] -> get_output n = get_intermediate_state n (len (layers n))) /\ (layers n = [] -> exists e, get_output n = Done (Err e)).
Proof.
  intros St. pose proof (states_length n St) as L. unfold get_output, get_intermediate_state. split.
  - intros NE. destruct (layers n) as [|l ls] eqn:E; [congruence|]. rewrite <- E in *. assert (1 <= len (layers n)) by (rewrite E; unfold len; cbn [length]; lia).
    destruct (N.ltb_spec (len (intermediate_states n)) 2); [lia|]. destruct (N.leb_spec (len (intermediate_states n)) (len (layers n))); [lia|].
    destruct (vget_some (intermediate_states n) (len (layers n))) as (t & Nt & ->); [lia|]. cbn [bind].
    rewrite (rev_last _ t); [reflexivity|]. rewrite <- Nt. f_equal. unfold len in *. lia.
  - intros E. rewrite E in L. rewrite L. eexists; reflexivity.
Qed.

Lemma saved_the_same {BT : Bits F} bm h n op n' r : run_op bm n op = Done (n', r) -> runs_only op ->
  to_byte_array h (new_from_network n') = to_byte_array h (new_from_network n).
Proof. intros H R. destruct (run_op_params _ _ _ _ _ H R) as (P & N). rewrite (new_from_params _ _ P N). reflexivity. Qed.

End Facts.

(** ** f32 *)
Section F32.
Context (e : env).
Let AR : Arith f32 := f32_arith e.
Local Existing Instance AR.

Lemma built_infer bm n X : well_built bm n -> wf X ->
  exists n' r, infer bm n X = Done (n', r) /\ (r = Ok tt <-> tshape X = net_input_shape n /\ layers n <> []) /\ (r <> Ok tt -> n' = n).
Proof. intros W. apply infer_exact; [apply f32_relu_agrees|]. exact (built_ok bm n (f32_relu_agrees e) W). Qed.

Lemma built_composes bm n X n' : well_built bm n -> wf X -> infer bm n X = Done (n', Ok tt) ->
  exists Y, get_output n' = Done (Ok Y) /\ composes bm (map params_of (layers n)) X Y.
Proof. intros W. apply infer_composes; [apply f32_relu_agrees|]. exact (built_ok bm n (f32_relu_agrees e) W). Qed.

Lemma built_same bm n1 n2 X n1' n2' : well_built bm n1 -> well_built bm n2 -> wf X ->
  map params_of (layers n1) = map params_of (layers n2) ->
  infer bm n1 X = Done (n1', Ok tt) -> infer bm n2 X = Done (n2', Ok tt) -> get_output n1' = get_output n2'.
Proof. intros W1 W2. apply infer_same; [apply f32_relu_agrees| |]; eapply built_ok; try eassumption; apply f32_relu_agrees. Qed.

Lemma built_backward bm n g : training_built bm n -> Forall stays_inside (layers n) -> wf g ->
  exists n' r, net_backward bm n g = Done (n', r)
    /\ (layers n <> [] -> tshape g = net_output_shape n -> Forall backs (layers n) -> r = Ok tt).
Proof.
  intros H. apply net_backward_total.
  - apply (built_ok bm); [apply f32_relu_agrees|]. apply training_built_well. exact H.
  - exact (training_built_in bm n (f32_relu_agrees e) H).
Qed.

Lemma built_add bm n l : well_built bm n -> layer_ok l -> exists n' r, add_layer bm n l = Done (n', r).
Proof.
  intros W O. destruct (add_layer_ok bm n l (built_ok bm n (f32_relu_agrees e) W) O) as (n' & r & E & _). eauto.
Qed.

End F32.
