(** * Proofs for C106 *)
From Coq Require Import ZifyBool ZifyNat ZifyN.
From Verif Require Import Base Arith Helper Tensor Convolution Network Bincode Serial Spec SpecLayer SpecNet SpecPlatform SpecTrace Loops TensorFacts OpsFacts.
From Verif Require Import ProofsTensor ProofsConv Layout LayerFacts BackFacts NetFacts ProofsPool NetRun ProofsResume ProofsPieces.
Ltac Zify.zify_post_hook ::= Z.div_mod_to_equations.

Section Any.
Context {F : Type} {AR : Arith F}.
Notation T := (tensor F).

(** ** Layers that differ in what the next forward pass overwrites *)
Definition alike (l l' : layer F) : Prop :=
  match l, l' with
  | LFC f, LFC f' => exists m, f' = mkFC (fc_weights f) (fc_weights_gradients f) (fc_weights_gradients_intermediate f) (fc_bias f) (fc_bias_gradients f) m (fc_name f) (fc_run_state f)
  | LConv c, LConv c' => exists m, c' = cv_set_mask c m
  | LMaxPool p, LMaxPool p' => exists o, p' = mp_set_origin p o
  | LSoftmax s, LSoftmax s' => s' = s
  | _, _ => False
  end.
Definition settled (l l' : layer F) : Prop := layer_ok l /\ layer_ok l' /\ alike l l' /\ (get_run_mode l = Inference -> l' = l).

Lemma settled_refl l : layer_ok l -> settled l l.
Proof.
  intros H. split; [exact H|]. split; [exact H|]. split; [|auto]. destruct l as [c|f|p|s]; cbn.
  - exists (cv_relu_mask c). destruct c; reflexivity.
  - exists (fc_relu_mask f). destruct f; reflexivity.
  - exists (mp_origin p). destruct p; reflexivity.
  - reflexivity.
Qed.
Lemma alike_mode l l' : alike l l' -> get_run_mode l' = get_run_mode l.
Proof. destruct l, l'; cbn; try contradiction; [intros (m & ->)|intros (m & ->)|intros (m & ->)|intros ->]; reflexivity. Qed.
Lemma settled_trans l1 l2 l3 : settled l1 l2 -> settled l2 l3 -> settled l1 l3.
Proof.
  intros (O1 & _ & A1 & I1) (_ & O3 & A2 & I2). split; [exact O1|]. split; [exact O3|]. split.
  - destruct l1, l2, l3; cbn in *; try contradiction; [destruct A1 as (m & ->), A2 as (m' & ->)|destruct A1 as (m & ->), A2 as (m' & ->)|destruct A1 as (m & ->), A2 as (m' & ->)|congruence];
      eexists; reflexivity.
  - intros R. rewrite (I2 ltac:(rewrite (alike_mode _ _ A1); exact R)). auto.
Qed.
Lemma alike_shapes l l' : alike l l' -> get_input_shape l' = get_input_shape l /\ get_output_shape l' = get_output_shape l.
Proof. destruct l, l'; cbn; try contradiction; [intros (m & ->)|intros (m & ->)|intros (m & ->)|intros ->]; split; reflexivity. Qed.

Lemma forward_settled bm l (X Y0 Y : T) l1 r : layer_ok l -> layer_ok l1 -> forward bm l X Y0 = Done (l1, Y, r) -> settled l l1.
Proof.
  intros O O1 E. split; [exact O|]. split; [exact O1|]. destruct l as [c|f|p|s]; cbn [forward get_run_mode] in *; unfold lift3 in E; apply bind_done in E;
    destruct E as (((k & t) & q) & E & H); injection H as <- <- <-; cbn [alike].
  - unfold cv_forward in E. destruct (cv_run_state c) eqn:R; apply bind_done in E; destruct E as ((out & q') & _ & E).
    + injection E as <- <- <-. split; [exists (cv_relu_mask c); destruct c; reflexivity|auto].
    + split; [|discriminate]. destruct q' as [[]|e]; [|injection E as <- <- <-; exists (cv_relu_mask c); destruct c; reflexivity].
      destruct (relu_self_and_store_mask out (cv_relu_mask c)) as ((o' & m) & q1). injection E as <- <- <-. eauto.
  - unfold fc_forward in E. destruct (fc_run_state f) eqn:R; apply bind_done in E; destruct E as (out & _ & E).
    + injection E as <- <- <-. split; [exists (fc_relu_mask f); rewrite <- R; destruct f; reflexivity|auto].
    + split; [|discriminate]. destruct (relu_self_and_store_mask _ (fc_relu_mask f)) as ((o' & m) & q1). injection E as <- <- <-. eauto.
  - unfold mp_forward in E. destruct (mp_run_state p) eqn:R; apply bind_done in E.
    + destruct E as (out & _ & E). injection E as <- <- <-. split; [exists (mp_origin p); destruct p; reflexivity|auto].
    + destruct E as (((out & o) & q') & _ & E). injection E as <- <- <-. split; [eauto|discriminate].
  - unfold sm_forward in E. repeat match type of E with context [let '(_, _) := ?e in _] => destruct e as (? & ?) | context [match ?e with Done _ => _ | Panic _ => _ end] => destruct e end.
    all: try (apply bind_done in E; destruct E as (? & _ & E)). all: try (injection E as <- <- <-; auto).
Qed.

Lemma settled_forward bm l l' (X Y0 Y1 : T) : settled l l' -> shaped X (get_input_shape l) ->
  shaped Y0 (get_output_shape l) -> shaped Y1 (get_output_shape l) -> forward bm l X Y0 = forward bm l' X Y1.
Proof.
  intros (H & H' & A & I) Hx H0 H1. destruct (get_run_mode l) eqn:R.
  { rewrite (I eq_refl). apply forward_overwrites; assumption. }
  destruct (alike_shapes _ _ A) as (Si & So). etransitivity; [apply (forward_overwrites bm l X Y0 Y1); assumption|]. clear Y0 H0. clear I.
  destruct l as [c|f|p|s], l' as [c'|f'|p'|s']; cbn [alike] in A; try contradiction; cbn [forward get_run_mode get_input_shape get_output_shape] in *.
  - destruct A as (m & ->). unfold cv_forward. cbn [cv_set_mask cv_run_state cv_kernels cv_biases cv_stride cv_output_shape cv_relu_mask]. rewrite R.
    destruct H as (ks & Ak & Hk & Ek & Lb & Hb & Ai & Ao & P & Ht). destruct H' as (ks' & _ & _ & _ & _ & _ & _ & _ & _ & Ht').
    cbn [cv_set_mask cv_run_state cv_output_shape cv_relu_mask] in Ht'. rewrite R in Ht, Ht'. destruct (Ht eq_refl) as (Sm & _), (Ht' eq_refl) as (Sm' & _).
    pose proof (shaped_eq _ _ Hx) as (_ & Ex). pose proof (shaped_eq _ _ H1) as (_ & E1). pose proof (shaped_eq _ _ Sm) as (_ & Em). pose proof (shaped_eq _ _ Sm') as (_ & Em').
    rewrite Nrange_upto, E1, Ex, !(conv_channels_plain bm _ _ _ _ _ ks) by first [assumption|lia]. cbn [bind]. rewrite Em, Em', !relu_mask_of_fun. reflexivity.
  - destruct A as (m & ->). unfold fc_forward. cbn [fc_run_state fc_weights fc_weights_gradients fc_weights_gradients_intermediate fc_bias fc_bias_gradients fc_relu_mask fc_name]. rewrite R.
    destruct H as (M & k & Hw & Hb & Ht), H' as (M' & k' & Hw' & Hb' & Ht'). cbn [fc_run_state fc_weights fc_bias fc_relu_mask] in *. rewrite R in Ht, Ht'.
    destruct (Ht eq_refl) as (_ & _ & _ & Sm), (Ht' eq_refl) as (_ & _ & _ & Sm'). clear Ht Ht'.
    assert (M' = M) as -> by (destruct Hb as (_ & Q), Hb' as (_ & Q'); rewrite Q in Q'; injection Q' as ->; reflexivity).
    unfold fc_input_shape, fc_output_shape, get_shape in *. rewrite (proj2 Hw) in *. rewrite (proj2 Hb) in *. cbn [di dj dk] in *.
    pose proof (shaped_eq _ _ Hx) as (Ax & Ex). pose proof (shaped_eq _ _ H1) as (A1 & E1). pose proof (shaped_eq _ _ Sm) as (_ & Em). pose proof (shaped_eq _ _ Sm') as (_ & Em').
    pose proof (shaped_eq _ _ Hw) as (Aw & Ew). pose proof (shaped_eq _ _ Hb) as (Ab & Eb). rewrite Ew, Eb, Ex, E1.
    rewrite !matrix_multiply_of_fun by (try assumption; try reflexivity; apply mm_check). cbn [bind]. rewrite add_to_self_of_fun, Em, Em', !relu_mask_of_fun. reflexivity.
  - destruct A as (o & ->). unfold mp_forward. cbn [mp_set_origin mp_run_state mp_mask_shape mp_stride mp_origin]. rewrite R.
    destruct H as (Ai & Ao & P & Ht), H' as (_ & _ & _ & Ht'). cbn [mp_set_origin mp_run_state mp_origin mp_output_shape] in Ht'. rewrite R in Ht, Ht'.
    pose proof (shaped_eq _ _ Hx) as (_ & Ex). pose proof (shaped_eq _ _ H1) as (_ & E1).
    assert (C : check_max_pooling_dimensions bm (mp_input_shape p) (mp_mask_shape p) (mp_stride p) (mp_output_shape p) = Done true)
      by (apply check_pool_complete; [apply u32_shape_alloc; exact Ao|exact P]).
    rewrite E1, Ex, !track_of_fun by (try assumption; first [apply (Ht eq_refl)|apply (Ht' eq_refl)]). reflexivity.
  - rewrite A. reflexivity.
Qed.
(** ** The loop over the layers *)
Definition fits (ls : list (layer F)) (st : list T) : Prop := Forall2 (fun l (y : T) => shaped y (get_output_shape l)) ls st.

Lemma loop_cons bm l ls (x y : T) st k l1 Y : forward bm l x y = Done (l1, Y, Ok tt) ->
  tryM (upto (1 + k)) (infer_step bm) (l :: ls, x :: y :: st)
  = ('((ls', st'), r) <- tryM (upto k) (infer_step bm) (ls, Y :: st) ;; Done ((l1 :: ls', x :: st'), r)).
Proof.
  intros E. rewrite upto_add, OpsFacts.tryM_app. change (upto 1) with [0]. cbn [tryM bind].
  unfold infer_step at 1. change (vget (l :: ls) 0) with (Done l). cbn [bind]. change (get_or_unwrap (x :: y :: st) 0) with (Done x). cbn [bind].
  replace (get_or_unwrap (x :: y :: st) (0 + 1)) with (Done y).
  2: { unfold get_or_unwrap. change (x :: y :: st) with ([x] ++ (y :: st))%list. change (0 + 1) with (len [x] + 0). rewrite vget_right. reflexivity. }
  cbn [bind]. rewrite E. cbn [bind]. change (vset (l :: ls) 0 l1) with (Done (l1 :: ls)). cbn [bind].
  replace (vset (x :: y :: st) (0 + 1) Y) with (Done (x :: Y :: st)).
  2: { change (x :: y :: st) with ([x] ++ (y :: st))%list. change (0 + 1) with (len [x] + 0). rewrite vset_right. reflexivity. }
  cbn [bind tryM]. exact (infer_loop_right bm [l1] [x] ls (Y :: st) eq_refl k).
Qed.

Lemma loop_settled bm : relu_agrees F -> forall ls ls', Forall2 settled ls ls' -> forall (x : T) st st', wf x -> linked (tshape x) ls -> fits ls st -> fits ls st' ->
  exists m s, tryM (upto (len ls)) (infer_step bm) (ls, x :: st) = Done ((m, s), Ok tt) /\ tryM (upto (len ls')) (infer_step bm) (ls', x :: st') = Done ((m, s), Ok tt)
    /\ Forall2 settled ls m.
Proof.
  intros RA. induction 1 as [|l l' ls ls' S H IH]; intros x st st' Wx Lk Ft Ft'.
  - inversion Ft; subst. inversion Ft'; subst. exists [], [x]. cbn. auto.
  - inversion Ft as [|? y ? s0 Fy Fs]; subst. inversion Ft' as [|? y' ? s0' Fy' Fs']; subst. cbn [linked] in Lk. destruct Lk as (Si & Lk).
    assert (Fx : shaped x (get_input_shape l)) by (split; [exact Wx|congruence]). pose proof S as (O & _).
    pose proof (settled_forward bm l l' x y y' S Fx Fy Fy') as EF.
    destruct (forward_ok bm l x y RA O Fx Fy) as (l1 & Y & E & _ & O1 & (WY & SY) & P1 & _). rewrite E in EF. symmetry in EF.
    destruct (IH Y s0 s0') as (m & s & E1 & E2 & Sm); try assumption; [rewrite SY; exact Lk|].
    exists (l1 :: m), (x :: s). replace (len (l :: ls)) with (1 + len ls) by (unfold len; cbn [length]; lia). replace (len (l' :: ls')) with (1 + len ls') by (unfold len; cbn [length]; lia).
    rewrite (loop_cons bm l ls x y s0 (len ls) l1 Y E), (loop_cons bm l' ls' x y' s0' (len ls') l1 Y EF), E1, E2. cbn [bind]. split; [reflexivity|]. split; [reflexivity|].
    constructor; [eapply forward_settled; eassumption|exact Sm].
Qed.

Definition same_stage (n n' : network F) : Prop :=
  net_ok n /\ net_ok n' /\ Forall2 settled (layers n) (layers n') /\ intermediate_gradients n' = intermediate_gradients n
  /\ net_input_shape n' = net_input_shape n /\ net_output_shape n' = net_output_shape n /\ net_run_state n' = net_run_state n.

Lemma same_stage_refl n : net_ok n -> same_stage n n.
Proof.
  intros N. split; [exact N|]. split; [exact N|]. split; [|auto]. destruct N as (_ & O & _). induction O; constructor; [apply settled_refl; assumption|assumption].
Qed.

Lemma fits_boundaries (ls : list (layer F)) (x : T) st : map tshape (x :: st) = boundaries ls -> Forall wf st -> fits ls st.
Proof.
  intros E W. destruct ls as [|l ls]; [discriminate|]. unfold boundaries in E. cbn [map] in E. injection E as _ E. fold (map get_output_shape (l :: ls)) in E.
  change (get_output_shape l :: map get_output_shape ls) with (map get_output_shape (l :: ls)) in E. revert E. generalize (l :: ls). clear l ls. intros ls E.
  revert ls E. induction W as [|t st Wt W IH]; intros [|l ls] E; cbn in E; try discriminate; [constructor|]. injection E as E0 E. constructor; [split; assumption|]. apply IH; assumption.
Qed.

Lemma alike_boundaries (ls ls' : list (layer F)) : Forall2 settled ls ls' -> boundaries ls' = boundaries ls.
Proof.
  intros H. assert (Q : map get_output_shape ls' = map get_output_shape ls).
  { induction H as [|l l' ls ls' (_ & _ & A & _) H IH]; [reflexivity|]. cbn. rewrite IH. destruct (alike_shapes _ _ A) as (_ & ->). reflexivity. }
  destruct H as [|l l' ls ls' (_ & _ & A & _) H]; [reflexivity|]. unfold boundaries. rewrite Q. destruct (alike_shapes _ _ A) as (-> & _). reflexivity.
Qed.

Lemma stage_infer bm (n n' : network F) (x : T) : relu_agrees F -> same_stage n n' -> layers n <> [] -> shaped x (net_input_shape n) ->
  exists m, infer bm n x = Done (m, Ok tt) /\ infer bm n' x = Done (m, Ok tt) /\ same_stage n m.
Proof.
  intros RA (N & N' & S & G & Ei & Eo & Er) NE (Wx & Sx). destruct (infer_ok bm n x RA N NE Wx Sx) as (m & Y & E & Om & _).
  exists m. split; [exact E|]. pose proof N as (St & _ & Wn & _). pose proof N' as (St' & _ & Wn' & _).
  pose proof (infer_inv _ _ _ _ E) as (Xe & Lb & s0 & ls & st & V & L & ->).
  pose proof St as (Lk & H2 & _ & H4). pose proof St' as (_ & _ & _ & H4'). rewrite (alike_boundaries _ _ S) in H4'.
  destruct (intermediate_states n) as [|a0 ss] eqn:Es; [discriminate|]. destruct (intermediate_states n') as [|a0' ss'] eqn:Es'; [rewrite <- H4' in H4; discriminate|].
  assert (s0 = x :: ss) as -> by (unfold vset in V; cbn in V; injection V as <-; reflexivity).
  inversion Wn; subst. inversion Wn'; subst.
  destruct (loop_settled bm RA (layers n) (layers n') S x ss ss') as (m0 & s & E1 & E2 & Sm); [exact Wx|rewrite Sx; exact Lk|eapply fits_boundaries; eassumption|eapply fits_boundaries; eassumption|].
  rewrite L in E1. injection E1 as <- <-. split.
  - unfold infer. rewrite Ei, Xe. cbn [negb]. rewrite Es'.
    assert (Q : length ss' = length ss) by (rewrite <- H4' in H4; apply (f_equal (@length _)) in H4; cbn [map length] in H4; rewrite !map_length in H4; lia).
    replace (len (a0' :: ss')) with (len (a0 :: ss)) by (unfold len; cbn [length]; lia). rewrite Lb. change (vset (a0' :: ss') 0 x) with (Done (x :: ss')). cbn [bind].
    rewrite Nrange_upto, E2. cbn [bind]. rewrite G, Eo, Er. reflexivity.
  - split; [exact N|]. split; [exact Om|]. cbn. auto.
Qed.

Lemma stage_trans (n1 n2 n3 : network F) : same_stage n1 n2 -> same_stage n2 n3 -> same_stage n1 n3.
Proof.
  intros (N1 & _ & S1 & G1 & I1 & O1 & R1) (_ & N3 & S2 & G2 & I2 & O2 & R2). split; [exact N1|]. split; [exact N3|]. split; [|split; [congruence|]; split; [congruence|]; split; congruence].
  revert S2. generalize (layers n3). induction S1 as [|l l' ls ls' H S1 IH]; intros ls3 S2; inversion S2; subst; constructor; [eapply settled_trans; eassumption|auto].
Qed.

Context {BT : Bits F}.

Lemma evaluate bm (n : network F) zs : relu_agrees F -> net_ok n -> Forall wf zs ->
  exists m rs, history bm n (map OInfer zs) = Done (m, rs) /\ same_stage n m.
Proof.
  intros RA N W. assert (Q : forall n0, same_stage n n0 -> exists m rs, history bm n0 (map OInfer zs) = Done (m, rs) /\ same_stage n m).
  2: { apply Q. apply same_stage_refl. exact N. }
  induction W as [|z zs Wz W IH]; intros n0 S0; cbn [map history run_op]; [eauto|].
  assert (E : exists n1 r, infer bm n0 z = Done (n1, r) /\ same_stage n0 n1).
  { pose proof S0 as (_ & N0 & _). destruct (layers n0) as [|l ls] eqn:El.
    - pose proof N0 as (St & _). destruct (infer_cases bm n0 z St) as (e & E); [auto|]. exists n0, (Err e). split; [exact E|]. apply same_stage_refl. exact N0.
    - destruct (shape_eqb_spec (tshape z) (net_input_shape n0)) as [Sz|Sz].
      + destruct (stage_infer bm n0 n0 z RA (same_stage_refl _ N0)) as (m & E & _ & S); [congruence|split; assumption|]. eauto.
      + pose proof N0 as (St & _). destruct (infer_cases bm n0 z St) as (e & E); [auto|]. exists n0, (Err e). split; [exact E|]. apply same_stage_refl. exact N0. }
  destruct E as (n1 & r & E & S1). rewrite E. cbn [bind]. destruct (IH n1 (stage_trans _ _ _ S0 S1)) as (m & rs & Em & Sm). rewrite Em. cbn [bind]. eauto.
Qed.

Lemma history_app bm (n : network F) ops1 ops2 : history bm n (ops1 ++ ops2)
  = ('(n1, rs1) <- history bm n ops1 ;; '(n2, rs2) <- history bm n1 ops2 ;; Done (n2, (rs1 ++ rs2)%list)).
Proof.
  revert n. induction ops1 as [|op ops1 IH]; intros n; cbn [app history bind]; [destruct (history bm n ops2) as [(? & ?)|]; reflexivity|].
  destruct (run_op bm n op) as [(n1 & r)|]; cbn [bind]; [|reflexivity]. rewrite IH. destruct (history bm n1 ops1) as [(n2 & rs)|]; cbn [bind]; [|reflexivity].
  destruct (history bm n2 ops2) as [(n3 & rs3)|]; reflexivity.
Qed.

(** C106 *)
Lemma evaluations_forgotten bm (n : network F) zs x : relu_agrees F -> well_built bm n -> layers n <> [] -> Forall wf zs -> shaped x (net_input_shape n) ->
  exists m rs n1, history bm n (map OInfer zs) = Done (m, rs) /\ infer bm m x = Done (n1, Ok tt) /\ infer bm n x = Done (n1, Ok tt)
    /\ intermediate_gradients m = intermediate_gradients n /\ Forall2 same_but_trace (layers n) (layers m).
Proof.
  intros RA B NE W Sx. pose proof (built_ok bm n RA B) as N. destruct (evaluate bm n zs RA N W) as (m & rs & E & S).
  destruct (stage_infer bm n m x RA S NE Sx) as (n1 & E1 & E2 & _). exists m, rs, n1. split; [exact E|]. split; [exact E2|]. split; [exact E1|]. destruct S as (_ & _ & S & G & _). split; [exact G|].
  clear -S. induction S as [|l l' ls ls' (_ & _ & A & _) S IH]; constructor; [|exact IH].
  destruct l, l'; cbn in *; try contradiction; [destruct A as (q & ->)|destruct A as (q & ->)|destruct A as (q & ->)|rewrite A]; cbn; auto 10.
Qed.

Lemma training_undisturbed bm run : relu_agrees F -> forall n : network F, net_ok n -> layers n <> [] ->
  Forall (fun '(zs, (x, g)) => Forall wf zs /\ shaped x (net_input_shape n) /\ wf g) run ->
  outcome (fun a b => fst b = fst a) (history bm n (without_evaluations run)) (history bm n (with_evaluations run)).
Proof.
  intros RA. induction run as [|(zs & (x & g)) run IH]; intros n N NE H; [cbn; auto|]. apply Forall_cons_iff in H. destruct H as ((Wz & Sx & Wg) & Hr).
  destruct (evaluate bm n zs RA N Wz) as (m & rs & E & S). destruct (stage_infer bm n m x RA S NE Sx) as (n1 & E1 & E2 & (_ & N1 & S1 & _ & I1 & _)).
  unfold with_evaluations, without_evaluations. cbn [flat_map]. rewrite <- app_assoc, !history_app, E. cbn [bind]. fold (with_evaluations run) (without_evaluations run).
  cbn [app history run_op]. rewrite E1, E2. cbn [bind]. destruct (net_backward bm n1 g) as [(n2 & r2)|p] eqn:EB; cbn [bind]; [|cbn; reflexivity].
  pose proof (net_backward_ok bm n1 g n2 r2 N1 Wg EB) as N2. pose proof (net_backward_kept _ _ _ _ _ EB) as (K2 & _ & I2 & _).
  assert (NE2 : layers n2 <> []).
  { intros Q. rewrite Q in K2. destruct (layers n1) eqn:Q1; [inversion S1; congruence|discriminate]. }
  specialize (IH n2 N2 NE2). rewrite I2, I1 in IH. specialize (IH Hr).
  destruct (history bm n2 (without_evaluations run)) as [(n3 & rs3)|], (history bm n2 (with_evaluations run)) as [(n3' & rs3')|]; cbn [outcome bind fst snd] in *; try contradiction; [|exact IH].
  exact IH.
Qed.
End Any.
