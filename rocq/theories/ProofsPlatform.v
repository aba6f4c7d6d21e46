(** * C102: what the platform may choose does not show *)
From Coq Require Import Reals Lra ZifyBool ZifyNat ZifyN.
From Flocq Require Import IEEE754.Binary IEEE754.BinarySingleNaN.
From Verif Require Import Base Arith Helper Tensor Convolution Network Bincode Serial Spec SpecLayer SpecNet SpecPlatform ProofsFree.
From Verif Require Import Float32 Float32Facts NetFacts ProofsNet ProofsStates.

Lemma same_gtb x x' y y' : same x x' -> same y y' -> f32_gtb x' y' = f32_gtb x y.
Proof.
  intros [<-|(H & H')] [<-|(K & K')]; try reflexivity; unfold f32_gtb; rewrite ?(cmp_nan_l _ _ H), ?(cmp_nan_l _ _ H'), ?(cmp_nan_r _ _ K), ?(cmp_nan_r _ _ K'); reflexivity.
Qed.

Lemma mul_nan_l e x y : isnan x = true -> isnan (f32_mul e x y) = true.
Proof. destruct x; try discriminate. intros _. unfold f32_mul, Bmult. destruct y; apply isnan_build_nan. Qed.
Lemma mul_nan_r e x y : isnan y = true -> isnan (f32_mul e x y) = true.
Proof. destruct y; try discriminate. intros _. unfold f32_mul, Bmult. destruct x; apply isnan_build_nan. Qed.
Lemma div_nan_l e x y : isnan x = true -> isnan (f32_div e x y) = true.
Proof. destruct x; try discriminate. intros _. unfold f32_div, Bdiv. destruct y; apply isnan_build_nan. Qed.
Lemma div_nan_r e x y : isnan y = true -> isnan (f32_div e x y) = true.
Proof. destruct y; try discriminate. intros _. unfold f32_div, Bdiv. destruct x; apply isnan_build_nan. Qed.

Lemma mul_same e1 e2 x x' y y' : same x x' -> same y y' -> same (f32_mul e1 x y) (f32_mul e2 x' y').
Proof.
  intros [->|[Hx Hx']] [->|[Hy Hy']]; [apply BSN2B_same| | |]; right; split; first [apply mul_nan_l; assumption|apply mul_nan_r; assumption].
Qed.

Lemma div_same e1 e2 x x' y y' : same x x' -> same y y' -> same (f32_div e1 x y) (f32_div e2 x' y').
Proof.
  intros [->|[Hx Hx']] [->|[Hy Hy']]; [apply BSN2B_same| | |]; right; split; first [apply div_nan_l; assumption|apply div_nan_r; assumption].
Qed.

(** Accumulators start at +0.0 and never become -0.0; for them [max] with 0.0 is not ambiguous. *)
Definition accum (x x' : f32) : Prop := same x x' /\ x <> neg_zero /\ x' <> neg_zero.

Lemma accum_max e1 e2 x x' : accum x x' -> same (f32_max e1 x f32_zero) (f32_max e2 x' f32_zero).
Proof.
  intros ([<-|(H & H')] & N1 & N2).
  - left. rewrite !max_relu by assumption. reflexivity.
  - left. unfold f32_max. rewrite H, H'. reflexivity.
Qed.

Section Platform.
Context (e1 e2 : env) (SE : same_exp e1 e2) (bm : build).
Notation A1 := (f32_arith e1).
Notation A2 := (f32_arith e2).
Notation like := (like_net same_bits).

Lemma exp_same x x' : same x x' -> same (env_exp e1 x) (env_exp e2 x').
Proof. destruct SE as (E & K). intros [<-|(H & H')]; [left; apply E|]. right. rewrite <- E. auto. Qed.

Lemma same_tensor (t : tensor f32) : like_tensor same_bits t t.
Proof. destruct t. constructor. apply Forall2_refl. intros; left; reflexivity. Qed.

Lemma same_tensors (l : list (tensor f32)) : Forall2 (like_tensor same_bits) l l.
Proof. apply Forall2_refl, same_tensor. Qed.

Lemma same_layer (l : layer f32) : like_layer same_bits l l.
Proof. destruct l as [[]|[]| |[]]; constructor; try apply same_tensors; apply same_tensor. Qed.

Lemma same_net (n : network f32) : like n n.
Proof. destruct n. constructor; try apply same_tensors. apply Forall2_refl, same_layer. Qed.

Ltac free := first [left; reflexivity | exact same_gtb | exact exp_same | apply add_same; assumption | apply mul_same; assumption | apply div_same; assumption].

Lemma add_accum x x' y y' : accum x x' -> same y y' -> accum (f32_add e1 x y) (f32_add e2 x' y').
Proof. intros (S & N1 & N2) Sy. split; [apply add_same; assumption|]. split; apply add_not_neg_zero; assumption. Qed.

Lemma zero_accum : accum f32_zero f32_zero.
Proof. split; [left; reflexivity|]. split; discriminate. Qed.

Lemma add_layer_like n n' l l' : like n n' -> like_layer same_bits l l' ->
  outcome (both like eq) (@add_layer bm _ A1 n l) (@add_layer bm _ A2 n' l').
Proof. apply (@o_add_layer _ _ A1 A2). left; reflexivity. Qed.

Lemma infer_like n n' x x' : like n n' -> like_tensor same_bits x x' -> outcome (both like eq) (@infer bm _ A1 n x) (@infer bm _ A2 n' x').
Proof.
  apply (@o_infer _ _ A1 A2 bm same_bits accum); try (left; reflexivity); try exact same_gtb; try exact exp_same; try exact zero_accum; try exact add_accum.
  - intros. apply add_same; assumption.
  - intros. apply mul_same; assumption.
  - intros. apply div_same; assumption.
  - intros ? ? H. apply H.
  - apply accum_max.
Qed.

Lemma backward_like n n' x x' : like n n' -> like_tensor same_bits x x' -> outcome (both like eq) (@net_backward bm _ A1 n x) (@net_backward bm _ A2 n' x').
Proof.
  apply (@o_net_backward _ _ A1 A2 bm same_bits accum); try (left; reflexivity); try exact zero_accum; try exact add_accum.
  - intros. apply add_same; assumption.
  - intros. apply mul_same; assumption.
  - intros ? ? H. apply H.
Qed.

Lemma load_like n n' fs name : like n n' -> outcome (both like eq) (@network_load bm _ A1 f32_bits n fs name) (@network_load bm _ A2 f32_bits n' fs name).
Proof.
  intros H. unfold network_load. destruct (fs name) as [content|]; [|split; [exact H|reflexivity]].
  destruct (deserialize dec_network content) as [sn|]; [|split; [exact H|reflexivity]].
  unfold populate_network. apply o_tryM; [exact H|]. clear H n n'. intros s n n' H.
  assert (G : forall X (c : X -> layer f32) (r : res (X * result unit)), outcome (both like eq) (@load_and_add bm _ A1 X c r n) (@load_and_add bm _ A2 X c r n')).
  { intros X c r. unfold load_and_add. apply o_pure. intros [l [u|msg]] _; [|split; [exact H|reflexivity]]. apply add_layer_like; [exact H|apply same_layer]. }
  destruct s; unfold add_to_network; apply G.
Qed.

Lemma step_like n n' op op' : like n n' -> like_op same_bits op op' ->
  outcome (like_answer same_bits) (@run_op _ A1 f32_bits bm n op) (@run_op _ A2 f32_bits bm n' op').
Proof.
  intros H O.
  assert (G : outcome (both like eq) (@run_op _ A1 f32_bits bm n op) (@run_op _ A2 f32_bits bm n' op')).
  { destruct O; cbn [run_op].
    - apply add_layer_like; assumption.
    - apply load_like, H.
    - apply infer_like; assumption.
    - apply backward_like; assumption.
    - eapply o_bind; [apply (@o_train _ _ A1 A2 bm same_bits (or_introl eq_refl)), H|]. intros. split; [assumption|reflexivity].
    - eapply o_bind; [apply (@o_inference _ _ A1 A2 bm same_bits (or_introl eq_refl)), H|]. intros. split; [assumption|reflexivity]. }
  eapply o_weak; [exact G|]. intros [] [] (Q1 & Q2). split; [exact Q1|symmetry; exact Q2].
Qed.

Lemma history_like ops ops' : Forall2 (like_op same_bits) ops ops' -> forall n n', like n n' ->
  outcome (fun a a' => like (fst a) (fst a') /\ snd a' = snd a) (@history _ A1 f32_bits bm n ops) (@history _ A2 f32_bits bm n' ops').
Proof.
  induction 1 as [|op op' ops ops' Ho _ IH]; intros n n' H; cbn [history]; [split; [exact H|reflexivity]|].
  eapply o_bind; [apply step_like; eassumption|]. intros [n1 r] [n1' r'] (H1 & E). cbn [fst snd] in *. subst r'.
  eapply o_bind; [apply IH, H1|]. intros [n2 rs] [n2' rs'] (H2 & E). cbn [fst snd] in *. subst rs'. split; [exact H2|reflexivity].
Qed.

Lemma history_same st ops :
  outcome (fun a a' => like (fst a) (fst a') /\ snd a' = snd a) (@history _ A1 f32_bits bm (network_new st) ops) (@history _ A2 f32_bits bm (network_new st) ops).
Proof.
  apply history_like; [|apply same_net]. apply Forall2_refl. intros [| | | | |]; constructor; try apply same_layer; apply same_tensor.
Qed.

Lemma state_same n n' X X' m i l t : @well_built _ A1 f32_bits bm n -> like n n' -> wf X -> like_tensor same_bits X X' ->
  @infer bm _ A1 n X = Done (m, Ok tt) -> nth_error (layers n) (N.to_nat i) = Some l -> match l with LSoftmax _ => False | _ => True end ->
  get_intermediate_state m (i + 1) = Done (Ok t) ->
  exists m', @infer bm _ A2 n' X' = Done (m', Ok tt) /\ get_intermediate_state m' (i + 1) = Done (Ok t).
Proof.
  intros B H WX HX E Nl S G. pose proof (infer_like _ _ _ _ H HX) as Q. rewrite E in Q.
  destruct (@infer bm _ A2 n' X') as [[m' r]|p]; [|destruct Q]. destruct Q as (Hm & Er). cbn [fst snd] in *. subst r.
  exists m'. split; [reflexivity|].
  assert (NN : forall v, In v (data t) -> isnan v = false).
  { intros v Hv. pose proof (built_clean e1 bm n X m i l t v B WX E Nl G Hv) as C. destruct l; tauto. }
  unfold get_intermediate_state in *. destruct Hm as [ls ls' s s' g g' ins outs st Hl Hs Hg]. cbn [intermediate_states] in *. rewrite (o_len _ _ _ Hs).
  destruct (len s <=? i + 1); [discriminate|]. pose proof (o_vget _ _ _ (i + 1) Hs) as V.
  destruct (vget s (i + 1)) as [u|]; [|discriminate]. cbn [bind] in G. injection G as ->.
  destruct (vget s' (i + 1)) as [u'|]; [|destruct V]. cbn in V. cbn [bind]. f_equal. f_equal. destruct V as [st0 sh d d' Hd]. f_equal.
  clear - Hd NN. cbn [data] in NN. induction Hd as [|a b d d' Hab _ IH]; [reflexivity|]. f_equal; [|apply IH; intros; apply NN; right; assumption].
  destruct Hab as [->|(K & _)]; [reflexivity|]. rewrite NN in K by (left; reflexivity). discriminate.
Qed.

(** ** Files *)
Definition saved (n n' : network f32) : Prop := new_from_network n' = new_from_network n.

Lemma add_layer_saved e n l n1 r : @add_layer bm _ (f32_arith e) n l = Done (n1, r) ->
  new_from_network n1 = (new_from_network n ++ match r with Ok _ => [get_serialized l] | Err _ => [] end)%list.
Proof.
  intros H. apply add_layer_done in H. destruct H as [(-> & _ & l' & ss & L & I & _)|(Er & -> & _)].
  - unfold new_from_network. rewrite L, map_app. cbn [map]. injection I as P Nm _. rewrite (serialized_params _ _ P Nm). reflexivity.
  - destruct r; [destruct Er as (? & E); discriminate|]. rewrite app_nil_r. reflexivity.
Qed.

Lemma o_know {A A'} (R : A -> A' -> Prop) x x' : outcome R x x' -> outcome (fun a a' => R a a' /\ x = Done a /\ x' = Done a') x x'.
Proof. destruct x, x'; cbn; auto. Qed.

Lemma load_saved n n' fs name : like n n' -> saved n n' ->
  outcome (both (fun n n' => like n n' /\ saved n n') eq) (@network_load bm _ A1 f32_bits n fs name) (@network_load bm _ A2 f32_bits n' fs name).
Proof.
  intros H S. unfold network_load. destruct (fs name) as [content|]; [|split; [split; assumption|reflexivity]].
  destruct (deserialize dec_network content) as [sn|]; [|split; [split; assumption|reflexivity]].
  unfold populate_network. apply o_tryM; [split; assumption|]. clear H S n n'. intros s n n' (H & S).
  assert (G : forall X (c : X -> layer f32) (r : res (X * result unit)),
    outcome (both (fun n n' => like n n' /\ saved n n') eq) (@load_and_add bm _ A1 X c r n) (@load_and_add bm _ A2 X c r n')).
  { intros X c r. unfold load_and_add. apply o_pure. intros [l [u|msg]] _; [|split; [split; assumption|reflexivity]].
    eapply o_weak; [apply o_know, add_layer_like; [exact H|apply same_layer]|].
    intros [n1 r1] [n1' r1'] ((L & E) & E1 & E2). cbn [fst snd] in *. subst r1'. split; [|reflexivity]. split; [exact L|]. cbn [fst] in *.
    unfold saved in *. rewrite (add_layer_saved _ _ _ _ _ E1), (add_layer_saved _ _ _ _ _ E2), S. reflexivity. }
  destruct s; unfold add_to_network; apply G.
Qed.

Lemma history_saved ops : forall n n', like n n' -> saved n n' ->
  outcome (fun a a' => saved (fst a) (fst a')) (@history _ A1 f32_bits bm n ops) (@history _ A2 f32_bits bm n' ops).
Proof.
  induction ops as [|op ops IH]; intros n n' H S; cbn [history]; [exact S|].
  assert (O : like_op same_bits op op) by (destruct op; constructor; try apply same_layer; apply same_tensor).
  eapply (o_bind (fun a a' => like (fst a) (fst a') /\ saved (fst a) (fst a'))).
  - destruct op as [l|fs name|x|g| |].
    2:{ eapply o_weak; [apply load_saved; assumption|]. intros a a' (Q & _). exact Q. }
    all: eapply o_weak; [apply o_know, step_like; eassumption|].
    all: intros [n1 r1] [n1' r1'] ((L & E) & E1 & E2); cbn [fst snd] in *; subst r1'; split; [exact L|]; unfold saved in *.
    1: rewrite (add_layer_saved _ _ _ _ _ E1), (add_layer_saved _ _ _ _ _ E2), S; reflexivity.
    all: destruct (run_op_params _ _ _ _ _ E1 Logic.I) as (P1 & N1); destruct (run_op_params _ _ _ _ _ E2 Logic.I) as (P2 & N2);
      rewrite (new_from_params _ _ P1 N1), (new_from_params _ _ P2 N2); exact S.
  - intros [n1 r1] [n1' r1'] (L & S1). cbn [fst] in *. eapply o_bind; [apply IH; eassumption|]. intros [n2 rs] [n2' rs'] S2. exact S2.
Qed.

Lemma history_file st ops h :
  outcome (fun a a' => to_byte_array h (new_from_network (fst a')) = to_byte_array h (new_from_network (fst a)))
    (@history _ A1 f32_bits bm (network_new st) ops) (@history _ A2 f32_bits bm (network_new st) ops).
Proof. eapply o_weak; [apply history_saved; [apply same_net|reflexivity]|]. intros a a' E. unfold saved in E. rewrite E. reflexivity. Qed.

End Platform.
