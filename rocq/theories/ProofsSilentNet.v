(** * Proofs for C98: units that did not fire, in a network *)
From Coq Require Import ZifyBool ZifyNat ZifyN.
From Flocq Require Import Core IEEE754.Binary IEEE754.Bits.
From Verif Require Import Base Arith Helper Tensor Convolution Network Bincode Serial Float32 Float32Facts Spec SpecLayer SpecNet SpecModes SpecTrain SpecSparse SpecOpposed SpecSilent SpecMemory.
From Verif Require Import Loops TensorFacts OpsFacts ProofsTensor ProofsConv ProofsFloat Layout LayerFacts BackFacts NetFacts NetRun NetBack ProofsLayer RealGrad ProofsDense ProofsSparse ProofsOpposite ProofsOpposed ProofsMemory Lockstep ProofsSilent.
Local Open Scope N_scope.
Ltac Zify.zify_post_hook ::= Z.div_mod_to_equations.

Section Any.
Context {F : Type} {AR : Arith F}.
Notation T := (tensor F).

Lemma infer_shape bm (n n1 : network F) (X : T) : infer bm n X = Done (n1, Ok tt) -> tshape X = net_input_shape n.
Proof. unfold infer, get_shape. destruct (shape_eqb_spec (tshape X) (net_input_shape n)) as [E|E]; [auto|discriminate]. Qed.

Lemma backward_shape bm (n n1 : network F) (G : T) : net_backward bm n G = Done (n1, Ok tt) -> tshape G = net_output_shape n.
Proof. unfold net_backward, get_shape. destruct (shape_eqb_spec (tshape G) (net_output_shape n)) as [E|E]; [auto|discriminate]. Qed.

(** Runs that succeeded are the runs of [round_trace_at]. *)
Lemma round_of bm (n n1 n2 : network F) (X G : T) i0 l0 : relu_agrees F -> net_ok n -> in_training n -> nth_error (layers n) i0 = Some l0 ->
  Forall stays_inside (layers n) -> Forall backs (layers n) -> wf X -> wf G ->
  infer bm n X = Done (n1, Ok tt) -> net_backward bm n1 G = Done (n2, Ok tt) ->
  shaped X (net_input_shape n) /\ shaped G (net_output_shape n)
  /\ nth_error (intermediate_states n1) 0 = Some X /\ nth_error (intermediate_gradients n2) (length (layers n)) = Some G
  /\ map ident (layers n2) = map ident (layers n)
  /\ forall i l0, nth_error (layers n) i = Some l0 -> round_at bm n n2 (intermediate_states n1) (intermediate_gradients n2) i l0.
Proof.
  intros RA On Tn Nl NC Bk WX WG E1 E2. assert (NE : layers n <> []) by (intros Q; rewrite Q in Nl; destruct i0; discriminate).
  assert (SX : shaped X (net_input_shape n)) by (split; [exact WX|eapply infer_shape; exact E1]).
  pose proof (infer_kept _ _ _ _ _ E1) as (_ & _ & _ & KO & _).
  assert (SG : shaped G (net_output_shape n)) by (split; [exact WG|rewrite <- KO; eapply backward_shape; exact E2]).
  split; [exact SX|]. split; [exact SG|].
  destruct (round_trace_at bm n X G RA On Tn NE NC Bk SX SG) as (m1 & m2 & F1 & F2 & H). rewrite E1 in F1. injection F1 as <-. rewrite E2 in F2. injection F2 as <-. exact H.
Qed.

Lemma cell_value bm (t : T) s i j k v : shaped t s -> in_shape s i j k -> get_item bm t (mkIndex i j k) = Done v -> val t i j k = v.
Proof. intros S H E. pose proof (shaped_eq _ _ S) as (A & Q). rewrite Q, get_item_of_fun in E by assumption. injection E as <-. reflexivity. Qed.

End Any.

Section Silent.
Context (e : env).
#[local] Hint Extern 0 (Arith f32) => exact (f32_arith e) : typeclass_instances.
#[local] Hint Extern 0 (Arith binary32) => exact (f32_arith e) : typeclass_instances.
Notation AR := (f32_arith e).
Notation T := (tensor f32).

Lemma unit_value bm (ts : list T) i t s u v : @cell_of AR bm ts i (mkIndex u 0 0) v -> nth_error ts i = Some t -> shaped t s -> in_shape s u 0 0 -> @val f32 AR t u 0 0 = v.
Proof. intros (t' & N1 & E) N2 S H. rewrite N1 in N2. injection N2 as <-. eapply (@cell_value f32 AR); eassumption. Qed.

(** ** The stored gradients of a unit that did not fire *)
Lemma idle_step bm (n n1 n2 : network f32) (X G : T) i f u M k wg bg :
  net_ok n -> in_training n -> Forall (@stays_inside f32) (layers n) -> Forall (@backs f32) (layers n) -> wf X -> wf G ->
  infer bm n X = Done (n1, Ok tt) -> net_backward bm n1 G = Done (n2, Ok tt) -> @silent AR bm n1 n2 i u ->
  (forall t, nth_error (intermediate_states n1) i = Some t -> Forall finite (data t)) ->
  nth_error (layers n) i = Some (LFC f) -> u < M ->
  @holds f32 AR bm (fc_weights_gradients f) (mkShape M k 1) wg -> @holds f32 AR bm (fc_bias_gradients f) (mkShape M 1 1) bg ->
  exists f2 wg2 bg2, nth_error (layers n2) i = Some (LFC f2)
    /\ @holds f32 AR bm (fc_weights_gradients f2) (mkShape M k 1) wg2 /\ @holds f32 AR bm (fc_bias_gradients f2) (mkShape M 1 1) bg2
    /\ (forall q, q < k -> wg u q 0 <> neg_zero -> same (wg2 u q 0) (wg u q 0) /\ wg2 u q 0 <> neg_zero)
    /\ (bg u 0 0 <> neg_zero -> same (bg2 u 0 0) (bg u 0 0) /\ bg2 u 0 0 <> neg_zero).
Proof.
  intros On Tn NC Bk WX WG E1 E2 (Z1 & v & Z2 & Fv) Fx Nf Hu Hwg Hbg.
  destruct (@round_of f32 AR bm n n1 n2 X G i (LFC f) (f32_relu_agrees e) On Tn Nf NC Bk WX WG E1 E2) as (_ & _ & _ & _ & _ & Rd).
  destruct (Rd i (LFC f) Nf) as (l1 & l2 & x & y0 & y & g & og0 & og & N2 & Nx & Ny & No & Ng & Sx & Sy0 & Sg & So & EF & EB). clear Rd.
  pose proof On as (_ & Lo & _). pose proof (Forall_nth _ _ _ _ Lo Nf) as (m & k0 & O). pose proof Tn as (_ & Md & _). pose proof (Forall_nth _ _ _ _ Md Nf) as Rs.
  cbn [get_run_mode get_input_shape get_output_shape] in *. pose proof O as (Hw & Hb & Ht). destruct (Ht Rs) as (T1 & _ & T3 & _).
  unfold fc_input_shape, fc_output_shape, get_shape in *. rewrite (proj2 Hw) in *. rewrite (proj2 Hb) in *. cbn [dj] in *.
  pose proof (proj2 (holds_shaped _ _ _ _ Hwg)) as Q. rewrite (proj2 T1) in Q. injection Q as -> ->.
  cbn [forward] in EF. unfold lift3 in EF. apply bind_done in EF. destruct EF as (((f1 & tEF) & rEF) & EF & QEF). injection QEF as <- -> ->. cbn [backward] in EB. unfold lift3 in EB. apply bind_done in EB. destruct EB as (((f2 & tEB) & rEB) & EB & QEB). injection QEB as <- -> ->.
  pose proof (fc_round e bm f f1 M k x y0 y g og0 O Rs Sx Sy0 Sg So EF) as (_ & Ey & Eb).
  assert (Sy : shaped y (mkShape M 1 1)) by (rewrite Ey; apply shaped_of_fun; apply (@shaped_eq f32 AR _ _ Sy0)).
  pose proof (fc_idle e bm f f1 M k x y0 y g og0 O Rs Sx Sy0 Sg So EF u f2 og Hu) as Q. destruct Q as (Q1 & Q2).
  - eapply unit_value; [exact Z1|exact Ny|exact Sy|apply in_column; exact Hu].
  - rewrite (unit_value _ _ _ _ _ _ _ Z2 Ng Sg (in_column _ _ Hu)). exact Fv.
  - intros q Hq. specialize (Fx x Nx). rewrite Forall_forall in Fx. apply Fx. unfold val. apply nth_In.
    pose proof (shaped_len _ _ Sx) as L. unfold len, volume in L. rewrite (proj2 Sx). unfold flat. cbn [di dj dk] in *. lia.
  - exact EB.
  - rewrite Eb in EB. injection EB as <- _.
    exists (@fc_after f32 AR M k f1 (@val f32 AR x) (@val f32 AR g)). do 2 eexists. split; [exact N2|].
    split; [apply shaped_holds, shaped_of_fun; apply (@shaped_eq f32 AR _ _ T1)|]. split; [apply shaped_holds, shaped_of_fun; apply (@shaped_eq f32 AR _ _ T3)|].
    assert (Wg : forall q, q < k -> wg u q 0 = @val f32 AR (fc_weights_gradients f) u q 0).
    { intros q Hq. apply (@holds_fun f32 AR bm _ _ _ _ Hwg (shaped_holds bm _ _ T1)). repeat split; cbn; lia. }
    assert (Bg : bg u 0 0 = @val f32 AR (fc_bias_gradients f) u 0 0) by (apply (@holds_fun f32 AR bm _ _ _ _ Hbg (shaped_holds bm _ _ T3)); apply in_column; exact Hu).
    split; [intros q Hq; rewrite Wg by exact Hq; apply Q1; exact Hq|]. rewrite Bg. exact Q2.
Qed.

Lemma session_idle bm i u (n m : network f32) samples : @silent_session AR bm i u n samples m -> forall f M k wg bg,
  training_built bm n -> Forall (@stays_inside f32) (layers n) -> Forall (@backs f32) (layers n) ->
  Forall (fun a : T * T => wf (fst a) /\ wf (snd a)) samples -> nth_error (layers n) i = Some (LFC f) -> u < M ->
  @holds f32 AR bm (fc_weights_gradients f) (mkShape M k 1) wg -> @holds f32 AR bm (fc_bias_gradients f) (mkShape M 1 1) bg ->
  (forall q, q < k -> wg u q 0 <> neg_zero) -> bg u 0 0 <> neg_zero ->
  exists f2 wg2 bg2, nth_error (layers m) i = Some (LFC f2)
    /\ @holds f32 AR bm (fc_weights_gradients f2) (mkShape M k 1) wg2 /\ @holds f32 AR bm (fc_bias_gradients f2) (mkShape M 1 1) bg2
    /\ (forall q, q < k -> equal (wg2 u q 0) (wg u q 0)) /\ equal (bg2 u 0 0) (bg u 0 0).
Proof.
  induction 1 as [n|n x g rest n1 n2 n3 E1 E2 Si Fi _ IH]; intros f M k wg bg B NC Bk W Nf Hu Hwg Hbg Zw Zb.
  - exists f, wg, bg. split; [exact Nf|]. split; [exact Hwg|]. split; [exact Hbg|]. split; [intros; apply same_refl|apply same_refl].
  - inversion W as [|? ? (Wx & Wg) W' Eq]; subst. cbn [fst snd] in *.
    pose proof (built_ok bm n (f32_relu_agrees e) (training_built_well bm n B)) as On. pose proof (training_built_in bm n (f32_relu_agrees e) B) as Tn.
    destruct (idle_step bm n n1 n2 x g i f u M k wg bg On Tn NC Bk Wx Wg E1 E2 Si Fi Nf Hu Hwg Hbg) as (f2 & wg2 & bg2 & N2 & H1 & H2 & Q1 & Q2).
    assert (B1 : training_built bm n1) by (apply (SpecNet.train_step bm n (OInfer x) n1 (Ok tt)); [exact B|exact Wx|discriminate|exact E1]).
    assert (B2 : training_built bm n2) by (apply (SpecNet.train_step bm n1 (OBackward g) n2 (Ok tt)); [exact B1|exact Wg|discriminate|exact E2]).
    destruct (@round_of f32 AR bm n n1 n2 x g i (LFC f) (f32_relu_agrees e) On Tn Nf NC Bk Wx Wg E1 E2) as (_ & _ & _ & _ & I2 & _).
    assert (P2 : map params_of (layers n2) = map params_of (layers n)) by apply (ident_split _ _ I2).
    destruct (IH f2 M k wg2 bg2 B2) as (f3 & wg3 & bg3 & N3 & H3 & H4 & Q3 & Q4); try assumption.
    + eapply Forall_params; [|exact P2|exact NC]; intros; eapply back_params; eassumption.
    + eapply Forall_params; [|exact P2|exact Bk]; intros; eapply back_params; eassumption.
    + intros q Hq. apply Q1; [exact Hq|apply Zw; exact Hq].
    + apply Q2. exact Zb.
    + exists f3, wg3, bg3. split; [exact N3|]. split; [exact H3|]. split; [exact H4|]. split.
      * intros q Hq. eapply same_trans; [apply Q3; exact Hq|]. apply Q1; [exact Hq|apply Zw; exact Hq].
      * eapply same_trans; [exact Q4|]. apply Q2. exact Zb.
Qed.

End Silent.
