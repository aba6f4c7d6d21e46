(** * Proofs for C98: the weights of a unit that did not fire do not matter *)
From Coq Require Import ZifyBool ZifyNat ZifyN.
From Flocq Require Import Core IEEE754.Binary IEEE754.Bits.
From Verif Require Import Base Arith Helper Tensor Convolution Network Bincode Serial Float32 Float32Facts Spec SpecLayer SpecNet SpecModes SpecTrain SpecSparse SpecOpposed SpecSilent SpecMemory.
From Verif Require Import Loops TensorFacts OpsFacts ProofsTensor ProofsConv ProofsFloat Layout LayerFacts BackFacts NetFacts NetRun NetBack ProofsLayer RealGrad ProofsDense ProofsSparse ProofsOpposite ProofsOpposed ProofsMemory Lockstep ProofsSilent ProofsSilentNet.
Local Open Scope N_scope.
Ltac Zify.zify_post_hook ::= Z.div_mod_to_equations.

Section Twin.
Context (e : env).
#[local] Hint Extern 0 (Arith f32) => exact (f32_arith e) : typeclass_instances.
#[local] Hint Extern 0 (Arith binary32) => exact (f32_arith e) : typeclass_instances.
Notation AR := (f32_arith e).
Notation T := (tensor f32).

Lemma equal_mul c x x' : equal x x' -> equal (f32_mul e c x) (f32_mul e c x') /\ equal (f32_mul e x c) (f32_mul e x' c).
Proof.
  intros [->|(A & B)]; [split; left; reflexivity|]. split; right; split; first [apply mul_nan_l; assumption|apply mul_nan_r; assumption].
Qed.

Definition eq_rfun := @rfun f32 equal.

Lemma equal_fold {A} (f g : A -> f32) l : (forall a, In a l -> equal (f a) (g a) \/ zero (f a) /\ zero (g a)) ->
  equal (@sum f32 AR (map f l)) (@sum f32 AR (map g l)).
Proof. intros H. apply (fold_zeros e f g l H); try exact zero_not_neg. apply same_refl. Qed.

(** ** The layer that differs *)
Lemma fc_twin bm (f f' f1 f1' f2 f2' : fc_layer f32) m n u (x y0 y0' y y' g g' og0 og0' og og' : T) :
  fc_ok m n f -> fc_ok m n f' -> fc_run_state f = Training -> fc_run_state f' = Training ->
  shaped x (mkShape n 1 1) -> shaped y0 (mkShape m 1 1) -> shaped y0' (mkShape m 1 1) -> shaped g (mkShape m 1 1) -> shaped g' (mkShape m 1 1) ->
  shaped og0 (mkShape n 1 1) -> shaped og0' (mkShape n 1 1) ->
  fc_forward bm f x y0 = Done (f1, y, Ok tt) -> fc_forward bm f' x y0' = Done (f1', y', Ok tt) ->
  u < m -> (forall a q, a < m -> q < n -> a <> u -> val (fc_weights f') a q 0 = val (fc_weights f) a q 0) ->
  (forall a, a < m -> a <> u -> val (fc_bias f') a 0 0 = val (fc_bias f) a 0 0) ->
  (forall q, q < n -> finite (val (fc_weights f) u q 0) /\ finite (val (fc_weights f') u q 0)) ->
  val y u 0 0 = f32_zero -> val y' u 0 0 = f32_zero ->
  y' = y /\ fc_relu_mask f1' = fc_relu_mask f1
  /\ (finite (val g u 0 0) -> eq_rfun (mkShape m 1 1) (val g) (val g') ->
      fc_backward bm f1 x y g og0 = Done (f2, og, Ok tt) -> fc_backward bm f1' x y' g' og0' = Done (f2', og', Ok tt) ->
      related equal bm og og'
      /\ (related equal bm (fc_weights_gradients f) (fc_weights_gradients f') -> related equal bm (fc_weights_gradients f2) (fc_weights_gradients f2'))
      /\ (related equal bm (fc_bias_gradients f) (fc_bias_gradients f') -> related equal bm (fc_bias_gradients f2) (fc_bias_gradients f2'))).
Proof.
  intros O O' R R' Sx Sy0 Sy0' Sg Sg' So So' E E' Hu Ww Wb Wf Zy Zy'.
  destruct (fc_round e bm f f1 m n x y0 y g og0 O R Sx Sy0 Sg So E) as (F1 & Y1 & B1).
  destruct (fc_round e bm f' f1' m n x y0' y' g' og0' O' R' Sx Sy0' Sg' So' E') as (F1' & Y1' & B1').
  assert (Pz : forall a, a < m -> a <> u -> pre_activation n (val (fc_weights f')) (val (fc_bias f')) (val x) a = pre_activation n (val (fc_weights f)) (val (fc_bias f)) (val x) a).
  { intros a Ha Na. unfold pre_activation. rewrite (Wb a Ha Na). f_equal. f_equal. apply map_ext_in. intros q Hq. apply in_upto in Hq. rewrite (Ww a q Ha Hq Na). reflexivity. }
  assert (Ey : y' = y).
  { rewrite Y1', Y1. apply of_fun_ext. intros a j k Hin. apply column_in in Hin. destruct Hin as (Ha & -> & ->). destruct (N.eq_dec a u) as [->|Na].
    - rewrite Y1, val_of_fun in Zy by (apply in_column; exact Hu). rewrite Y1', val_of_fun in Zy' by (apply in_column; exact Hu). rewrite Zy, Zy'. reflexivity.
    - rewrite Pz by assumption. reflexivity. }
  assert (Em : fc_relu_mask f1' = fc_relu_mask f1).
  { rewrite F1, F1'. cbn [fc_set_mask fc_relu_mask]. apply of_fun_ext. intros a j k Hin. apply column_in in Hin. destruct Hin as (Ha & -> & ->). destruct (N.eq_dec a u) as [->|Na].
    - rewrite Y1, val_of_fun in Zy by (apply in_column; exact Hu). rewrite Y1', val_of_fun in Zy' by (apply in_column; exact Hu).
      rewrite (shut e _ Zy), (shut e _ Zy'). reflexivity.
    - rewrite Pz by assumption. reflexivity. }
  split; [exact Ey|]. split; [exact Em|]. intros Fg Rg H H'.
  pose proof (mask_shut e bm f f1 m n x y0 y g og0 O R Sx Sy0 Sg So E u Hu Zy) as Mu.
  rewrite B1 in H. injection H as <- <-. rewrite B1' in H'. injection H' as <- <-.
  assert (Ax : allocatable (mkShape n 1 1)) by apply (shaped_eq _ _ Sx). assert (Am : allocatable (mkShape m 1 1)) by apply (shaped_eq _ _ Sg).
  assert (Ew : fc_weights f1 = fc_weights f /\ fc_weights_gradients f1 = fc_weights_gradients f /\ fc_bias_gradients f1 = fc_bias_gradients f) by (rewrite F1; auto).
  assert (Ew' : fc_weights f1' = fc_weights f' /\ fc_weights_gradients f1' = fc_weights_gradients f' /\ fc_bias_gradients f1' = fc_bias_gradients f') by (rewrite F1'; auto).
  destruct Ew as (Ew & Eg & Eb), Ew' as (Ew' & Eg' & Eb').
  set (mk := val (fc_relu_mask f1)) in *. assert (Mg : forall a, a < m -> equal (f32_mul e (mk a 0 0) (val g a 0 0)) (f32_mul e (mk a 0 0) (val g' a 0 0))).
  { intros a Ha. apply equal_mul. apply Rg. apply in_column. exact Ha. }
  assert (Fg' : finite (val g' u 0 0)).
  { specialize (Rg u 0 0 (in_column _ _ Hu)). destruct Rg as [Q|(Q & _)]; [rewrite <- Q; exact Fg|]. unfold finite in Fg. destruct (val g u 0 0); discriminate. }
  split; [|split].
  - do 3 eexists. split; [apply holds_of_fun; exact Ax|]. split; [apply holds_of_fun; exact Ax|].
    intros p j k Hin. apply column_in in Hin. destruct Hin as (Hp & -> & ->). unfold fc_outgoing, mm_fn. rewrite Em, Ew, Ew'. fold mk. apply equal_fold.
    intros a Ha. apply in_upto in Ha. destruct (N.eq_dec a u) as [->|Na].
    + right. cbn [fmul f32_arith]. rewrite Mu. split.
      * apply (proj2 (zero_mul e _ _ (proj1 (zero_mul e _ _ f32_zero_zero Fg)) (proj1 (Wf p Hp)))).
      * apply (proj2 (zero_mul e _ _ (proj1 (zero_mul e _ _ f32_zero_zero Fg')) (proj2 (Wf p Hp)))).
    + left. rewrite (Ww a p Ha Hp Na). cbn [fmul f32_arith]. apply equal_mul. apply Mg. exact Ha.
  - intros (s & w1 & w1' & H1 & H1' & Q). pose proof O as (_ & _ & Ht). destruct (Ht R) as (T1 & _). pose proof (proj2 (holds_shaped _ _ _ _ H1)) as Es.
    rewrite (proj2 T1) in Es. subst s. pose proof O' as (_ & _ & Ht'). destruct (Ht' R') as (T1' & _).
    assert (Aw : allocatable (mkShape m n 1)) by apply (shaped_eq _ _ T1).
    unfold fc_after. cbn [fc_weights_gradients]. do 3 eexists. split; [apply holds_of_fun; exact Aw|]. split; [apply holds_of_fun; exact Aw|].
    intros a q k Hin. cbn beta. rewrite Em, Eg, Eg'. cbn [fadd f32_arith]. apply (add_same e e).
    + rewrite (holds_fun bm _ _ _ _ (shaped_holds bm _ _ T1) H1 a q k Hin), (holds_fun bm _ _ _ _ (shaped_holds bm _ _ T1') H1' a q k Hin). apply Q. exact Hin.
    + destruct Hin as (Ha & Hq & Hk). cbn [di dj dk] in *. assert (k = 0) by lia. subst k. fold mk. unfold mm_fn. apply equal_fold. intros r Hr. apply in_upto in Hr.
      assert (r = 0) by lia. subst r. left. cbn [fmul f32_arith]. apply equal_mul. apply Mg. exact Ha.
  - intros (s & w1 & w1' & H1 & H1' & Q). pose proof O as (_ & _ & Ht). destruct (Ht R) as (_ & _ & T1 & _). pose proof (proj2 (holds_shaped _ _ _ _ H1)) as Es.
    rewrite (proj2 T1) in Es. subst s. pose proof O' as (_ & _ & Ht'). destruct (Ht' R') as (_ & _ & T1' & _).
    unfold fc_after. cbn [fc_bias_gradients]. do 3 eexists. split; [apply holds_of_fun; exact Am|]. split; [apply holds_of_fun; exact Am|].
    intros a q k Hin. cbn beta. rewrite Em, Eb, Eb'. cbn [fadd f32_arith]. apply (add_same e e).
    + rewrite (holds_fun bm _ _ _ _ (shaped_holds bm _ _ T1) H1 a q k Hin), (holds_fun bm _ _ _ _ (shaped_holds bm _ _ T1') H1' a q k Hin). apply Q. exact Hin.
    + apply column_in in Hin. destruct Hin as (Ha & -> & ->). fold mk. apply Mg. exact Ha.
Qed.

(** ** The network around it *)
Lemma last_out_any (ls : list (layer f32)) d : ls <> [] -> last (map get_output_shape ls) d = last (boundaries ls) d.
Proof. destruct ls as [|l ls]; [congruence|reflexivity]. Qed.

Lemma net_twin bm (n n' n1 n1' n2 : network f32) (X G : T) i f f' u M k w w' b b' :
  training_built bm n -> training_built bm n' -> Forall (@stays_inside f32) (layers n) -> Forall (@backs f32) (layers n) -> wf X -> wf G ->
  length (layers n') = length (layers n) ->
  (forall j l l', j <> i -> nth_error (layers n) j = Some l -> nth_error (layers n') j = Some l' -> layer_related equal bm l l') ->
  nth_error (layers n) i = Some (LFC f) -> nth_error (layers n') i = Some (LFC f') -> u < M ->
  holds bm (fc_weights f) (mkShape M k 1) w -> holds bm (fc_weights f') (mkShape M k 1) w' -> holds bm (fc_bias f) (mkShape M 1 1) b -> holds bm (fc_bias f') (mkShape M 1 1) b' ->
  (forall a q, a < M -> q < k -> a <> u -> w' a q 0 = w a q 0) -> (forall a, a < M -> a <> u -> b' a 0 0 = b a 0 0) ->
  (forall q, q < k -> finite (w u q 0) /\ finite (w' u q 0)) ->
  related equal bm (fc_weights_gradients f) (fc_weights_gradients f') -> related equal bm (fc_bias_gradients f) (fc_bias_gradients f') ->
  infer bm n X = Done (n1, Ok tt) -> infer bm n' X = Done (n1', Ok tt) -> net_backward bm n1 G = Done (n2, Ok tt) ->
  silent bm n1 n2 i u -> cell_of bm (intermediate_states n1') (S i) (mkIndex u 0 0) f32_zero ->
  exists n2', net_backward bm n1' G = Done (n2', Ok tt)
    /\ intermediate_states n1' = intermediate_states n1
    /\ Forall2 (related equal bm) (intermediate_gradients n2) (intermediate_gradients n2')
    /\ (forall j l l', j <> i -> nth_error (layers n2) j = Some l -> nth_error (layers n2') j = Some l' -> layer_related equal bm l l')
    /\ exists f2 f2', nth_error (layers n2) i = Some (LFC f2) /\ nth_error (layers n2') i = Some (LFC f2')
         /\ related equal bm (fc_weights_gradients f2) (fc_weights_gradients f2') /\ related equal bm (fc_bias_gradients f2) (fc_bias_gradients f2').
Proof.
  intros B B' NC Bk WX WG Ln Rl Nf Nf' Hu Hw Hw' Hb Hb' Ww Wb Wf RW RB E1 E1' E2 (Z1 & v & Z2 & Fv) Z1'.
  pose proof (f32_relu_agrees e) as RA.
  pose proof (built_ok bm n RA (training_built_well bm n B)) as On. pose proof (training_built_in bm n RA B) as Tn.
  pose proof (built_ok bm n' RA (training_built_well bm n' B')) as On'. pose proof (training_built_in bm n' RA B') as Tn'.
  assert (Pair : forall j l', nth_error (layers n') j = Some l' -> exists l, nth_error (layers n) j = Some l).
  { intros j l' Nj. apply nth_error_Some_lt in Nj. destruct (nth_error (layers n) j) as [l|] eqn:Q; [eauto|]. apply nth_error_None in Q. lia. }
  assert (Pair' : forall j l, nth_error (layers n) j = Some l -> exists l', nth_error (layers n') j = Some l').
  { intros j l' Nj. apply nth_error_Some_lt in Nj. destruct (nth_error (layers n') j) as [l|] eqn:Q; [eauto|]. apply nth_error_None in Q. lia. }
  assert (Side : Forall (@stays_inside f32) (layers n') /\ Forall (@backs f32) (layers n')).
  { split; apply Forall_forall; intros l' Hin; apply In_nth_error in Hin; destruct Hin as (j & Nj); destruct (Pair j l' Nj) as (l & Nl);
      destruct (Nat.eq_dec j i) as [->|Nj'].
    1, 3: rewrite Nf' in Nj; injection Nj as <-; exact I.
    all: destruct (Rl j l l' Nj' Nl Nj) as (P & _); apply (back_params _ _ P).
    - exact (Forall_nth _ _ _ _ NC Nl).
    - exact (Forall_nth _ _ _ _ Bk Nl). }
  destruct Side as (NC' & Bk').
  assert (NE' : layers n' <> []) by (intros Q; rewrite Q in Nf'; destruct i; discriminate).
  destruct (@round_of f32 AR bm n n1 n2 X G i (LFC f) RA On Tn Nf NC Bk WX WG E1 E2) as (SX & SG & S0 & GL & I2 & Rd).
  (* the output shape is the same *)
  assert (Sh : forall j l l', nth_error (layers n) j = Some l -> nth_error (layers n') j = Some l' -> get_output_shape l' = get_output_shape l).
  { intros j l l' N1 N2. destruct (Nat.eq_dec j i) as [->|Nj].
    - rewrite Nf in N1. rewrite Nf' in N2. injection N1 as <-. injection N2 as <-. cbn [get_output_shape]. unfold fc_output_shape, get_shape.
      rewrite (proj2 (holds_shaped _ _ _ _ Hb)), (proj2 (holds_shaped _ _ _ _ Hb')). reflexivity.
    - destruct (Rl j l l' Nj N1 N2) as (P & _). clear - P. destruct l, l'; try discriminate P; cbn [params_of get_output_shape] in *; unfold fc_output_shape in *; injection P as; congruence. }
  assert (SX' : shaped X (net_input_shape n')) by (split; [exact WX|eapply infer_shape; exact E1']).
  assert (SG' : shaped G (net_output_shape n')).
  { split; [exact WG|]. rewrite (proj2 SG). pose proof On as ((_ & _ & H3 & _) & _). pose proof On' as ((_ & _ & H3' & _) & _).
    assert (NE : layers n <> []) by (intros Q; rewrite Q in Nf; destruct i; discriminate).
    rewrite H3, H3'. rewrite <- !(last_out_any _ (mkShape 0 0 0)) by assumption. f_equal. apply nth_error_eq. intros j. rewrite !nth_error_map.
    destruct (nth_error (layers n) j) as [l|] eqn:Q.
    - destruct (Pair' j l Q) as (l' & Q'). rewrite Q'. cbn [option_map]. rewrite (Sh j l l' Q Q'). reflexivity.
    - apply nth_error_None in Q. rewrite (proj2 (nth_error_None (layers n') j)) by lia. reflexivity. }
  destruct (@round_trace_at f32 AR bm n' X G RA On' Tn' NE' NC' Bk' SX' SG') as (m1 & n2' & F1 & E2' & S0' & GL' & I2' & Rd'). rewrite E1' in F1. injection F1 as <-.
  exists n2'. split; [exact E2'|].
  pose proof On as (_ & Lo & _). pose proof On' as (_ & Lo' & _). pose proof Tn as (_ & Md & _). pose proof Tn' as (_ & Md' & _).
  assert (R0 : equal f32_zero f32_zero) by (left; reflexivity).
  assert (RAd : forall x x' y y', equal x x' -> equal y y' -> equal (f32_add e x y) (f32_add e x' y')) by (intros; apply (add_same e e); assumption).
  set (st := intermediate_states n1) in *. set (st' := intermediate_states n1') in *.
  set (gr := intermediate_gradients n2) in *. set (gr' := intermediate_gradients n2') in *.
  set (alike := fun j => exists o o', nth_error gr j = Some o /\ nth_error gr' j = Some o' /\ related equal bm o o').
  set (after := fun j => (j <> i -> exists l2 l2', nth_error (layers n2) j = Some l2 /\ nth_error (layers n2') j = Some l2' /\ layer_related equal bm l2 l2')
    /\ (j = i -> exists f2 f2', nth_error (layers n2) i = Some (LFC f2) /\ nth_error (layers n2') i = Some (LFC f2')
         /\ related equal bm (fc_weights_gradients f2) (fc_weights_gradients f2') /\ related equal bm (fc_bias_gradients f2) (fc_bias_gradients f2'))).
  assert (Step : forall j l l', nth_error (layers n) j = Some l -> nth_error (layers n') j = Some l' -> nth_error st' j = nth_error st j ->
    nth_error st' (S j) = nth_error st (S j) /\ (alike (S j) -> alike j /\ after j)).
  { intros j l l' Nl Nl' Es. destruct (Rd j l Nl) as (l1 & l2 & x & y0 & y & g & og0 & og & N2 & Nx & Ny & No & Ng & Sx & Sy0 & Sg & So & EF & EB).
    destruct (Rd' j l' Nl') as (l1' & l2' & x' & y0' & y' & g' & og0' & og' & N2' & Nx' & Ny' & No' & Ng' & Sx' & Sy0' & Sg' & So' & EF' & EB').
    rewrite Nx, Nx' in Es. injection Es as ->.
    pose proof (Forall_nth _ _ _ _ Lo Nl) as Ol. pose proof (Forall_nth _ _ _ _ Lo' Nl') as Ol'. pose proof (Forall_nth _ _ _ _ Md Nl) as Ml. pose proof (Forall_nth _ _ _ _ Md' Nl') as Ml'.
    destruct (Nat.eq_dec j i) as [->|Nj].
    - rewrite Nf in Nl. injection Nl as <-. rewrite Nf' in Nl'. injection Nl' as <-. destruct Ol as (m & k0 & O). destruct Ol' as (m' & k0' & O').
      pose proof O as (Ow & Ob & _). pose proof O' as (Ow' & Ob' & _).
      pose proof (proj2 (holds_shaped _ _ _ _ Hw)) as Q. rewrite (proj2 Ow) in Q. injection Q as -> ->.
      pose proof (proj2 (holds_shaped _ _ _ _ Hw')) as Q. rewrite (proj2 Ow') in Q. injection Q as -> ->.
      cbn [get_run_mode get_input_shape get_output_shape] in *. unfold fc_input_shape, fc_output_shape, get_shape in *.
      rewrite (proj2 Ow) in *. rewrite (proj2 Ob) in *. rewrite (proj2 Ow') in *. rewrite (proj2 Ob') in *. cbn [dj] in *.
      cbn [forward] in EF, EF'. cbn [backward] in EB, EB'.
      unfold lift3 in EF. apply bind_done in EF. destruct EF as (((f1 & tEF) & rEF) & EF & Q). injection Q as <- -> ->.
      unfold lift3 in EF'. apply bind_done in EF'. destruct EF' as (((f1' & tEF') & rEF') & EF' & Q). injection Q as <- -> ->.
      unfold lift3 in EB. apply bind_done in EB. destruct EB as (((f2 & tEB) & rEB) & EB & Q). injection Q as <- -> ->.
      unfold lift3 in EB'. apply bind_done in EB'. destruct EB' as (((f2' & tEB') & rEB') & EB' & Q). injection Q as <- -> ->.
      assert (Sy : shaped y (mkShape M 1 1)).
      { rewrite (proj1 (proj2 (fc_round e bm f f1 M k x y0 y g og0 O Ml Sx Sy0 Sg So EF))). apply shaped_of_fun. apply (shaped_eq _ _ Sg). }
      assert (Sy' : shaped y' (mkShape M 1 1)).
      { rewrite (proj1 (proj2 (fc_round e bm f' f1' M k x y0' y' g' og0' O' Ml' Sx Sy0' Sg' So' EF'))). apply shaped_of_fun. apply (shaped_eq _ _ Sg). }
      pose proof (in_column _ _ Hu) as Iu.
      assert (Vw : forall a q, a < M -> q < k -> val (fc_weights f) a q 0 = w a q 0).
      { intros a q Ha Hq. apply (holds_fun bm _ _ _ _ (shaped_holds bm _ _ Ow) Hw). repeat split; cbn; lia. }
      assert (Vw' : forall a q, a < M -> q < k -> val (fc_weights f') a q 0 = w' a q 0).
      { intros a q Ha Hq. apply (holds_fun bm _ _ _ _ (shaped_holds bm _ _ Ow') Hw'). repeat split; cbn; lia. }
      assert (Vb : forall a, a < M -> val (fc_bias f) a 0 0 = b a 0 0).
      { intros a Ha. apply (holds_fun bm _ _ _ _ (shaped_holds bm _ _ Ob) Hb). apply in_column. exact Ha. }
      assert (Vb' : forall a, a < M -> val (fc_bias f') a 0 0 = b' a 0 0).
      { intros a Ha. apply (holds_fun bm _ _ _ _ (shaped_holds bm _ _ Ob') Hb'). apply in_column. exact Ha. }
      destruct (fc_twin bm f f' f1 f1' f2 f2' M k u x y0 y0' y y' g g' og0 og0' og og' O O' Ml Ml' Sx Sy0 Sy0' Sg Sg' So So' EF EF' Hu) as (Ey & _ & Q).
      + intros a q Ha Hq Na. rewrite Vw, Vw' by assumption. apply Ww; assumption.
      + intros a Ha Na. rewrite Vb, Vb' by assumption. apply Wb; assumption.
      + intros q Hq. rewrite Vw, Vw' by assumption. apply Wf; assumption.
      + eapply unit_value; [exact Z1|exact Ny|exact Sy|exact Iu].
      + eapply unit_value; [exact Z1'|exact Ny'|exact Sy'|exact Iu].
      + split; [congruence|]. intros (t & t' & Nt & Nt' & Rt). rewrite Ng in Nt. injection Nt as <-. rewrite Ng' in Nt'. injection Nt' as <-.
        destruct (related_to equal bm _ _ _ Rt Sg) as (_ & Rg).
        destruct Q as (Q1 & Q2 & Q3); [|exact Rg|exact EB|exact EB'|].
        { rewrite (unit_value e _ _ _ _ _ _ _ Z2 Ng Sg Iu). exact Fv. }
        split; [exists og, og'; auto|]. split; [congruence|]. intros _. exists f2, f2'. auto 6.
    - pose proof (Rl j l l' Nj Nl Nl') as RL. pose proof (Sh j l l' Nl Nl') as So1. rewrite So1 in Sy0', Sg'.
      assert (Si1 : get_input_shape l' = get_input_shape l).
      { destruct RL as (P & _). clear - P. destruct l, l'; try discriminate P; cbn [params_of get_input_shape] in *; unfold fc_input_shape in *; injection P as; congruence. }
      rewrite Si1 in Sx', So'.
      destruct (@forward_related f32 AR equal bm l l' x y0 y0' Ol Ol' RL Ml Sx Sy0 Sy0') as (q & q' & Y & A1 & A2 & Tg).
      rewrite EF in A1. injection A1 as <- <-. rewrite EF' in A2. injection A2 as <- Ey. split; [congruence|].
      intros (t & t' & Nt & Nt' & Rt). rewrite Ng in Nt. injection Nt as <-. rewrite Ng' in Nt'. injection Nt' as <-.
      destruct (related_to equal bm _ _ _ Rt Sg) as (_ & Rg).
      destruct (forward_ok bm l x y0 RA Ol Sx Sy0) as (q1 & Y1 & A1 & _ & Oq & SY & Pq & _ & Mq). rewrite EF in A1. injection A1 as <- <-.
      destruct (forward_ok bm l' x y0' RA Ol') as (q1' & Y1' & A1 & _ & Oq' & _); [rewrite Si1; exact Sx|rewrite So1; exact Sy0'|]. rewrite EF' in A1. injection A1 as <- <-.
      assert (Iq : get_input_shape l1 = get_input_shape l).
      { clear - Pq. destruct l, l1; try discriminate Pq; cbn [params_of get_input_shape] in *; unfold fc_input_shape in *; injection Pq as; congruence. }
      assert (Uq : get_output_shape l1 = get_output_shape l).
      { clear - Pq. destruct l, l1; try discriminate Pq; cbn [params_of get_output_shape] in *; unfold fc_output_shape in *; injection Pq as; congruence. }
      subst y'.
      destruct (@backward_related f32 AR equal R0 RAd equal_mul bm l1 l1' x y g g' og0 og0' Oq Oq') as (z & z' & p & p' & C1 & C2 & Sp & Sp' & Rp & Lr);
        rewrite ?Iq, ?Uq; try assumption.
      { apply (back_params _ _ Pq). exact (Forall_nth _ _ _ _ NC Nl). }
      { apply (back_params _ _ Pq). exact (Forall_nth _ _ _ _ Bk Nl). }
      { congruence. }
      rewrite EB in C1. injection C1 as <- <-. rewrite EB' in C2. injection C2 as <- <-.
      split; [exists og, og'; split; [exact No|]; split; [exact No'|]; exact (related_of equal bm _ _ _ Sp Sp' Rp)|].
      split; [|congruence]. intros _. exists l2, l2'. auto. }
  assert (States : forall j, (j <= length (layers n))%nat -> nth_error st' j = nth_error st j).
  { induction j as [|j IH]; intros Hj; [congruence|]. destruct (nth_error (layers n) j) as [l|] eqn:Nl; [|apply nth_error_None in Nl; lia].
    destruct (Pair' j l Nl) as (l' & Nl'). apply (Step j l l' Nl Nl'). apply IH. lia. }
  assert (Grads : forall d, (d <= length (layers n))%nat -> alike (length (layers n) - d)%nat).
  { induction d as [|d IH]; intros Hd.
    - rewrite Nat.sub_0_r. exists G, G. split; [exact GL|]. split; [rewrite <- Ln; exact GL'|]. apply (related_of equal bm (net_output_shape n)); [exact SG|exact SG|]. intros a c r _. left. reflexivity.
    - set (j := (length (layers n) - S d)%nat). destruct (nth_error (layers n) j) as [l|] eqn:Nl; [|apply nth_error_None in Nl; lia].
      destruct (Pair' j l Nl) as (l' & Nl'). apply (Step j l l' Nl Nl'); [apply States; lia|]. replace (S j) with (length (layers n) - d)%nat by lia. apply IH. lia. }
  assert (Grads' : forall j, (j <= length (layers n))%nat -> alike j).
  { intros j Hj. replace j with (length (layers n) - (length (layers n) - j))%nat by lia. apply Grads. lia. }
  assert (After : forall j, (j < length (layers n))%nat -> after j).
  { intros j Hj. destruct (nth_error (layers n) j) as [l|] eqn:Nl; [|apply nth_error_None in Nl; lia].
    destruct (Pair' j l Nl) as (l' & Nl'). apply (Step j l l' Nl Nl'); [apply States; lia|]. apply Grads'. lia. }
  assert (NE : layers n <> []) by (intros Q; rewrite Q in Nf; destruct i; discriminate).
  assert (Lb : forall (q : network f32) q0, net_ok q0 -> in_training q0 -> layers q0 <> [] -> map ident (layers q) = map ident (layers q0) -> map tshape (intermediate_gradients q) = boundaries (layers q) ->
     length (intermediate_gradients q) = S (length (layers q0))).
  { intros q q0 Oq Tq Nq Iq Bq. rewrite <- (map_length tshape), Bq, (ident_boundaries _ _ Iq). pose proof (boundaries_length (layers q0) Nq) as Q. unfold len in Q. lia. }
  assert (B1 : training_built bm n1) by (apply (SpecNet.train_step bm n (OInfer X) n1 (Ok tt)); [exact B|exact WX|discriminate|exact E1]).
  assert (B2 : training_built bm n2) by (apply (SpecNet.train_step bm n1 (OBackward G) n2 (Ok tt)); [exact B1|exact WG|discriminate|exact E2]).
  assert (B1' : training_built bm n1') by (apply (SpecNet.train_step bm n' (OInfer X) n1' (Ok tt)); [exact B'|exact WX|discriminate|exact E1']).
  assert (B2' : training_built bm n2') by (apply (SpecNet.train_step bm n1' (OBackward G) n2' (Ok tt)); [exact B1'|exact WG|discriminate|exact E2']).
  assert (Lg : length gr = S (length (layers n))) by (apply (Lb n2 n); try assumption; apply (training_built_in bm n2 RA B2)).
  assert (Lg' : length gr' = S (length (layers n'))) by (apply (Lb n2' n'); try assumption; apply (training_built_in bm n2' RA B2')).
  assert (Ls : forall q q0, infer bm q0 X = Done (q, Ok tt) -> net_ok q0 -> layers q0 <> [] -> length (intermediate_states q) = S (length (layers q0))).
  { intros q q0 Eq Oq Nq. pose proof (infer_kept _ _ _ _ _ Eq) as (_ & _ & _ & _ & _ & K). pose proof Oq as ((H1 & H2 & H3 & H4) & _). specialize (K H4 H2).
    rewrite <- (map_length tshape), K, H4. pose proof (boundaries_length (layers q0) Nq) as Q. unfold len in Q. lia. }
  pose proof (Ls _ _ E1 On NE) as Ls1. pose proof (Ls _ _ E1' On' NE') as Ls1'. fold st in Ls1. fold st' in Ls1'.
  split; [|split; [|split]].
  - apply nth_error_eq. intros j. destruct (Nat.le_gt_cases j (length (layers n))) as [Hj|Hj]; [apply States; exact Hj|].
    rewrite (proj2 (nth_error_None st j)), (proj2 (nth_error_None st' j)) by lia. reflexivity.
  - apply F2_of_nth; [lia|]. intros j o o' No No'. pose proof (nth_error_Some_lt _ _ _ No) as Hj. destruct (Grads' j ltac:(lia)) as (p & p' & Np & Np' & Rp).
    rewrite No in Np. rewrite No' in Np'. injection Np as <-. injection Np' as <-. exact Rp.
  - intros j l l' Nj Nl Nl'. pose proof (nth_error_Some_lt _ _ _ Nl) as Hj. rewrite <- (map_length ident), I2, map_length in Hj.
    destruct (proj1 (After j Hj) Nj) as (p & p' & Np & Np' & Rp). rewrite Nl in Np. rewrite Nl' in Np'. injection Np as <-. injection Np' as <-. exact Rp.
  - apply (proj2 (After i (nth_error_Some_lt _ _ _ Nf)) eq_refl).
Qed.

End Twin.
