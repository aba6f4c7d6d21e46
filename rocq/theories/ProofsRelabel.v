(** * Training a renumbered and rescaled network *)
From Coq Require Import Reals Lra ZifyBool ZifyNat ZifyN.
From Verif Require Import Base Arith Helper Tensor Network Bincode Serial Spec SpecLayer SpecNet SpecReal SpecTrain SpecOpposed SpecRewire SpecRelabel RealArith RealSums.
From Verif Require Import Loops TensorFacts OpsFacts ProofsTensor Layout LayerFacts BackFacts NetFacts NetRun NetBack RealGrad ProofsLayer ProofsGrad ProofsRewire ProofsOpposed Lockstep ProofsGridBack ProofsSilentNet.
Local Open Scope R_scope.

Section Relabel.
Context (low : R) (bm : build) {BT : Bits R}.
#[local] Hint Extern 0 (Arith R) => exact (R_arith low) : typeclass_instances.
Notation T := (tensor R).

Lemma view_renumbers v m : view_ok v -> view_fits v (mkShape m 1 1) -> renumbering m (old v) /\ forall u, (u < m)%N -> 0 < factor v u.
Proof.
  destruct v as [|h s c]; cbn [view_ok view_fits old factor].
  - intros _ _. split; [split; auto|intros; lra].
  - intros H Q. injection Q as ->. exact H.
Qed.

(** Values of a column of [m] numbers. *)
Definition column_seen (v : view) (m : N) (x x' : N -> N -> N -> R) : Prop := forall u, (u < m)%N -> x' u 0%N 0%N = factor v u * x (old v u) 0%N 0%N.
Definition column_back (v : view) (m : N) (x x' : N -> N -> N -> R) : Prop := forall u, (u < m)%N -> x' u 0%N 0%N = x (old v u) 0%N 0%N / factor v u.

Lemma vals_of (t : T) s x : holds bm t s x -> shaped t s /\ forall i j k, in_shape s i j k -> val t i j k = x i j k.
Proof. intros H. split; [apply (holds_shaped _ _ _ _ H)|]. exact (holds_fun bm _ _ _ _ (shaped_holds bm _ _ (holds_shaped _ _ _ _ H)) H). Qed.

Lemma old_inside v s i j k : view_ok v -> view_fits v s -> in_shape s i j k -> in_shape s (old v i) j k.
Proof.
  destruct v as [|h q c]; cbn [view_ok view_fits old]; [auto|]. intros ((H & _) & _) -> (Hi & Hj & Hk). cbn in *. repeat split; cbn; auto.
Qed.

Lemma values_to v s t t' : view_ok v -> values_seen low bm v t t' -> shaped t s -> view_fits v s /\ shaped t' s
  /\ forall i j k, in_shape s i j k -> val t' i j k = factor v i * val t (old v i) j k.
Proof.
  intros Ov (s' & x & x' & Ft & H & H' & E) (_ & Es). destruct (vals_of _ _ _ H) as (S & V), (vals_of _ _ _ H') as (S' & V').
  rewrite (proj2 S) in Es. subst s'. split; [exact Ft|]. split; [exact S'|]. intros i j k Hin. rewrite V' by exact Hin.
  rewrite V by (apply old_inside; assumption). apply E. exact Hin.
Qed.

Lemma gradients_to v s t t' : view_ok v -> gradients_seen low bm v t t' -> shaped t s -> view_fits v s /\ shaped t' s
  /\ forall i j k, in_shape s i j k -> val t' i j k = val t (old v i) j k / factor v i.
Proof.
  intros Ov (s' & x & x' & Ft & H & H' & E) (_ & Es). destruct (vals_of _ _ _ H) as (S & V), (vals_of _ _ _ H') as (S' & V').
  rewrite (proj2 S) in Es. subst s'. split; [exact Ft|]. split; [exact S'|]. intros i j k Hin. rewrite V' by exact Hin.
  rewrite V by (apply old_inside; assumption). apply E. exact Hin.
Qed.

Lemma values_of v s (t t' : T) : view_fits v s -> shaped t s -> shaped t' s ->
  (forall i j k, in_shape s i j k -> val t' i j k = factor v i * val t (old v i) j k) -> values_seen low bm v t t'.
Proof. intros Ft S S' E. exists s, (val t), (val t'). split; [exact Ft|]. split; [apply shaped_holds; exact S|]. split; [apply shaped_holds; exact S'|exact E]. Qed.

Lemma gradients_of v s (t t' : T) : view_fits v s -> shaped t s -> shaped t' s ->
  (forall i j k, in_shape s i j k -> val t' i j k = val t (old v i) j k / factor v i) -> gradients_seen low bm v t t'.
Proof. intros Ft S S' E. exists s, (val t), (val t'). split; [exact Ft|]. split; [apply shaped_holds; exact S|]. split; [apply shaped_holds; exact S'|exact E]. Qed.

Lemma gate_scale c z : 0 < c -> gate (c * z) = gate z.
Proof.
  intros H. unfold gate. cbn [fgtb fzero fone R_arith]. destruct (Rlt_dec 0 (c * z)) as [A|A], (Rlt_dec 0 z) as [B|B]; try reflexivity; exfalso.
  - apply B. apply (Rmult_lt_reg_l c); [exact H|]. lra.
  - apply A. apply Rmult_lt_0_compat; assumption.
Qed.

(** ** A fully connected layer *)
Lemma fc_seen_round v w m n (l l' : fc_layer R) X X' Y0 Y0' G G' o0 o0' l1 l1' Y Y' l2 l2' og og' :
  view_ok v -> view_ok w -> fc_ok m n l -> fc_ok m n l' -> fc_run_state l = Training -> fc_run_state l' = Training ->
  layer_seen low bm v w (LFC l) (LFC l') ->
  shaped X (mkShape n 1 1) -> shaped X' (mkShape n 1 1) -> shaped Y0 (mkShape m 1 1) -> shaped Y0' (mkShape m 1 1) ->
  shaped G (mkShape m 1 1) -> shaped G' (mkShape m 1 1) -> shaped o0 (mkShape n 1 1) -> shaped o0' (mkShape n 1 1) ->
  values_seen low bm v X X' ->
  fc_forward bm l X Y0 = Done (l1, Y, Ok tt) -> fc_forward bm l' X' Y0' = Done (l1', Y', Ok tt) ->
  fc_backward bm l1 X Y G o0 = Done (l2, og, Ok tt) -> fc_backward bm l1' X' Y' G' o0' = Done (l2', og', Ok tt) ->
  values_seen low bm w Y Y'
  /\ (gradients_seen low bm w G G' -> gradients_seen low bm v og og' /\ layer_seen low bm v w (LFC l2) (LFC l2')).
Proof.
  intros Ov Ow O O' Tr Tr' LS SX SX' SY SY' SG SG' So So' VX E E' EB EB'.
  pose proof O as (Hw & Hb & Ht). pose proof O' as (Hw' & Hb' & Ht'). destruct (Ht Tr) as (Hg & _ & Hbg & _). destruct (Ht' Tr') as (Hg' & _ & Hbg' & _).
  assert (LV : view_fits v (mkShape n 1 1) /\ view_fits w (mkShape m 1 1)
    /\ (forall i p, (i < m)%N -> (p < n)%N -> val (fc_weights l') i p 0%N = factor w i * val (fc_weights l) (old w i) (old v p) 0%N / factor v p)
    /\ (forall i, (i < m)%N -> val (fc_bias l') i 0%N 0%N = factor w i * val (fc_bias l) (old w i) 0%N 0%N)
    /\ (forall i p, (i < m)%N -> (p < n)%N -> val (fc_weights_gradients l') i p 0%N = factor v p * val (fc_weights_gradients l) (old w i) (old v p) 0%N / factor w i)
    /\ (forall i, (i < m)%N -> val (fc_bias_gradients l') i 0%N 0%N = val (fc_bias_gradients l) (old w i) 0%N 0%N / factor w i)).
  { inversion LS as [f f' m0 n0 a b a' b' da db da' db' Fv Fw H1 H2 H3 H4 H5 H6 H7 H8 E1 E2 E3 E4|q q' -> -> LR]; subst.
    - destruct (vals_of _ _ _ H1) as (S1 & V1), (vals_of _ _ _ H2) as (S2 & V2), (vals_of _ _ _ H3) as (S3 & V3), (vals_of _ _ _ H4) as (S4 & V4).
      destruct (vals_of _ _ _ H5) as (S5 & V5), (vals_of _ _ _ H6) as (S6 & V6), (vals_of _ _ _ H7) as (S7 & V7), (vals_of _ _ _ H8) as (S8 & V8).
      pose proof (proj2 S1) as Q. rewrite (proj2 Hw) in Q. injection Q as <- <-.
      destruct (view_renumbers v n Ov Fv) as ((Rv & _) & _). destruct (view_renumbers w m Ow Fw) as ((Rw & _) & _).
      split; [exact Fv|]. split; [exact Fw|]. split; [|split; [|split]].
      + intros i p Hi Hp. rewrite V2, V1 by (repeat split; cbn; auto; lia). apply E1; assumption.
      + intros i Hi. rewrite V4, V3 by (repeat split; cbn; auto; lia). apply E2; assumption.
      + intros i p Hi Hp. rewrite V6, V5 by (repeat split; cbn; auto; lia). apply E3; assumption.
      + intros i Hi. rewrite V8, V7 by (repeat split; cbn; auto; lia). apply E4; assumption.
    - cbn [view_fits factor old]. destruct LR as (P & _ & _ & R1 & R2). cbn [params_of] in P. injection P as P1 P2. rewrite P1, P2.
      destruct (related_to eq bm _ _ _ R1 Hg) as (_ & Q1). destruct (related_to eq bm _ _ _ R2 Hbg) as (_ & Q2).
      repeat split; intros; try lra.
      + rewrite <- (Q1 i p 0%N) by (repeat split; cbn; auto; lia). lra.
      + rewrite <- (Q2 i 0%N 0%N) by (repeat split; cbn; auto; lia). lra. }
  destruct LV as (Fv & Fw & Ew & Eb & Eg & Ebg). clear LS.
  destruct (view_renumbers v n Ov Fv) as (Rv & Pv). destruct (view_renumbers w m Ow Fw) as (Rw & Pw).
  destruct (values_to v _ _ _ Ov VX SX) as (_ & _ & XX).
  assert (Am : allocatable (mkShape m 1 1)) by apply (shaped_eq _ _ SG). assert (Aw : allocatable (mkShape m n 1)) by apply (shaped_eq _ _ Hw).
  assert (An : allocatable (mkShape n 1 1)) by apply (shaped_eq _ _ SX).
  rewrite (fc_forward_training bm l m n X Y0 O Tr SX SY) in E. injection E as <- <-.
  rewrite (fc_forward_training bm l' m n X' Y0' O' Tr' SX' SY') in E'. injection E' as <- <-.
  assert (Zz : forall i, (i < m)%N -> pre_activation n (val (fc_weights l')) (val (fc_bias l')) (val X') i = factor w i * pre_activation n (val (fc_weights l)) (val (fc_bias l)) (val X) (old w i)).
  { intros i Hi. rewrite !pre_activation_R. unfold fc_pre. rewrite Eb by exact Hi. rewrite Rmult_plus_distr_l. f_equal.
    rewrite <- (Rsum_renumber n (old v) (fun p => val (fc_weights l) (old w i) p 0%N * val X p 0%N 0%N) Rv). rewrite <- Rsum_scale. apply Rsum_ext. intros p Hp. apply in_upto in Hp.
    rewrite Ew, XX by first [assumption|apply in_column; assumption]. pose proof (Pv p Hp). field. lra. }
  unfold pre_activation in Zz. cbn [fadd fmul R_arith] in Zz.
  split.
  { apply (values_of w (mkShape m 1 1)); [exact Fw|apply shaped_of_fun; exact Am|apply shaped_of_fun; exact Am|]. intros i j k Hin. pose proof (old_inside w _ _ _ _ Ow Fw Hin) as Hin'.
    rewrite !val_of_fun by assumption. cbv beta. rewrite (relu_R low). rewrite Zz by apply Hin. rewrite (relu_R low). apply relu_scale. apply Pw. apply Hin. }
  intros VG. destruct (gradients_to w _ _ _ Ow VG SG) as (_ & _ & GG).
  set (mask := of_fun _ _) in EB. set (mask' := of_fun _ _) in EB'.
  rewrite (fc_backward_values bm (fc_set_mask l mask) m n X _ G o0 (fc_mask_ok _ _ _ mask O Tr (shaped_of_fun _ _ Am)) Tr SX SG So) in EB. injection EB as <- <-.
  rewrite (fc_backward_values bm (fc_set_mask l' mask') m n X' _ G' o0' (fc_mask_ok _ _ _ mask' O' Tr' (shaped_of_fun _ _ Am)) Tr' SX' SG' So') in EB'. injection EB' as <- <-.
  assert (MG : forall i, (i < m)%N -> val mask' i 0%N 0%N * val G' i 0%N 0%N = val mask (old w i) 0%N 0%N * val G (old w i) 0%N 0%N / factor w i).
  { intros i Hi. pose proof (in_column _ _ Hi) as Hin. pose proof (old_inside w _ _ _ _ Ow Fw Hin) as Hin'.
    unfold mask, mask'. rewrite !val_of_fun by assumption. cbv beta. rewrite Zz by exact Hi. rewrite gate_scale by (apply Pw; exact Hi). rewrite GG by exact Hin. unfold Rdiv. ring. }
  split.
  - apply (gradients_of v (mkShape n 1 1)); [exact Fv|apply shaped_of_fun; exact An|apply shaped_of_fun; exact An|]. intros p j k Hin. pose proof (old_inside v _ _ _ _ Ov Fv Hin) as Hin'.
    rewrite !val_of_fun by assumption. apply column_in in Hin. destruct Hin as (Hp & -> & ->).
    unfold fc_outgoing, mm_fn. rewrite !sum_Rsum. cbn [fmul R_arith fc_set_mask fc_weights fc_relu_mask].
    rewrite <- (Rsum_renumber m (old w) (fun i => val (fc_weights l) i (old v p) 0%N * (val mask i 0%N 0%N * val G i 0%N 0%N)) Rw).
    unfold Rdiv. rewrite <- Rsum_scale_r. apply Rsum_ext. intros i Hi. apply in_upto in Hi. rewrite Ew, MG by assumption. pose proof (Pv p Hp). pose proof (Pw i Hi). field. lra.
  - eapply seen_fc with (m := m) (n := n); [exact Fv|exact Fw|apply shaped_holds; exact Hw|apply shaped_holds; exact Hw'|apply shaped_holds; exact Hb|apply shaped_holds; exact Hb'
      |apply holds_of_fun; exact Aw|apply holds_of_fun; exact Aw|apply holds_of_fun; exact Am|apply holds_of_fun; exact Am|exact Ew|exact Eb| |]; cbv beta.
    + intros i p Hi Hp. cbn [fc_set_mask fc_relu_mask fc_weights_gradients]. unfold mm_fn. rewrite upto_1, !sum_Rsum. cbn [map Rsum fold_right fmul fadd R_arith].
      rewrite MG, Eg, XX by first [assumption|apply in_column; assumption]. pose proof (Pw i Hi). field. lra.
    + intros i Hi. cbn [fc_set_mask fc_relu_mask fc_bias_gradients fmul fadd R_arith]. rewrite MG, Ebg by assumption. pose proof (Pw i Hi). field. lra.
Qed.

(** ** One layer of any kind *)
Lemma same_tensor s (t t' : T) : shaped t s -> shaped t' s -> (forall i j k, in_shape s i j k -> val t' i j k = val t i j k) -> t' = t.
Proof. intros S S' E. rewrite (proj2 (shaped_eq _ _ S)), (proj2 (shaped_eq _ _ S')). apply of_fun_ext. exact E. Qed.

Lemma plain_values (t t' : T) s : values_seen low bm Plain t t' -> shaped t s -> t' = t.
Proof. intros V S. destruct (values_to Plain s _ _ Logic.I V S) as (_ & S' & E). apply (same_tensor s); [exact S|exact S'|]. intros i j k Hin. rewrite E by exact Hin. cbn [factor old]. lra. Qed.

Lemma seen_shapes v w l l' : layer_seen low bm v w l l' -> get_input_shape l' = get_input_shape l /\ get_output_shape l' = get_output_shape l.
Proof.
  intros [f f' m n a b a' b' da db da' db' Fv Fw H1 H2 H3 H4 _ _ _ _ _ _ _ _|q q' _ _ (P & _)].
  - cbn [get_input_shape get_output_shape]. unfold fc_input_shape, fc_output_shape, get_shape.
    rewrite (proj2 (holds_shaped _ _ _ _ H1)), (proj2 (holds_shaped _ _ _ _ H2)), (proj2 (holds_shaped _ _ _ _ H3)), (proj2 (holds_shaped _ _ _ _ H4)). auto.
  - destruct q, q'; try discriminate P; cbn [params_of get_input_shape get_output_shape] in *; unfold fc_input_shape, fc_output_shape in *; injection P as; split; congruence.
Qed.

Lemma seen_side v w l l' : layer_seen low bm v w l l' -> (stays_inside l -> stays_inside l') /\ (backs l -> backs l').
Proof. intros [f f'|q q' _ _ (P & _)]; [split; exact (fun x => x)|]. split; apply (back_params _ _ P). Qed.

Lemma layer_seen_round v w (l l' l1 l1' l2 l2' : layer R) (X X' Y0 Y0' Y Y' G G' o0 o0' og og' : T) :
  view_ok v -> view_ok w -> layer_ok l -> layer_ok l' -> get_run_mode l = Training -> get_run_mode l' = Training -> stays_inside l -> backs l ->
  layer_seen low bm v w l l' ->
  shaped X (get_input_shape l) -> shaped X' (get_input_shape l) -> shaped Y0 (get_output_shape l) -> shaped Y0' (get_output_shape l) ->
  shaped G (get_output_shape l) -> shaped G' (get_output_shape l) -> shaped o0 (get_input_shape l) -> shaped o0' (get_input_shape l) ->
  values_seen low bm v X X' ->
  forward bm l X Y0 = Done (l1, Y, Ok tt) -> forward bm l' X' Y0' = Done (l1', Y', Ok tt) ->
  backward bm l1 X Y G o0 = Done (l2, og, Ok tt) -> backward bm l1' X' Y' G' o0' = Done (l2', og', Ok tt) ->
  values_seen low bm w Y Y' /\ (gradients_seen low bm w G G' -> gradients_seen low bm v og og' /\ layer_seen low bm v w l2 l2').
Proof.
  intros Ov Ow O O' Tr Tr' SI BK LS SX SX' SY SY' SG SG' So So' VX E E' EB EB'. pose proof LS as LS0.
  destruct LS as [f f' m n a b a' b' da db da' db' Fv Fw H1 H2 H3 H4 _ _ _ _ _ _ _ _|q q' Ev Ew LR].
  - destruct O as (m0 & n0 & O), O' as (m1 & n1 & O'). pose proof O as (Hw & Hb & _). pose proof O' as (Hw' & Hb' & _).
    pose proof (proj2 (holds_shaped _ _ _ _ H1)) as Q. rewrite (proj2 Hw) in Q. injection Q as -> ->.
    pose proof (proj2 (holds_shaped _ _ _ _ H2)) as Q. rewrite (proj2 Hw') in Q. injection Q as -> ->.
    cbn [get_run_mode get_input_shape get_output_shape] in *. unfold fc_input_shape, fc_output_shape, get_shape in *. rewrite (proj2 Hw) in *. rewrite (proj2 Hb) in *. cbn [dj] in *.
    cbn [forward] in E, E'. unfold lift3 in E, E'. apply bind_done in E. destruct E as (((f1 & t1) & r1) & E & Q). injection Q as <- -> ->.
    apply bind_done in E'. destruct E' as (((f1' & t1') & r1') & E' & Q). injection Q as <- -> ->.
    cbn [backward] in EB, EB'. unfold lift3 in EB, EB'. apply bind_done in EB. destruct EB as (((f2 & t2) & r2) & EB & Q). injection Q as <- -> ->.
    apply bind_done in EB'. destruct EB' as (((f2' & t2') & r2') & EB' & Q). injection Q as <- -> ->.
    exact (fc_seen_round v w m n f f' X X' Y0 Y0' G G' o0 o0' f1 f1' Y Y' f2 f2' og og' Ov Ow O O' Tr Tr' LS0 SX SX' SY SY' SG SG' So So' VX E E' EB EB').
  - subst v w. pose proof (plain_values _ _ _ VX SX) as ->.
    destruct (forward_related eq bm q q' X Y0 Y0' O O' LR Tr SX SY SY') as (p & p' & Z & A1 & A2 & Tg).
    rewrite E in A1. injection A1 as <- <-. rewrite E' in A2. injection A2 as <- ->.
    destruct (forward_ok bm q X Y0 (relu_agrees_R low) O SX SY) as (p1 & Z1 & A1 & _ & Oq & SZ & Pq & _ & Mq). rewrite E in A1. injection A1 as <- <-.
    destruct (seen_shapes _ _ _ _ LS0) as (Es1 & Es2).
    destruct (forward_ok bm q' X Y0' (relu_agrees_R low) O') as (p1 & Z1 & A1 & _ & Oq' & _); [rewrite Es1; exact SX|rewrite Es2; exact SY'|]. rewrite E' in A1. injection A1 as <- <-.
    split. { apply (values_of Plain _ _ _ Logic.I SZ SZ). intros i j k _. cbn [factor old]. lra. }
    intros VG. destruct (gradients_to Plain _ _ _ Logic.I VG SG) as (_ & _ & GG).
    assert (Iq : get_input_shape l1 = get_input_shape q /\ get_output_shape l1 = get_output_shape q).
    { clear - Pq. destruct q, l1; try discriminate Pq; cbn [params_of get_input_shape get_output_shape] in *; unfold fc_input_shape, fc_output_shape in *; injection Pq as; split; congruence. }
    destruct Iq as (Iq & Uq).
    assert (RAd : forall x x' y y' : R, x = x' -> y = y' -> @fadd R (R_arith low) x y = @fadd R (R_arith low) x' y') by (intros; congruence).
    assert (RMl : forall c x x' : R, x = x' -> @fmul R (R_arith low) c x = @fmul R (R_arith low) c x' /\ @fmul R (R_arith low) x c = @fmul R (R_arith low) x' c) by (intros c x x' ->; auto).
    destruct (@backward_related R (R_arith low) eq eq_refl RAd RMl bm l1 l1' X Y G G' o0 o0' Oq Oq') as (z & z' & u & u' & C1 & C2 & Su & Su' & Ru & Lr); rewrite ?Iq, ?Uq; try assumption.
    { apply (back_params _ _ Pq). exact SI. }
    { apply (back_params _ _ Pq). exact BK. }
    { congruence. }
    { intros i j k Hin. rewrite GG by exact Hin. cbn [factor old]. lra. }
    rewrite EB in C1. injection C1 as <- <-. rewrite EB' in C2. injection C2 as <- <-.
    split; [|apply seen_same; [reflexivity|reflexivity|exact Lr]].
    apply (gradients_of Plain (get_input_shape q)); [exact Logic.I|rewrite <- Iq; exact Su|rewrite <- Iq; exact Su'|]. intros i j k Hin. rewrite <- (Ru i j k) by (rewrite Iq; exact Hin). cbn [factor old]. lra.
Qed.

(** ** The network *)
Lemma last_out (ls : list (layer R)) d : ls <> [] -> last (map get_output_shape ls) d = last (boundaries ls) d.
Proof. destruct ls as [|l ls]; [congruence|reflexivity]. Qed.

Lemma round_seen vs (n n' : network R) (X X' G G' : T) :
  (forall i, view_ok (vs i)) -> training_built bm n -> training_built bm n' -> layers n <> [] -> Forall (@stays_inside R) (layers n) -> Forall (@backs R) (layers n) ->
  layers_seen low bm vs (layers n) (layers n') -> shaped X (net_input_shape n) -> shaped G (net_output_shape n) ->
  values_seen low bm (vs 0%nat) X X' -> gradients_seen low bm (vs (length (layers n))) G G' ->
  exists n1 n2 n1' n2', infer bm n X = Done (n1, Ok tt) /\ net_backward bm n1 G = Done (n2, Ok tt)
    /\ infer bm n' X' = Done (n1', Ok tt) /\ net_backward bm n1' G' = Done (n2', Ok tt)
    /\ tensors_seen (values_seen low bm) vs (intermediate_states n1) (intermediate_states n1')
    /\ tensors_seen (gradients_seen low bm) vs (intermediate_gradients n2) (intermediate_gradients n2')
    /\ layers_seen low bm vs (layers n2) (layers n2').
Proof.
  intros Vs B B' NE NC Bk (Ln & LS) SX SG VX VG. pose proof (relu_agrees_R low) as RA.
  pose proof (built_ok bm n RA (training_built_well bm n B)) as On. pose proof (training_built_in bm n RA B) as Tn.
  pose proof (built_ok bm n' RA (training_built_well bm n' B')) as On'. pose proof (training_built_in bm n' RA B') as Tn'.
  assert (Pair : forall j l, nth_error (layers n) j = Some l -> exists l', nth_error (layers n') j = Some l').
  { intros j l Nj. apply nth_error_Some_lt in Nj. destruct (nth_error (layers n') j) as [l'|] eqn:Q; [eauto|]. apply nth_error_None in Q. lia. }
  assert (Pair' : forall j l', nth_error (layers n') j = Some l' -> exists l, nth_error (layers n) j = Some l).
  { intros j l Nj. apply nth_error_Some_lt in Nj. destruct (nth_error (layers n) j) as [l'|] eqn:Q; [eauto|]. apply nth_error_None in Q. lia. }
  assert (Side : Forall (@stays_inside R) (layers n') /\ Forall (@backs R) (layers n')).
  { split; apply Forall_forall; intros l' Hin; apply In_nth_error in Hin; destruct Hin as (j & Nj); destruct (Pair' j l' Nj) as (l & Nl); apply (seen_side _ _ _ _ (LS j l l' Nl Nj)).
    - exact (Forall_nth _ _ _ _ NC Nl).
    - exact (Forall_nth _ _ _ _ Bk Nl). }
  destruct Side as (NC' & Bk').
  assert (NE' : layers n' <> []) by (intros Q; rewrite Q in Ln; destruct (layers n); [congruence|discriminate]).
  pose proof On as ((H1 & H2 & H3 & H4) & Lo & _). pose proof On' as ((H1' & H2' & H3' & H4') & Lo' & _). pose proof Tn as (_ & Md & _). pose proof Tn' as (_ & Md' & _).
  assert (Si : net_input_shape n' = net_input_shape n).
  { destruct (layers n) as [|l ls] eqn:Q; [congruence|]. destruct (layers n') as [|l' ls'] eqn:Q'; [congruence|].
    cbn [linked] in H1, H1'. rewrite <- (proj1 H1), <- (proj1 H1'). apply (seen_shapes _ _ _ _ (LS 0%nat l l' eq_refl eq_refl)). }
  assert (Su : net_output_shape n' = net_output_shape n).
  { rewrite H3, H3'. rewrite <- !(last_out _ (mkShape 0 0 0)) by assumption. f_equal. apply nth_error_eq. intros j. rewrite !nth_error_map.
    destruct (nth_error (layers n) j) as [l|] eqn:Q.
    - destruct (Pair j l Q) as (l' & Q'). rewrite Q'. cbn [option_map]. rewrite (proj2 (seen_shapes _ _ _ _ (LS j l l' Q Q'))). reflexivity.
    - apply nth_error_None in Q. rewrite (proj2 (nth_error_None (layers n') j)) by lia. reflexivity. }
  destruct (values_to _ _ _ _ (Vs 0%nat) VX SX) as (_ & SX' & _). destruct (gradients_to _ _ _ _ (Vs _) VG SG) as (_ & SG' & _).
  destruct (round_trace_at bm n X G RA On Tn NE NC Bk SX SG) as (n1 & n2 & E1 & E2 & S0 & GL & I2 & Rd).
  destruct (round_trace_at bm n' X' G' RA On' Tn' NE' NC' Bk') as (n1' & n2' & E1' & E2' & S0' & GL' & I2' & Rd'); [rewrite Si; exact SX'|rewrite Su; exact SG'|].
  exists n1, n2, n1', n2'. split; [exact E1|]. split; [exact E2|]. split; [exact E1'|]. split; [exact E2'|].
  set (st := intermediate_states n1) in *. set (st' := intermediate_states n1') in *. set (gr := intermediate_gradients n2) in *. set (gr' := intermediate_gradients n2') in *.
  set (vseen := fun j => exists o o', nth_error st j = Some o /\ nth_error st' j = Some o' /\ values_seen low bm (vs j) o o').
  set (gseen := fun j => exists o o', nth_error gr j = Some o /\ nth_error gr' j = Some o' /\ gradients_seen low bm (vs j) o o').
  set (after := fun j => exists l2 l2', nth_error (layers n2) j = Some l2 /\ nth_error (layers n2') j = Some l2' /\ layer_seen low bm (vs j) (vs (S j)) l2 l2').
  assert (Step : forall j l l', nth_error (layers n) j = Some l -> nth_error (layers n') j = Some l' -> vseen j -> vseen (S j) /\ (gseen (S j) -> gseen j /\ after j)).
  { intros j l l' Nl Nl' (o & o' & No1 & No1' & Vo). destruct (Rd j l Nl) as (l1 & l2 & x & y0 & y & g & og0 & og & N2 & Nx & Ny & No & Ng & Sx & Sy0 & Sg & So & EF & EB).
    destruct (Rd' j l' Nl') as (l1' & l2' & x' & y0' & y' & g' & og0' & og' & N2' & Nx' & Ny' & No' & Ng' & Sx' & Sy0' & Sg' & So' & EF' & EB').
    rewrite Nx in No1. injection No1 as <-. rewrite Nx' in No1'. injection No1' as <-. pose proof (LS j l l' Nl Nl') as LS1. destruct (seen_shapes _ _ _ _ LS1) as (Q1 & Q2). rewrite Q1 in *. rewrite Q2 in *.
    destruct (layer_seen_round (vs j) (vs (S j)) l l' l1 l1' l2 l2' x x' y0 y0' y y' g g' og0 og0' og og' (Vs j) (Vs (S j)) (Forall_nth _ _ _ _ Lo Nl) (Forall_nth _ _ _ _ Lo' Nl')
      (Forall_nth _ _ _ _ Md Nl) (Forall_nth _ _ _ _ Md' Nl') (Forall_nth _ _ _ _ NC Nl) (Forall_nth _ _ _ _ Bk Nl) LS1 Sx Sx' Sy0 Sy0' Sg Sg' So So' Vo EF EF' EB EB') as (K1 & K2).
    split; [exists y, y'; auto|]. intros (t & t' & Nt & Nt' & Rt). rewrite Ng in Nt. injection Nt as <-. rewrite Ng' in Nt'. injection Nt' as <-.
    destruct (K2 Rt) as (K3 & K4). split; [exists og, og'; auto|exists l2, l2'; auto]. }
  assert (States : forall j, (j <= length (layers n))%nat -> vseen j).
  { induction j as [|j IH]; intros Hj; [exists X, X'; auto|]. destruct (nth_error (layers n) j) as [l|] eqn:Nl; [|apply nth_error_None in Nl; lia].
    destruct (Pair j l Nl) as (l' & Nl'). apply (Step j l l' Nl Nl'). apply IH. lia. }
  assert (Grads : forall d, (d <= length (layers n))%nat -> gseen (length (layers n) - d)%nat).
  { induction d as [|d IH]; intros Hd.
    - rewrite Nat.sub_0_r. exists G, G'. split; [exact GL|]. split; [rewrite <- Ln; exact GL'|exact VG].
    - set (j := (length (layers n) - S d)%nat). destruct (nth_error (layers n) j) as [l|] eqn:Nl; [|apply nth_error_None in Nl; lia].
      destruct (Pair j l Nl) as (l' & Nl'). apply (Step j l l' Nl Nl'); [apply States; lia|]. replace (S j) with (length (layers n) - d)%nat by lia. apply IH. lia. }
  assert (Grads' : forall j, (j <= length (layers n))%nat -> gseen j).
  { intros j Hj. replace j with (length (layers n) - (length (layers n) - j))%nat by lia. apply Grads. lia. }
  assert (After : forall j, (j < length (layers n))%nat -> after j).
  { intros j Hj. destruct (nth_error (layers n) j) as [l|] eqn:Nl; [|apply nth_error_None in Nl; lia].
    destruct (Pair j l Nl) as (l' & Nl'). apply (Step j l l' Nl Nl'); [apply States; lia|]. apply Grads'. lia. }
  assert (Lb : forall (q : network R) q0, layers q0 <> [] -> map ident (layers q) = map ident (layers q0) -> map tshape (intermediate_gradients q) = boundaries (layers q) ->
     length (intermediate_gradients q) = S (length (layers q0))).
  { intros q q0 Nq Iq Bq. rewrite <- (map_length tshape), Bq, (ident_boundaries _ _ Iq). pose proof (boundaries_length (layers q0) Nq) as Q. unfold len in Q. lia. }
  assert (B1 : training_built bm n1) by (apply (SpecNet.train_step bm n (OInfer X) n1 (Ok tt)); [exact B|exact (proj1 SX)|discriminate|exact E1]).
  assert (B2 : training_built bm n2) by (apply (SpecNet.train_step bm n1 (OBackward G) n2 (Ok tt)); [exact B1|exact (proj1 SG)|discriminate|exact E2]).
  assert (B1' : training_built bm n1') by (apply (SpecNet.train_step bm n' (OInfer X') n1' (Ok tt)); [exact B'|exact (proj1 SX')|discriminate|exact E1']).
  assert (B2' : training_built bm n2') by (apply (SpecNet.train_step bm n1' (OBackward G') n2' (Ok tt)); [exact B1'|exact (proj1 SG')|discriminate|exact E2']).
  assert (Lg : length gr = S (length (layers n))) by (apply (Lb n2 n); try assumption; apply (training_built_in bm n2 RA B2)).
  assert (Lg' : length gr' = S (length (layers n'))) by (apply (Lb n2' n'); try assumption; apply (training_built_in bm n2' RA B2')).
  assert (Ls : forall (q q0 : network R) (x : T), infer bm q0 x = Done (q, Ok tt) -> net_ok q0 -> layers q0 <> [] -> length (intermediate_states q) = S (length (layers q0))).
  { intros q q0 x Eq Oq Nq. pose proof (infer_kept _ _ _ _ _ Eq) as (_ & _ & _ & _ & _ & K). pose proof Oq as ((K1 & K2 & K3 & K4) & _). specialize (K K4 K2).
    rewrite <- (map_length tshape), K, K4. pose proof (boundaries_length (layers q0) Nq) as Q. unfold len in Q. lia. }
  pose proof (Ls _ _ _ E1 On NE) as Ls1. pose proof (Ls _ _ _ E1' On' NE') as Ls1'. fold st in Ls1. fold st' in Ls1'.
  split; [|split].
  - split; [lia|]. intros j o o' No No'. pose proof (nth_error_Some_lt _ _ _ No) as Hj. destruct (States j ltac:(lia)) as (p & p' & Np & Np' & Rp).
    rewrite No in Np. rewrite No' in Np'. injection Np as <-. injection Np' as <-. exact Rp.
  - split; [lia|]. intros j o o' No No'. pose proof (nth_error_Some_lt _ _ _ No) as Hj. destruct (Grads' j ltac:(lia)) as (p & p' & Np & Np' & Rp).
    rewrite No in Np. rewrite No' in Np'. injection Np as <-. injection Np' as <-. exact Rp.
  - assert (L2 : length (layers n2) = length (layers n)) by (rewrite <- (map_length ident), I2, map_length; reflexivity).
    assert (L2' : length (layers n2') = length (layers n')) by (rewrite <- (map_length ident), I2', map_length; reflexivity).
    split; [lia|]. intros j l l' Nl Nl'. pose proof (nth_error_Some_lt _ _ _ Nl) as Hj. destruct (After j ltac:(lia)) as (p & p' & Np & Np' & Rp).
    rewrite Nl in Np. rewrite Nl' in Np'. injection Np as <-. injection Np' as <-. exact Rp.
Qed.

(** ** A batch of samples *)
Lemma kept_round (n n1 n2 : network R) (X G : T) : training_built bm n -> wf X -> wf G -> layers n <> [] -> Forall (@stays_inside R) (layers n) -> Forall (@backs R) (layers n) ->
  infer bm n X = Done (n1, Ok tt) -> net_backward bm n1 G = Done (n2, Ok tt) ->
  training_built bm n2 /\ layers n2 <> [] /\ Forall (@stays_inside R) (layers n2) /\ Forall (@backs R) (layers n2) /\ length (layers n2) = length (layers n)
  /\ net_input_shape n2 = net_input_shape n /\ net_output_shape n2 = net_output_shape n.
Proof.
  intros B WX WG NE NC Bk E1 E2.
  assert (B1 : training_built bm n1) by (apply (SpecNet.train_step bm n (OInfer X) n1 (Ok tt)); [exact B|exact WX|discriminate|exact E1]).
  assert (B2 : training_built bm n2) by (apply (SpecNet.train_step bm n1 (OBackward G) n2 (Ok tt)); [exact B1|exact WG|discriminate|exact E2]).
  destruct (infer_kept _ _ _ _ _ E1) as (I1 & _ & Ki & Ko & _). destruct (net_backward_kept _ _ _ _ _ E2) as (I2 & _ & Ki2 & Ko2 & _).
  assert (P2 : map params_of (layers n2) = map params_of (layers n)) by (apply ident_split; congruence).
  assert (L2 : length (layers n2) = length (layers n)) by (rewrite <- (map_length params_of), P2, map_length; reflexivity).
  split; [exact B2|]. split; [intros Z; rewrite Z in L2; destruct (layers n); [congruence|discriminate]|].
  split; [eapply Forall_params; [intros l l' Pl; apply back_params; exact Pl|exact P2|exact NC]|].
  split; [eapply Forall_params; [intros l l' Pl; apply back_params; exact Pl|exact P2|exact Bk]|]. split; [exact L2|]. split; congruence.
Qed.

Lemma session_seen vs : (forall i, view_ok (vs i)) -> forall samples samples' (n n' : network R),
  training_built bm n -> training_built bm n' -> trainable n -> layers_seen low bm vs (layers n) (layers n') ->
  samples_seen low bm vs (length (layers n)) samples samples' -> sized n samples ->
  exists m m', session bm n samples m /\ session bm n' samples' m' /\ layers_seen low bm vs (layers m) (layers m')
    /\ (samples <> [] -> tensors_seen (values_seen low bm) vs (intermediate_states m) (intermediate_states m')
        /\ tensors_seen (gradients_seen low bm) vs (intermediate_gradients m) (intermediate_gradients m')).
Proof.
  intros Vs samples. induction samples as [|(x & g) samples IH]; intros samples' n n' B B' (NE & NC & Bk) LS SS Sh; inversion SS as [|? (x' & g') ? rest (Vx & Vg) SS']; subst.
  - exists n, n'. split; [constructor|]. split; [constructor|]. split; [exact LS|congruence].
  - cbn [fst snd] in *. inversion Sh as [|? ? (Sx & Sg) Sh']; subst. cbn [fst snd] in *.
    destruct (round_seen vs n n' x x' g g' Vs B B' NE NC Bk LS Sx Sg Vx Vg) as (n1 & n2 & n1' & n2' & E1 & E2 & E1' & E2' & R1 & R2 & R3).
    destruct (values_to _ _ _ _ (Vs 0%nat) Vx Sx) as (_ & Sx' & _). destruct (gradients_to _ _ _ _ (Vs _) Vg Sg) as (_ & Sg' & _).
    destruct (kept_round n n1 n2 x g B (proj1 Sx) (proj1 Sg) NE NC Bk E1 E2) as (B2 & NE2 & NC2 & Bk2 & L2 & Ki & Ko).
    assert (B1' : training_built bm n1') by (apply (SpecNet.train_step bm n' (OInfer x') n1' (Ok tt)); [exact B'|exact (proj1 Sx')|discriminate|exact E1']).
    assert (B2' : training_built bm n2') by (apply (SpecNet.train_step bm n1' (OBackward g') n2' (Ok tt)); [exact B1'|exact (proj1 Sg')|discriminate|exact E2']).
    destruct (IH rest n2 n2' B2 B2' (conj NE2 (conj NC2 Bk2)) R3) as (m & m' & Sm & Sm' & Lm & Gm).
    + rewrite L2. exact SS'.
    + unfold sized. rewrite Ki, Ko. exact Sh'.
    + exists m, m'. split; [econstructor; eassumption|]. split; [econstructor; eassumption|]. split; [exact Lm|]. intros _.
      destruct samples as [|a samples]; [|apply Gm; discriminate]. inversion SS'; subst. inversion Sm; subst. inversion Sm'; subst.
      rewrite (proj1 (proj2 (net_backward_kept _ _ _ _ _ E2))), (proj1 (proj2 (net_backward_kept _ _ _ _ _ E2'))). auto.
Qed.

(** ** Steps *)
Lemma session_fun (n m : network R) samples : session bm n samples m -> forall m', session bm n samples m' -> m' = m.
Proof. induction 1 as [n|n x g rest n1 n2 n3 E1 E2 H IH]; intros m' H'; inversion H'; subst; [reflexivity|]. apply IH. congruence. Qed.

Lemma session_kept (n m : network R) samples : session bm n samples m -> training_built bm n -> trainable n -> sized n samples ->
  training_built bm m /\ trainable m /\ length (layers m) = length (layers n) /\ net_input_shape m = net_input_shape n /\ net_output_shape m = net_output_shape n.
Proof.
  induction 1 as [n|n x g rest n1 n2 n3 E1 E2 H IH]; intros B Tn Sz; [auto|]. inversion Sz as [|? ? (Sx & Sg) Sz']; subst. cbn [fst snd] in *. pose proof Tn as (NE & NC & Bk).
  destruct (kept_round n n1 n2 x g B (proj1 Sx) (proj1 Sg) NE NC Bk E1 E2) as (B2 & NE2 & NC2 & Bk2 & L2 & Ki & Ko).
  destruct IH as (A1 & A2 & A3 & A4 & A5); [exact B2|split; auto|unfold sized; rewrite Ki, Ko; exact Sz'|]. repeat split; try apply A2; try exact A1; congruence.
Qed.

Lemma step_shapes eta l q : layer_stepped low bm eta l q -> get_input_shape q = get_input_shape l /\ get_output_shape q = get_output_shape l
  /\ (stays_inside l -> stays_inside q) /\ (backs l -> backs q).
Proof.
  intros [f f' m n a b da db H1 H2 _ _ H3 H4 _ _|p _]; [|auto]. cbn [get_input_shape get_output_shape]. unfold fc_input_shape, fc_output_shape, get_shape.
  rewrite (proj2 (holds_shaped _ _ _ _ H1)), (proj2 (holds_shaped _ _ _ _ H2)), (proj2 (holds_shaped _ _ _ _ H3)), (proj2 (holds_shaped _ _ _ _ H4)). split; [reflexivity|]. split; [reflexivity|]. split; exact (fun x => x).
Qed.

Lemma Forall2_shapes (ls ls' : list (layer R)) : Forall2 (fun l q => get_input_shape q = get_input_shape l /\ get_output_shape q = get_output_shape l) ls ls' ->
  boundaries ls' = boundaries ls.
Proof.
  intros H. assert (M : map get_output_shape ls' = map get_output_shape ls) by (induction H as [|x y ls ls' (_ & E) H IH]; cbn; congruence).
  destruct H as [|x y ls ls' (E1 & E2) H]; [reflexivity|]. cbn [boundaries map] in *. injection M as M1 M2. unfold boundaries. cbn. congruence.
Qed.

Lemma step_kept eta (m q : network R) : training_built bm m -> training_built bm q -> trainable m -> Forall2 (layer_stepped low bm eta) (layers m) (layers q) ->
  trainable q /\ length (layers q) = length (layers m) /\ net_input_shape q = net_input_shape m /\ net_output_shape q = net_output_shape m.
Proof.
  intros B Bq (NE & NC & Bk) H. pose proof (relu_agrees_R low) as RA.
  pose proof (built_ok bm m RA (training_built_well bm m B)) as ((_ & H2 & H3 & _) & _). pose proof (built_ok bm q RA (training_built_well bm q Bq)) as ((_ & H2' & H3' & _) & _).
  assert (L : length (layers q) = length (layers m)) by exact (F2_len _ _ _ H).
  assert (E : boundaries (layers q) = boundaries (layers m)).
  { apply Forall2_shapes. clear - H. induction H as [|x y ls ls' S H IH]; constructor; [|exact IH]. destruct (step_shapes _ _ _ S) as (A & C & _). auto. }
  rewrite H2, H2', H3, H3', E. split; [|auto]. split; [intros Z; rewrite Z in L; destruct (layers m); [congruence|discriminate]|]. clear - H NC Bk.
  induction H as [|x y ls ls' S H IH]; [auto|]. inversion NC; inversion Bk; subst. destruct (step_shapes _ _ _ S) as (_ & _ & A & C). destruct IH; auto.
Qed.

Lemma step_seen eta v w l l' q q' : view_ok v -> view_ok w -> (forall u, factor v u = 1) -> (forall u, factor w u = 1) ->
  layer_seen low bm v w l l' -> layer_stepped low bm eta l q -> layer_stepped low bm eta l' q' -> layer_seen low bm v w q q'.
Proof.
  intros Ov Ow Fv1 Fw1 LS St St'. destruct LS as [f f' m n a b a' b' da db da' db' Fv Fw H1 H2 H3 H4 H5 H6 H7 H8 E1 E2 E3 E4|l l' -> -> LR].
  - inversion St as [? g m0 n0 a0 b0 da0 db0 G1 G2 G3 G4 G5 G6 G7 G8|p Np]; subst; [|exfalso; apply (Np f); reflexivity].
    inversion St' as [? g' m1 n1 a1 b1 da1 db1 K1 K2 K3 K4 K5 K6 K7 K8|p Np]; subst; [|exfalso; apply (Np f'); reflexivity].
    pose proof (holds_shape _ _ _ _ _ _ H1 G1) as Q. injection Q as <- <-. pose proof (holds_shape _ _ _ _ _ _ H2 K1) as Q. injection Q as <- <-.
    destruct (view_renumbers v n Ov Fv) as ((Rv & _) & _). destruct (view_renumbers w m Ow Fw) as ((Rw & _) & _).
    eapply seen_fc with (m := m) (n := n); [exact Fv|exact Fw|exact G5|exact K5|exact G6|exact K6|exact G7|exact K7|exact G8|exact K8| | | |]; cbv beta.
    + intros i p Hi Hp. rewrite <- (holds_fun bm _ _ _ _ H2 K1 i p 0%N), <- (holds_fun bm _ _ _ _ H6 K3 i p 0%N), <- (holds_fun bm _ _ _ _ H1 G1), <- (holds_fun bm _ _ _ _ H5 G3) by (repeat split; cbn; auto; lia).
      rewrite E1, E3 by assumption. rewrite Fv1, Fw1. field.
    + intros i Hi. rewrite <- (holds_fun bm _ _ _ _ H4 K2 i), <- (holds_fun bm _ _ _ _ H8 K4 i), <- (holds_fun bm _ _ _ _ H3 G2), <- (holds_fun bm _ _ _ _ H7 G4) by (repeat split; cbn; auto; lia).
      rewrite E2, E4 by assumption. rewrite Fw1. field.
    + intros i p Hi Hp. rewrite Fv1, Fw1. field.
    + intros i Hi. rewrite Fw1. field.
  - pose proof LR as (P & _ & _ & RG). inversion St as [f g m0 n0 a0 b0 da0 db0 G1 G2 G3 G4 G5 G6 G7 G8|p Np]; subst.
    + inversion St' as [f' g' m1 n1 a1 b1 da1 db1 K1 K2 K3 K4 K5 K6 K7 K8|p Np]; subst; [|destruct q'; try discriminate P; exfalso; eapply Np; reflexivity].
      cbn [params_of] in P. injection P as P1 P2. rewrite P1 in K1. rewrite P2 in K2.
      pose proof (holds_shape _ _ _ _ _ _ G1 K1) as Q. injection Q as <- <-. destruct RG as (RG1 & RG2).
      destruct (related_to eq bm _ _ _ RG1 (holds_shaped _ _ _ _ G3)) as (_ & Q1). destruct (related_to eq bm _ _ _ RG2 (holds_shaped _ _ _ _ G4)) as (_ & Q2).
      destruct (vals_of _ _ _ G3) as (_ & V1), (vals_of _ _ _ G4) as (_ & V2), (vals_of _ _ _ K3) as (_ & V3), (vals_of _ _ _ K4) as (_ & V4).
      eapply seen_fc with (m := m0) (n := n0); [exact Logic.I|exact Logic.I|exact G5|exact K5|exact G6|exact K6|exact G7|exact K7|exact G8|exact K8| | | |]; cbv beta; cbn [factor old].
      * intros i p Hi Hp. assert (Hin : in_shape (mkShape m0 n0 1) i p 0%N) by (repeat split; cbn; auto; lia).
        rewrite <- (holds_fun bm _ _ _ _ G1 K1 i p 0%N Hin), <- V1, <- V3, (Q1 i p 0%N Hin) by exact Hin. field.
      * intros i Hi. assert (Hin : in_shape (mkShape m0 1 1) i 0%N 0%N) by (repeat split; cbn; auto; lia).
        rewrite <- (holds_fun bm _ _ _ _ G2 K2 i 0%N 0%N Hin), <- V2, <- V4, (Q2 i 0%N 0%N Hin) by exact Hin. field.
      * intros. field.
      * intros. field.
    + inversion St' as [f' g' m1 n1 a1 b1 da1 db1 K1 K2 K3 K4 K5 K6 K7 K8|p Np']; subst; [destruct q; try discriminate P; exfalso; eapply Np; reflexivity|].
      apply seen_same; auto.
Qed.

Lemma epochs_seen vs : (forall i, view_ok (vs i)) -> (forall i u, factor (vs i) u = 1) -> forall n batches r, epochs low bm n batches r ->
  forall n' batches' r', epochs low bm n' batches' r' -> training_built bm n -> training_built bm n' -> trainable n -> layers_seen low bm vs (layers n) (layers n') ->
  Forall2 (fun a a' => fst a' = fst a /\ samples_seen low bm vs (length (layers n)) (snd a) (snd a')) batches batches' -> Forall (fun a => sized n (snd a)) batches ->
  layers_seen low bm vs (layers r) (layers r').
Proof.
  intros Vs F1 n batches r H. induction H as [n|n eta samples rest m q r Sm Bq St Ep IH]; intros n' batches' r' H' B B' Tn LS SS Sz; inversion SS as [|? (eta' & samples') ? rest' (Ee & SS1) SS']; subst.
  - inversion H'; subst. exact LS.
  - cbn [fst snd] in *. subst eta'. inversion Sz as [|? ? Sz1 Sz']; subst. cbn [snd] in Sz1. inversion H' as [|? ? ? ? m' q' ? Sm' Bq' St' Ep']; subst.
    destruct (session_seen vs Vs samples samples' n n' B B' Tn LS SS1 Sz1) as (k & k' & Sk & Sk' & Lk & _).
    rewrite (session_fun _ _ _ Sm _ Sk) in Lk. rewrite (session_fun _ _ _ Sm' _ Sk') in Lk.
    destruct (session_kept n m samples Sm B Tn Sz1) as (Bm & Tm & L1 & I1 & O1). destruct (step_kept eta m q Bm Bq Tm St) as (Tq & L2 & I2 & O2).
    apply (IH q' rest' r' Ep' Bq Bq' Tq).
    + destruct Lk as (L3 & Lk). split; [rewrite (F2_len _ _ _ St), (F2_len _ _ _ St'); exact L3|]. intros i l l' Nl Nl'.
      destruct (nth_error (layers m) i) as [p|] eqn:Np; [|apply nth_error_None in Np; apply nth_error_Some_lt in Nl; lia].
      destruct (nth_error (layers m') i) as [p'|] eqn:Np'; [|apply nth_error_None in Np'; apply nth_error_Some_lt in Nl; lia].
      destruct (F2_nth _ _ _ _ _ St Np) as (z & Nz & Sz2). rewrite Nl in Nz. injection Nz as <-. destruct (F2_nth _ _ _ _ _ St' Np') as (z & Nz & Sz3). rewrite Nl' in Nz. injection Nz as <-.
      exact (step_seen eta _ _ p p' l l' (Vs i) (Vs (S i)) (F1 i) (F1 (S i)) (Lk i p p' Np Np') Sz2 Sz3).
    + replace (length (layers q)) with (length (layers n)) by congruence. exact SS'.
    + unfold sized in *. rewrite I2, O2, I1, O1. exact Sz'.
Qed.

End Relabel.
