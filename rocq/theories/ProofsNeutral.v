(** * Proofs for C108 *)
From Coq Require Import Reals Lra ZifyBool ZifyNat ZifyN.
From Flocq Require Import Core.Raux IEEE754.Binary.
From Verif Require Import Base Arith Helper Tensor Convolution Network Bincode Serial Float32 Spec SpecLayer SpecNet SpecError SpecNeutral Loops TensorFacts OpsFacts.
From Verif Require Import ProofsFloat ProofsTensor ProofsConv Layout LayerFacts NetFacts NetRun ProofsStates ProofsNet FloatError ProofsAccum.
Ltac Zify.zify_post_hook ::= Z.div_mod_to_equations.
Local Open Scope N_scope.

Section Env.
Context (e : env).
Let AR := f32_arith e.
Existing Instance AR.
Notation T := (tensor f32).

Definition plain (v : f32) : Prop := fin v = true /\ Bsign 24 128 v = false.

Lemma zero_plus v : plain v -> f32_add e f32_zero v = v.
Proof. intros (Fv & Sv). destruct v as [s|s|s pl H|s m ex H]; try discriminate; cbn in Sv; subst s; reflexivity. Qed.
Lemma plus_zero v : plain v -> f32_add e v f32_zero = v.
Proof. intros (Fv & Sv). destruct v as [s|s|s pl H|s m ex H]; try discriminate; cbn in Sv; subst s; reflexivity. Qed.
Lemma zero_times v : plain v -> f32_mul e f32_zero v = f32_zero.
Proof. intros (Fv & Sv). destruct v as [s|s|s pl H|s m ex H]; try discriminate; cbn in Sv; subst s; reflexivity. Qed.
Lemma times_zero v : plain v -> f32_mul e v f32_zero = f32_zero.
Proof. intros (Fv & Sv). destruct v as [s|s|s pl H|s m ex H]; try discriminate; cbn in Sv; subst s; reflexivity. Qed.
Lemma same_real (v w : f32) : fin v = true -> fin w = true -> real v = real w -> real w <> 0%R -> v = w.
Proof.
  intros Fv Fw E N. apply B2R_inj; [| |exact E].
  - destruct v as [s|s|s pl H|s m ex H]; try discriminate; [|reflexivity]. exfalso. apply N. rewrite <- E. reflexivity.
  - destruct w as [s|s|s pl H|s m ex H]; try discriminate; [|reflexivity]. exfalso. apply N. reflexivity.
Qed.
Lemma finite_nonzero s m ex H : real (B754_finite 24 128 s m ex H) <> 0%R.
Proof. unfold real, B2R. intros Q. apply Flocq.Core.Float_prop.eq_0_F2R in Q. destruct s; discriminate. Qed.
Lemma one_times v : plain v -> f32_mul e f32_one v = v.
Proof.
  intros (Fv & Sv). destruct (mul_one e v Fv) as (F1 & R1). destruct v as [s|s|s pl H|s m ex H]; try discriminate; cbn in Sv; subst s; [reflexivity|].
  apply same_real; [exact F1|exact Fv|exact R1|apply finite_nonzero].
Qed.
Lemma times_one v : plain v -> f32_mul e v f32_one = v.
Proof.
  intros (Fv & Sv). assert (Q : (real v * real f32_one)%R = real v) by (rewrite real_one; ring).
  destruct (mul_exactly e v f32_one v Fv eq_refl Q) as (F1 & R1). destruct v as [s|s|s pl H|s m ex H]; try discriminate; cbn in Sv; subst s; [reflexivity|].
  apply same_real; [exact F1|exact Fv|exact R1|apply finite_nonzero].
Qed.
Lemma plain_relu v : plain v -> relu v = v.
Proof. intros (Fv & Sv). destruct v as [s|s|s pl H|s m ex H]; try discriminate; cbn in Sv; subst s; reflexivity. Qed.
Lemma plain_zero : plain f32_zero.
Proof. split; reflexivity. Qed.

Lemma one_term (t : N -> f32) i : plain (t i) -> forall n, (forall p, p < n -> p <> i -> t p = f32_zero) ->
  sum (map t (upto n)) = if i <? n then t i else f32_zero.
Proof.
  intros P n. induction n as [|n IH] using N.peano_ind; intros H; [replace (i <? 0) with false by lia; reflexivity|]. rewrite upto_succ, map_app. unfold sum. rewrite fold_left_app.
  change (fold_left fadd (map t (upto n)) fzero) with (sum (map t (upto n))). rewrite IH by (intros; apply H; lia). cbn [map fold_left]. change (@fadd f32 AR) with (f32_add e).
  destruct (N.eq_dec n i) as [->|Q].
  - rewrite N.ltb_irrefl. replace (i <? N.succ i) with true by lia. apply zero_plus, P.
  - rewrite (H n) by lia. replace (i <? N.succ n) with (i <? n) by lia. apply plus_zero. destruct (i <? n); [exact P|exact plain_zero].
Qed.

Lemma in_data bm (t : T) s f i j k : holds bm t s f -> in_shape s i j k -> In (f i j k) (data t).
Proof.
  intros H I. apply holds_iff in H. destruct H as (_ & ->). unfold of_fun. cbn [data]. apply in_map_iff. exists (i, j, k). split; [reflexivity|]. apply in_cells. exact I.
Qed.

Lemma single_cells d : cells (mkShape 1 1 d) = map (fun k => (0, 0, k)) (upto d).
Proof. unfold cells. cbn [di dj dk]. change (upto 1) with [0]. cbn [flat_map map app]. induction (upto d) as [|k l IH]; [reflexivity|]. cbn [flat_map map app]. rewrite IH. reflexivity. Qed.

Lemma nothing_computes bm p (X Y : T) : does_nothing e bm p -> Forall (passes p) (data X) -> computes bm p X Y -> Y = X.
Proof.
  intros D P C. destruct C as [weights bias m n w b X x Y Hw Hb Hx Hy|kernels biases stride ins outs ks h bv X x Y Hk Ek Lb Hb C Hx Hy
    |ins mask outs stride X x Y C Hx Hy|s X x Y Hx Hy]; cbn [does_nothing passes] in *.
  - destruct D as (q & Dw & Db). pose proof (holds_shape _ _ _ _ _ _ Hw Dw) as Q. injection Q as -> ->. eapply holds_eq; [exact Hy|exact Hx|].
    intros i j k I. pose proof I as (Hi & Hj & Hkk). cbn [di dj dk] in *. assert (j = 0) as -> by lia. assert (k = 0) as -> by lia. cbv beta.
    assert (Px : forall p, p < q -> plain (x p 0 0)).
    { intros p Hp. rewrite Forall_forall in P. apply P. eapply in_data; [exact Hx|repeat split; cbn; lia]. }
    rewrite (holds_fun _ _ _ _ _ Hb Db) by (repeat split; cbn; lia).
    assert (Q : sum (map (fun p => fmul (w i p 0) (x p 0 0)) (upto q)) = x i 0 0).
    { rewrite (one_term (fun p => fmul (w i p 0) (x p 0 0)) i).
      - replace (i <? q) with true by lia. rewrite (holds_fun _ _ _ _ _ Hw Dw) by (repeat split; cbn; lia). rewrite N.eqb_refl. apply one_times, Px, Hi.
      - rewrite (holds_fun _ _ _ _ _ Hw Dw) by (repeat split; cbn; lia). rewrite N.eqb_refl. change (plain (f32_mul e f32_one (x i 0 0))). rewrite one_times; apply Px, Hi.
      - intros p Hp Np. rewrite (holds_fun _ _ _ _ _ Hw Dw) by (repeat split; cbn; lia). replace (i =? p) with false by lia. apply zero_times, Px, Hp. }
    rewrite Q. change (relu (f32_add e (x i 0 0) f32_zero) = x i 0 0). rewrite plus_zero by (apply Px, Hi). apply plain_relu, Px, Hi.
  - destruct D as (-> & -> & Dk & Db). eapply holds_eq; [exact Hy|exact Hx|]. intros i j k I. pose proof I as (Hi & Hj & Hkk). cbv beta.
    destruct (vget_some kernels k) as (kt & Nk & _); [lia|]. destruct (vget_some biases k) as (bt & Nb & _); [lia|].
    pose proof (holds_shape _ _ _ _ _ _ (Hk _ _ Nk) (Dk _ _ Nk)) as ->. pose proof (Hb _ _ Nb) as B. rewrite Forall_forall in Db. pose proof (eq_trans (eq_sym B) (Db bt ltac:(eapply nth_error_In; exact Nb))) as B'. injection B' as ->.
    assert (Px : forall c, c < dk ins -> plain (x i j c)).
    { intros c Hc. rewrite Forall_forall in P. apply P. eapply in_data; [exact Hx|repeat split; assumption]. }
    assert (Q : sum (window_products (mkShape 1 1 (dk ins)) 1 x (h k) i j) = x i j k).
    { unfold window_products. rewrite single_cells, map_map. rewrite !N.mul_1_r, !N.add_0_r.
      assert (E : forall c, c < dk ins -> h k 0 0 c = if c =? k then fone else fzero) by (intros c Hc; apply (holds_fun _ _ _ _ _ (Hk _ _ Nk) (Dk _ _ Nk)); repeat split; cbn; lia).
      rewrite (one_term (fun c => fmul (x i j c) (h k 0 0 c)) k).
      - replace (k <? dk ins) with true by lia. rewrite E, N.eqb_refl by exact Hkk. apply times_one, Px, Hkk.
      - rewrite E, N.eqb_refl by exact Hkk. change (plain (f32_mul e (x i j k) f32_one)). rewrite times_one; apply Px, Hkk.
      - intros c Hc Nc. rewrite E by exact Hc. replace (c =? k) with false by lia. apply times_zero, Px, Hc. }
    rewrite Q. change (relu (f32_add e (x i j k) f32_zero) = x i j k). rewrite plus_zero by (apply Px, Hkk). apply plain_relu, Px, Hkk.
  - destruct D as (D1 & D2 & ->). destruct C as (C1 & (_ & L1 & _ & C2) & (_ & L2 & _ & C3)). rewrite D1 in *. rewrite D2 in *. rewrite N.div_1_r in C2, C3.
    assert (outs = ins) as -> by (destruct outs, ins; cbn in *; f_equal; lia). eapply holds_eq; [exact Hy|exact Hx|]. intros i j k I. cbv beta.
    unfold window_values, window_positions. change (upto 1) with [0]. cbn [flat_map map app]. rewrite !N.mul_1_r, !N.add_0_r. unfold running_max. cbn [fold_left].
    assert (Q : isnan (x i j k) = false) by (rewrite Forall_forall in P; apply P; eapply in_data; eassumption).
    change ((if f32_gtb (x i j k) f32_ninf then x i j k else f32_ninf) = x i j k). destruct (x i j k) as [[]|[]|s pl H|[] m ex H]; try discriminate Q; reflexivity.
  - contradiction.
Qed.

Lemma composes_join bm ps1 ps2 : forall X Z Y : T, composes bm ps1 X Z -> composes bm (ps1 ++ ps2) X Y -> composes bm ps2 Z Y.
Proof.
  induction ps1 as [|p ps1 IH]; intros X Z Y; cbn [composes app]; [intros ->; auto|]. intros (U & C & H) (V & C' & H'). rewrite (computes_fun _ _ _ _ _ C' C) in H'. eapply IH; eassumption.
Qed.

(** C108 *)
Lemma inserted_nothing bm (n n' : network f32) A p B X m m' Z :
  well_built bm n -> well_built bm n' -> map params_of (layers n) = (A ++ B)%list -> map params_of (layers n') = (A ++ p :: B)%list -> does_nothing e bm p ->
  wf X -> infer bm n X = Done (m, Ok tt) -> infer bm n' X = Done (m', Ok tt) ->
  get_intermediate_state m (len A) = Done (Ok Z) -> Forall (passes p) (data Z) -> get_output m' = get_output m.
Proof.
  intros W W' L L' D Wx E E' G P. destruct (built_composes e bm n X m W Wx E) as (Y & GY & CY). destruct (built_composes e bm n' X m' W' Wx E') as (Y' & GY' & CY').
  rewrite GY, GY'. f_equal. f_equal. pose proof (built_states e bm n X m W Wx E _ _ G) as CZ. rewrite L in *. rewrite L' in *.
  rewrite firstn_app in CZ. unfold len in CZ. rewrite Nnat.Nat2N.id, firstn_all, Nat.sub_diag, firstn_O, app_nil_r in CZ.
  pose proof (composes_join bm A B X Z Y CZ CY) as C1. pose proof (composes_join bm A (p :: B) X Z Y' CZ CY') as (V & CV & C2).
  rewrite (nothing_computes bm p Z V D P CV) in C2. eapply composes_fun; eassumption.
Qed.

Lemma inserted_behind_relu bm (n n' : network f32) A a p B X m m' Z :
  well_built bm n -> well_built bm n' -> map params_of (layers n) = (A ++ a :: B)%list -> map params_of (layers n') = (A ++ a :: p :: B)%list -> does_nothing e bm p ->
  match a with PFC _ _ | PConv _ _ _ _ _ => True | _ => False end ->
  wf X -> infer bm n X = Done (m, Ok tt) -> infer bm n' X = Done (m', Ok tt) ->
  get_intermediate_state m (len A + 1) = Done (Ok Z) -> Forall (fun v => fin v = true) (data Z) -> get_output m' = get_output m.
Proof.
  intros W W' L L' D Ra Wx E E' G P. pose proof (built_states e bm n X m W Wx E _ _ G) as CZ.
  replace (A ++ a :: B)%list with ((A ++ [a]) ++ B)%list in L by (rewrite <- app_assoc; reflexivity). replace (A ++ a :: p :: B)%list with ((A ++ [a]) ++ p :: B)%list in L' by (rewrite <- app_assoc; reflexivity).
  replace (len A + 1) with (len (A ++ [a])) in * by (unfold len; rewrite app_length; cbn [length]; lia).
  eapply (inserted_nothing bm n n' (A ++ [a]) p B X m m' Z); try eassumption.
  rewrite L, firstn_app in CZ. unfold len in CZ. rewrite Nnat.Nat2N.id, firstn_all, Nat.sub_diag, firstn_O, app_nil_r in CZ.
  assert (C : exists U, computes bm a U Z).
  { clear -CZ. revert X CZ. induction A as [|q A IH]; intros X; cbn [app composes]; [intros (U & C & <-); eauto|intros (U & _ & C); eauto]. }
  destruct C as (U & C). apply Forall_forall. intros v Hv. rewrite Forall_forall in P. specialize (P v Hv).
  assert (Pv : plain v).
  { assert (R : exists y, v = relu y).
    { destruct C; try contradiction; match goal with H : holds _ _ _ _ |- _ => destruct (holds_data e _ _ _ _ _ H Hv) as (i & j & k & _ & ->) end; eexists; reflexivity. }
    destruct R as (y & ->). split; [exact P|]. unfold relu in *. change (@fgtb f32 AR) with f32_gtb in *. destruct (f32_gtb y fzero) eqn:Gy; [|reflexivity].
    destruct y as [[]|[]|s pl H|[] q ex H]; try discriminate; reflexivity. }
  destruct p; cbn [passes]; [exact Pv|exact Pv| |exact Pv]. destruct v; try discriminate P; reflexivity.
Qed.

End Env.
