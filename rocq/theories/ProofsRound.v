(** * Rounding errors of accumulated gradients *)
From Coq Require Import Reals Lra ZifyBool ZifyNat ZifyN.
From Verif Require Import Base Arith Helper Tensor Convolution Network Float32 Spec SpecLayer SpecTrain SpecReal SpecError SpecRound.
From Verif Require Import Loops TensorFacts OpsFacts ProofsTensor Layout LayerFacts BackFacts ProofsLayer Float32Facts RealSums FloatError.
Ltac Zify.zify_post_hook ::= Z.div_mod_to_equations.
Local Open Scope R_scope.

Lemma fold_fin e (l : list f32) x : fin (fold_left (f32_add e) l x) = true -> fin x = true /\ Forall (fun c => fin c = true) l.
Proof.
  revert x; induction l as [|a l IH]; intros x; cbn [fold_left]; intros H; [auto|].
  apply IH in H. destruct H as (H & Hl). destruct (add_finite _ _ _ H) as (Hx & Ha & _). auto.
Qed.

(** Adding [l] to [x] one by one. *)
Lemma plain_error e (l : list f32) n x S A : Rabs S <= A -> Rabs (real x - S) <= ((1 + u) ^ n - 1) * A ->
  fin (fold_left (f32_add e) l x) = true ->
  Rabs (real (fold_left (f32_add e) l x) - (S + Rsum (map (fun c => real c) l)))
    <= ((1 + u) ^ (n + length l) - 1) * (A + Rsum (map (fun c => Rabs (real c)) l)).
Proof.
  revert n x S A; induction l as [|a l IH]; intros n x S A HS He Hf; cbn [map fold_left length] in *.
  - cbn [Rsum fold_right]. rewrite !Rplus_0_r, Nat.add_0_r. exact He.
  - rewrite !Rsum_cons, <- !Rplus_assoc. replace (n + Datatypes.S (length l))%nat with ((n + 1) + length l)%nat by lia.
    destruct (fold_fin _ _ _ Hf) as (Fs & _). destruct (add_finite _ _ _ Fs) as (_ & _ & Es).
    apply IH; [|clear IH|exact Hf].
    + eapply Rle_trans; [apply Rabs_triang|]. lra.
    + destruct (plus_error x a) as (d & Hd & E). rewrite Es, E. pose proof u_pos as Pu. pose proof (pow_1u_ge n) as Pn.
      replace ((real x + real a) * (1 + d) - (S + real a)) with ((real x - S) * (1 + d) + S * d + real a * d) by ring.
      assert (Q : Rabs (1 + d) <= 1 + u) by (eapply Rle_trans; [apply Rabs_triang|]; rewrite Rabs_R1; lra).
      assert (T1 : Rabs ((real x - S) * (1 + d)) <= ((1 + u) ^ n - 1) * A * (1 + u)) by (rewrite Rabs_mult; apply Rmult_le_compat; try apply Rabs_pos; assumption).
      assert (T2 : Rabs (S * d) <= A * u) by (rewrite Rabs_mult; apply Rmult_le_compat; try apply Rabs_pos; assumption).
      assert (T3 : Rabs (real a * d) <= Rabs (real a) * u) by (rewrite Rabs_mult; apply Rmult_le_compat_l; [apply Rabs_pos|assumption]).
      eapply Rle_trans; [apply Rabs_triang|]. eapply Rle_trans; [apply Rplus_le_compat_r, Rabs_triang|].
      rewrite pow_add, pow_1. set (p := (1 + u) ^ n) in *. pose proof (Rabs_pos (real a)).
      assert (0 <= Rabs (real a) * ((p - 1) * (1 + u))) by (apply Rmult_le_pos; [assumption|apply Rmult_le_pos; lra]). nra.
Qed.

(** The same when every element of [l] is a product known up to one rounding. *)
Lemma product_error e (l : list f32) (zs : list R) n x S A : (1 <= n)%nat -> Rabs S <= A -> Rabs (real x - S) <= bound n A ->
  Forall2 (fun c z => fin c = true -> exists d h, Rabs d <= u /\ Rabs h <= eta /\ real c = z * (1 + d) + h) l zs ->
  fin (fold_left (f32_add e) l x) = true ->
  Rabs (real (fold_left (f32_add e) l x) - (S + Rsum zs)) <= bound (n + length l) (A + Rsum (map Rabs zs)).
Proof.
  intros Hn HS He HF. revert n x S A Hn HS He; induction HF as [|c z l zs Hc HF IH]; intros n x S A Hn HS He Hf; cbn [map fold_left length] in *.
  - cbn [Rsum fold_right]. rewrite !Rplus_0_r, Nat.add_0_r. exact He.
  - rewrite !Rsum_cons, <- !Rplus_assoc. rewrite <- Nat.add_1_l, Nat.add_assoc.
    destruct (fold_fin _ _ _ Hf) as (Fs & _). destruct (add_finite _ _ _ Fs) as (_ & Fc & Es). destruct (Hc Fc) as (d & h & Hd & Hh & Ec).
    apply IH; [lia| | |exact Hf].
    + eapply Rle_trans; [apply Rabs_triang|]. lra.
    + destruct (plus_error x c) as (d2 & H2 & E2). rewrite Es, E2, Ec. apply step_error; assumption.
Qed.

Lemma gated e z g : fin (f32_mul e (@gate f32 (f32_arith e) z) g) = true ->
  fin g = true /\ real (f32_mul e (@gate f32 (f32_arith e) z) g) = if f32_gtb z f32_zero then real g else 0.
Proof.
  intros H. destruct (mul_finite _ _ _ H) as (_ & Fg & E). split; [exact Fg|]. rewrite E. unfold gate.
  change (fgtb z fzero) with (f32_gtb z f32_zero). destruct (f32_gtb z f32_zero).
  - change (real fone) with (real f32_one). rewrite real_one, Rmult_1_l. apply rnd_real.
  - change (real fzero) with 0. rewrite Rmult_0_l. apply rnd_0.
Qed.

Lemma add_zero_real e y : fin (f32_add e f32_zero y) = true -> fin y = true /\ real (f32_add e f32_zero y) = real y.
Proof.
  intros H. destruct (add_finite _ _ _ H) as (_ & Fy & E). split; [exact Fy|]. rewrite E. change (real f32_zero) with 0.
  rewrite Rplus_0_l. apply rnd_real.
Qed.

Lemma accumulated_pairs e c v0 (hist : list (values * values)) :
  @accumulated f32 (f32_arith e) c v0 (map Some hist) = fold_left (f32_add e) (map (fun p => c (fst p) (snd p)) hist) v0.
Proof.
  unfold accumulated. revert v0; induction hist as [|(x & g) h IH]; intros v0; cbn [map fold_left]; [reflexivity|]. apply IH.
Qed.

Lemma bound_start A : 0 <= A -> 0 <= bound 1 A.
Proof.
  intros H. unfold bound. cbn [INR]. rewrite pow_1. pose proof u_pos. pose proof eta_pos.
  assert (0 <= u * A) by (apply Rmult_le_pos; lra). assert (0 < u * eta) by (apply Rmult_lt_0_compat; lra). lra.
Qed.

Lemma fc_gradient_errors e bm m n (ops : list (train_op f32)) (hist : list (values * values)) (l : fc_layer f32) w b wg bg :
  let AR := f32_arith e in
  fc_ok m n l -> fc_run_state l = Training ->
  holds bm (fc_weights l) (mkShape m n 1) w -> holds bm (fc_bias l) (mkShape m 1 1) b ->
  holds bm (fc_weights_gradients l) (mkShape m n 1) wg -> holds bm (fc_bias_gradients l) (mkShape m 1 1) bg ->
  Forall2 (fun op p => pair_holds bm m n op (Some p)) ops hist ->
  exists l' wg' bg', train_all bm (LFC l) ops = Done (LFC l', Ok tt)
    /\ holds bm (fc_weights_gradients l') (mkShape m n 1) wg' /\ holds bm (fc_bias_gradients l') (mkShape m 1 1) bg'
    /\ (forall i j, (i < m)%N -> (j < n)%N ->
          let exact p := passed e n w b i p * real (fst p j 0%N 0%N) in
          within (wg' i j 0%N) (real (wg i j 0%N) + Rsum (map exact hist))
            (bound (1 + length hist) (Rabs (real (wg i j 0%N)) + Rsum (map (fun p => Rabs (exact p)) hist))))
    /\ (forall i, (i < m)%N ->
          within (bg' i 0%N 0%N) (real (bg i 0%N 0%N) + Rsum (map (passed e n w b i) hist))
            (((1 + u) ^ length hist - 1) * (Rabs (real (bg i 0%N 0%N)) + Rsum (map (fun p => Rabs (passed e n w b i p)) hist)))).
Proof.
  intros AR O Tr Hw Hb Hwg Hbg HF.
  assert (HF' : Forall2 (pair_holds bm m n) ops (map Some hist)) by (clear - HF; induction HF; constructor; assumption).
  destruct (fc_accumulates bm m n ops (map Some hist) l w b wg bg O Tr Hw Hb Hwg Hbg HF') as (l' & E & _ & _ & G1 & G2).
  eexists l', _, _. split; [exact E|]. split; [exact G1|]. split; [exact G2|]. split.
  - intros i j Hi Hj. cbv zeta. unfold within. unfold AR. rewrite accumulated_pairs. intros Hf.
    pose proof (product_error e (map (fun p => weight_part n w b i j (fst p) (snd p)) hist) (map (fun p => passed e n w b i p * real (fst p j 0%N 0%N)) hist)
      1 (wg i j 0%N) (real (wg i j 0%N)) (Rabs (real (wg i j 0%N)))) as P.
    rewrite map_length in P. rewrite map_map in P. apply P; [lia|lra| | |exact Hf].
    + rewrite Rminus_diag_eq, Rabs_R0 by reflexivity. apply bound_start, Rabs_pos.
    + clear. induction hist as [|p h IH]; cbn [map]; constructor; [|exact IH]. unfold weight_part. intros F1.
      destruct (add_zero_real e _ F1) as (F2 & E1). destruct (mul_finite _ _ _ F2) as (F3 & _ & E2). destruct (gated _ _ _ F3) as (_ & E3).
      destruct (mul_error (passed e n w b i p) (real (fst p j 0%N 0%N))) as (d & h' & Hd & Hh & E4). exists d, h'. split; [exact Hd|]. split; [exact Hh|].
      rewrite <- E4. etransitivity; [exact E1|]. etransitivity; [exact E2|]. f_equal. f_equal. exact E3.
  - intros i Hi. unfold within. unfold AR. rewrite accumulated_pairs. intros Hf. destruct (fold_fin _ _ _ Hf) as (_ & Fl).
    pose proof (plain_error e (map (fun p => bias_part n w b i (fst p) (snd p)) hist) 0 (bg i 0%N 0%N) (real (bg i 0%N 0%N)) (Rabs (real (bg i 0%N 0%N)))) as P.
    rewrite !map_map, map_length, Nat.add_0_l in P.
    assert (Q : forall p, In p hist -> real (bias_part n w b i (fst p) (snd p)) = passed e n w b i p).
    { intros p Hp. rewrite Forall_map in Fl. rewrite Forall_forall in Fl. specialize (Fl p Hp). apply gated in Fl. apply Fl. }
    rewrite (map_ext_in (fun p => real (bias_part n w b i (fst p) (snd p))) (passed e n w b i)) in P by exact Q.
    rewrite (map_ext_in (fun p => Rabs (real (bias_part n w b i (fst p) (snd p)))) (fun p => Rabs (passed e n w b i p))) in P by (intros p Hp; rewrite Q by exact Hp; reflexivity).
    apply P; [lra| |exact Hf]. rewrite Rminus_diag_eq, Rabs_R0 by reflexivity. cbn [pow]. lra.
Qed.

Lemma fc_outgoing_error e bm m n (l : fc_layer f32) X Y g og w b x gf :
  let AR := f32_arith e in
  fc_ok m n l -> fc_run_state l = Training ->
  holds bm (fc_weights l) (mkShape m n 1) w -> holds bm (fc_bias l) (mkShape m 1 1) b ->
  holds bm X (mkShape n 1 1) x -> holds bm g (mkShape m 1 1) gf -> shaped Y (mkShape m 1 1) -> shaped og (mkShape n 1 1) ->
  exists l1 y l2 og' o, fc_forward bm l X Y = Done (l1, y, Ok tt) /\ fc_backward bm l1 X y g og = Done (l2, og', Ok tt)
    /\ holds bm og' (mkShape n 1 1) o
    /\ forall j, (j < n)%N ->
         let exact i := real (w i j 0%N) * passed e n w b i (x, gf) in
         within (o j 0%N 0%N) (Rsum (map exact (upto m))) (bound (N.to_nat m) (Rsum (map (fun i => Rabs (exact i)) (upto m)))).
Proof.
  intros AR O Tr Hw Hb Hx Hg HY Ho.
  pose proof (holds_shaped _ _ _ _ Hx) as Sx. pose proof (holds_shaped _ _ _ _ Hg) as Sg.
  pose proof (fc_forward_training bm l m n X Y O Tr Sx HY) as Q1. set (mask := of_fun _ _) in Q1.
  assert (O1 : fc_ok m n (fc_set_mask l mask)).
  { destruct O as (Ow & Ob & Ot). split; [exact Ow|]. split; [exact Ob|]. intros _. destruct (Ot Tr) as (H5 & H2 & H3 & H4).
    cbn. split; [exact H5|]. split; [exact H2|]. split; [exact H3|]. apply shaped_of_fun. apply (shaped_eq _ _ H4). }
  pose proof (fun Y => fc_backward_values bm (fc_set_mask l mask) m n X Y g og O1 Tr Sx Sg Ho) as Q2.
  eexists _, _, _, _, (fc_outgoing m (fc_set_mask l mask) (val g)). split; [exact Q1|]. split; [exact (Q2 _)|].
  split; [apply holds_of_fun; apply (shaped_eq _ _ Ho)|].
  intros j Hj. cbv zeta. unfold within, fc_outgoing, mm_fn, sum.
  set (l0 := map (fun i => (w i j 0%N, f32_mul e (@gate f32 AR (pre_activation n w b x i)) (gf i 0%N 0%N))) (upto m)).
  assert (V : map (fun i => f32_mul e (val (fc_weights (fc_set_mask l mask)) i j 0%N) (f32_mul e (val (fc_relu_mask (fc_set_mask l mask)) i 0%N 0%N) (val g i 0%N 0%N))) (upto m)
    = map (fun p => f32_mul e (fst p) (snd p)) l0).
  { unfold l0. rewrite map_map. apply map_ext_in. intros i Hi. apply in_upto in Hi. cbn [fst snd fc_set_mask fc_weights fc_relu_mask].
    pose proof (holds_fun _ _ _ _ _ (shaped_holds bm _ _ (holds_shaped _ _ _ _ Hw)) Hw) as Fw. rewrite Fw by (repeat split; cbn; lia). f_equal. f_equal.
    - unfold mask. rewrite val_of_fun by (repeat split; cbn; lia). f_equal.
      apply (pre_activation_ext m); [exact Hi|exact Fw| |].
      + exact (holds_fun _ _ _ _ _ (shaped_holds bm _ _ (holds_shaped _ _ _ _ Hb)) Hb).
      + exact (holds_fun _ _ _ _ _ (shaped_holds bm _ _ Sx) Hx).
    - apply (holds_fun _ _ _ _ _ (shaped_holds bm _ _ Sg) Hg). repeat split; cbn; lia. }
  intros Hf. pose proof (dot_error e l0) as P. cbv zeta in P. rewrite <- V in P. specialize (P Hf). destruct (fold_fin _ _ _ Hf) as (_ & Fl).
  assert (Fl' : Forall (fun c => fin c = true) (map (fun p => f32_mul e (fst p) (snd p)) l0)) by (rewrite <- V; exact Fl).
  clear Fl; rename Fl' into Fl. rewrite Forall_map in Fl.
  assert (Q : forall i, In i (upto m) -> real (f32_mul e (@gate f32 AR (pre_activation n w b x i)) (gf i 0%N 0%N)) = passed e n w b i (x, gf)).
  { intros i Hi. rewrite Forall_forall in Fl. specialize (Fl _ (in_map _ _ _ Hi)). cbn [fst snd] in Fl. apply mul_finite in Fl. destruct Fl as (_ & Fl & _).
    apply gated in Fl. apply Fl. }
  unfold l0 in P. rewrite !map_map, map_length, length_upto in P. cbn [fst snd] in P.
  set (q := fun i => f32_mul e (@gate f32 AR (pre_activation n w b x i)) (gf i 0%N 0%N)) in *.
  rewrite (map_ext_in (fun i => real (w i j 0%N) * real (q i)) (fun i => real (w i j 0%N) * passed e n w b i (x, gf))) in P by (intros i Hi; f_equal; exact (Q i Hi)).
  rewrite (map_ext_in (fun i => Rabs (real (w i j 0%N) * real (q i))) (fun i => Rabs (real (w i j 0%N) * passed e n w b i (x, gf)))) in P by (intros i Hi; do 2 f_equal; exact (Q i Hi)).
  exact P.
Qed.

Lemma conv_gradient_error e bm ks (l l' : conv_layer f32) x gf X Y g og og' r :
  let AR := f32_arith e in
  conv_layer_ok ks l -> cv_run_state l = Training -> holds bm X (cv_input_shape l) x -> holds bm g (cv_output_shape l) gf ->
  cv_backward bm l X Y g og = Done (l', og', r) ->
  exists kg, len (cv_kernel_gradients l') = len (cv_kernels l) /\ all_hold bm (cv_kernel_gradients l') ks kg
    /\ forall n a b c, in_shape ks a b c ->
         let s := cv_stride l in
         let exact cell := let '(i, j, k) := cell in real (x (a + i * s) (b + j * s) c)%N * real (gf i j k) in
         let outputs := cells (cv_output_shape l) in
         within (kg n a b c) (Rsum (map exact outputs)) (bound (length outputs) (Rsum (map (fun q => Rabs (exact q)) outputs))).
Proof.
  intros AR O Tr HX Hg E. destruct (conv_backward_exact bm ks l l' x gf X Y g og og' r O Tr HX Hg E) as (L & G & _).
  eexists. split; [exact L|]. split; [exact G|]. intros n a b c Hin. cbv zeta beta. unfold within, sum. intros Hf.
  set (f := fun q : N * N * N => let '(i, j, k) := q in (x (a + i * cv_stride l)%N (b + j * cv_stride l)%N c, gf i j k)).
  pose proof (dot_error e (map f (cells (cv_output_shape l)))) as P. cbv zeta in P. rewrite !map_map, map_length in P.
  assert (V : map (fun q => f32_mul e (fst (f q)) (snd (f q))) (cells (cv_output_shape l))
    = map (fun '(i, j, k) => fmul (x (a + i * cv_stride l)%N (b + j * cv_stride l)%N c) (gf i j k)) (cells (cv_output_shape l))).
  { apply map_ext. intros ((i & j) & k). reflexivity. }
  rewrite V in P. specialize (P Hf).
  rewrite (map_ext _ (fun '(i, j, k) => real (x (a + i * cv_stride l)%N (b + j * cv_stride l)%N c) * real (gf i j k))) in P by (intros ((i & j) & k); reflexivity).
  rewrite (map_ext (fun q => Rabs (real (fst (f q)) * real (snd (f q)))) (fun q => Rabs (let '(i, j, k) := q in real (x (a + i * cv_stride l)%N (b + j * cv_stride l)%N c) * real (gf i j k)))) in P by (intros ((i & j) & k); reflexivity).
  exact P.
Qed.
