(** * Networks that end in a softmax layer *)
From Coq Require Import Reals Lra ZifyBool ZifyNat ZifyN.
From Flocq Require Import Core IEEE754.Binary.
From Verif Require Import Base Arith Helper Tensor Convolution Network Bincode Serial Float32 RealArith Spec SpecLayer SpecNet SpecReal SpecError.
From Verif Require Import Float32Facts FloatError RealSums Loops TensorFacts OpsFacts ProofsTensor ProofsFloat LayerFacts NetFacts NetRun NetBack ProofsNet ProofsReal ProofsGrad ProofsStates ProofsRound.
Local Open Scope R_scope.

Section Any.
Context {F : Type} {AR : Arith F} {BT : Bits F} (RA : relu_agrees F).
Notation T := (tensor F).

Lemma last_softmax bm (n : network F) ls l (X : T) : well_built bm n -> layers n = (ls ++ [LSoftmax l])%list -> shaped X (net_input_shape n) ->
  exists n1 Z Y z, infer bm n X = Done (n1, Ok tt) /\ get_intermediate_state n1 (len ls) = Done (Ok Z) /\ get_output n1 = Done (Ok Y)
    /\ holds bm Z (net_output_shape n) z
    /\ holds bm Y (net_output_shape n) (fun i j k => fdiv (fexp (z i j k)) (sum (map (fun '(i, j, k) => fexp (z i j k)) (cells (net_output_shape n))))).
Proof.
  intros W L SX. pose proof (built_ok bm n RA W) as O. assert (NE : layers n <> []) by (rewrite L; destruct ls; discriminate).
  destruct (state_step RA bm n X O NE SX) as (n1 & E & O1 & _ & St).
  destruct (St (length ls) (LSoftmax l)) as (Z & Y & NZ & NY & C); [rewrite L, nth_error_app2, Nat.sub_diag by lia; reflexivity|].
  cbn [params_of] in C. inversion C as [| | |s X0 z Y0 HZ HY]; subst.
  assert (SO : net_output_shape n = sm_shape l). { pose proof O as (Sn & _). rewrite (output_of_last n ls _ Sn L). reflexivity. }
  rewrite SO. exists n1, Z, Y, z. split; [exact E|]. split; [apply exposed_state; unfold len; rewrite Nat2N.id; exact NZ|]. split; [|auto].
  pose proof O1 as (S1 & _). pose proof (infer_kept _ _ _ _ _ E) as (I & _). apply (f_equal (@length _)) in I. rewrite !map_length in I.
  assert (NE1 : layers n1 <> []) by (intros Q; rewrite Q in I; destruct (layers n); [congruence|discriminate I]).
  rewrite (proj1 (output_is_last n1 S1) NE1). apply exposed_state. unfold len. rewrite Nat2N.id, I, L, app_length, Nat.add_1_r. exact NY.
Qed.
End Any.

(** ** Exact arithmetic *)
Section Exact.
Variable low : R.
#[local] Hint Extern 0 (Arith R) => exact (R_arith low) : typeclass_instances.

Lemma classifier_exact {BT : Bits R} bm (n : network R) ls l (X : tensor R) :
  well_built bm n -> layers n = (ls ++ [LSoftmax l])%list -> shaped X (net_input_shape n) ->
  exists n1 Z Y z y, infer bm n X = Done (n1, Ok tt) /\ get_intermediate_state n1 (len ls) = Done (Ok Z) /\ get_output n1 = Done (Ok Y)
    /\ holds bm Z (net_output_shape n) z /\ holds bm Y (net_output_shape n) y
    /\ (forall i j k, in_shape (net_output_shape n) i j k -> 0 < y i j k)
    /\ (forall i j k i' j' k', in_shape (net_output_shape n) i j k -> in_shape (net_output_shape n) i' j' k' -> (z i j k < z i' j' k' <-> y i j k < y i' j' k'))
    /\ ((exists i j k, in_shape (net_output_shape n) i j k) -> Rsum (map (fun '(i, j, k) => y i j k) (cells (net_output_shape n))) = 1).
Proof.
  intros W L SX. destruct (last_softmax (relu_agrees_R low) bm n ls l X W L SX) as (n1 & Z & Y & z & E & GZ & GY & HZ & HY).
  eexists n1, Z, Y, z, _. do 4 (split; [eassumption|]). split; [exact HY|]. cbv beta. cbn [fdiv fexp R_arith]. rewrite sum_Rsum.
  set (s := net_output_shape n). set (S := Rsum _).
  assert (HS : (exists i j k, in_shape s i j k) -> 0 < S).
  { intros (i & j & k & Hin). apply Rsum_pos; [|intros ((i' & j') & k') _; apply exp_pos]. intros Q. apply in_cells in Hin. rewrite Q in Hin. destruct Hin. }
  split; [|split].
  - intros i j k Hin. apply Rdiv_lt_0_compat; [apply exp_pos|apply HS; eauto].
  - intros i j k i' j' k' Hin _. assert (P : 0 < / S) by (apply Rinv_0_lt_compat, HS; eauto). unfold Rdiv. split; intros H.
    + apply Rmult_lt_compat_r; [exact P|]. apply exp_increasing, H.
    + apply Rmult_lt_reg_r in H; [|exact P]. apply exp_lt_inv, H.
  - intros Hs. specialize (HS Hs). rewrite (Rsum_ext _ (fun c => (fun '(i, j, k) => exp (z i j k)) c * / S)) by (intros ((i & j) & k) _; reflexivity).
    rewrite Rsum_scale_r. fold S. apply Rinv_r. lra.
Qed.
End Exact.

(** ** f32 *)
Lemma quotients_sum e (l : list f32) : let total := fold_left (f32_add e) l f32_zero in
  (forall x, In x l -> fin x = true -> 0 <= real x) -> fin total = true -> real total <> 0 ->
  let g := (1 + u) ^ length l - 1 in g < 1 ->
  Rabs (Rsum (map (fun x => real (f32_div e x total)) l) - 1) <= (g + u) / (1 - g) + INR (length l) * eta.
Proof.
  intros total Pos Hf Hz g Hg. destruct (fold_fin _ _ _ Hf) as (_ & Fl). rewrite Forall_forall in Fl.
  assert (Pl : forall x, In x l -> 0 <= real x) by (intros x Hx; apply Pos; [exact Hx|apply Fl, Hx]).
  destruct (sum_grows e l f32_zero Hf Pos) as (Z & G); [reflexivity|cbn; lra|]. fold total in Z, G. cbn in Z.
  assert (Pt : 0 < real total) by lra. clear Z.
  pose proof (plain_error e l 0 f32_zero 0 0) as P. fold total in P. rewrite Nat.add_0_l, !Rplus_0_l in P. fold g in P.
  assert (E : Rabs (real total - Rsum (map (fun c => real c) l)) <= g * Rsum (map (fun c => real c) l)).
  { rewrite (map_ext_in (fun c => Rabs (real c)) (fun c => real c)) in P by (intros c Hc; apply Rabs_pos_eq, Pl, Hc).
    apply P; [rewrite Rabs_R0; lra|cbn; rewrite Rminus_0_r, Rabs_R0; lra|exact Hf]. }
  clear P. set (S := Rsum (map (fun c => real c) l)) in *. set (t := real total) in *.
  assert (Pg : 0 <= g) by (unfold g; pose proof (pow_1u_ge (length l)); lra).
  assert (E1 : t - S <= g * S) by (pose proof (Rle_abs (t - S)); lra). assert (E2 : S - t <= g * S) by (pose proof (Rle_abs (S - t)) as Q; rewrite Rabs_minus_sym in Q; lra).
  assert (PS : 0 < S) by nra.
  assert (Q : forall x, In x l -> Rabs (real (f32_div e x total) - real x / t) <= u * (real x / t) + eta).
  { intros x Hx. destruct (G x Hx) as (Fx & Lx). fold t in Lx.
    pose proof (Binary.Bdiv_correct 24 128 f32_prec f32_emax (nan_div e) BinarySingleNaN.mode_NE x total Hz) as C.
    change (round radix2 _ _ (real x / real total)) with (rnd (real x / t)) in C.
    assert (B : 0 <= rnd (real x / t) <= 1).
    { split; [rewrite <- rnd_0|rewrite <- rnd_1]; apply rnd_mono.
      - apply Rmult_le_pos; [apply Pl, Hx|]. left. apply Rinv_0_lt_compat. exact Pt.
      - apply Rmult_le_reg_r with t; [exact Pt|]. unfold Rdiv. rewrite Rmult_assoc, Rinv_l by lra. lra. }
    rewrite Rlt_bool_true in C.
    - destruct C as (C1 & _). change (Bdiv _ _ _ _ _ _ x total) with (f32_div e x total) in C1. rewrite C1.
      change (round radix2 _ _ (real x / real total)) with (rnd (real x / t)).
      destruct (mul_error (real x) (/ t)) as (d & h & Hd & Hh & Em). unfold Rdiv. rewrite Em.
      replace (real x * / t * (1 + d) + h - real x * / t) with (real x * / t * d + h) by ring.
      eapply Rle_trans; [apply Rabs_triang|]. rewrite Rabs_mult.
      assert (P : 0 <= real x * / t) by (apply Rmult_le_pos; [apply Pl, Hx|left; apply Rinv_0_lt_compat; exact Pt]).
      rewrite (Rabs_pos_eq (real x * / t)) by exact P. pose proof (Rmult_le_compat_l _ _ _ P Hd). lra.
    - rewrite Rabs_pos_eq by lra. apply Rle_lt_trans with 1; [lra|]. change 1 with (bpow radix2 0). apply bpow_lt. lia. }
  assert (D : Rabs (Rsum (map (fun x => real (f32_div e x total)) l) - S / t) <= u * (S / t) + INR (length l) * eta).
  { assert (K : forall l0, (forall x, In x l0 -> In x l) ->
      Rabs (Rsum (map (fun x => real (f32_div e x total)) l0) - Rsum (map (fun c => real c) l0) / t) <= u * (Rsum (map (fun c => real c) l0) / t) + INR (length l0) * eta).
    { induction l0 as [|a l0 IH]; intros Hi; cbn [map length].
      - cbn. unfold Rdiv. rewrite Rmult_0_l, Rminus_0_r, Rabs_R0. lra.
      - rewrite !Rsum_cons, S_INR. specialize (IH (fun x Hx => Hi x (or_intror Hx))). pose proof (Q a (Hi a (or_introl eq_refl))) as Qa.
        unfold Rdiv in *. set (A := Rsum (map (fun x => real (f32_div e x total)) l0)) in *. set (B := Rsum (map (fun c => real c) l0)) in *.
        replace (real (f32_div e a total) + A - (real a + B) * / t) with ((real (f32_div e a total) - real a * / t) + (A - B * / t)) by ring.
        eapply Rle_trans; [apply Rabs_triang|]. lra. }
    apply K. auto. }
  assert (R1 : S / t <= / (1 - g)).
  { apply Rmult_le_reg_r with t; [exact Pt|]. unfold Rdiv. rewrite Rmult_assoc, Rinv_l, Rmult_1_r by lra.
    apply Rmult_le_reg_l with (1 - g); [lra|]. rewrite <- Rmult_assoc, Rinv_r by lra. lra. }
  assert (P0 : 0 <= S / t) by (apply Rmult_le_pos; [lra|left; apply Rinv_0_lt_compat; exact Pt]).
  assert (R2 : Rabs (S / t - 1) <= g * (S / t)).
  { replace (S / t - 1) with ((S - t) * / t) by (field; lra). rewrite Rabs_mult, (Rabs_pos_eq (/ t)) by (left; apply Rinv_0_lt_compat; exact Pt).
    unfold Rdiv. rewrite <- Rmult_assoc. apply Rmult_le_compat_r; [left; apply Rinv_0_lt_compat; exact Pt|]. rewrite Rabs_minus_sym. exact E. }
  set (A := Rsum (map (fun x => real (f32_div e x total)) l)) in *. replace (A - 1) with ((A - S / t) + (S / t - 1)) by ring.
  eapply Rle_trans; [apply Rabs_triang|]. pose proof u_pos. unfold Rdiv at 3. nra.
Qed.

Section Rounded.
Variable e : env.
#[local] Hint Extern 0 (Arith f32) => exact (f32_arith e) : typeclass_instances.

Lemma classifier_rounded bm (n : network f32) ls l (X : tensor f32) :
  (forall x, f32_gtb f32_zero (env_exp e x) = false) ->
  well_built bm n -> layers n = (ls ++ [LSoftmax l])%list -> shaped X (net_input_shape n) ->
  exists n1 Z Y z y, infer bm n X = Done (n1, Ok tt) /\ get_intermediate_state n1 (len ls) = Done (Ok Z) /\ get_output n1 = Done (Ok Y)
    /\ holds bm Z (net_output_shape n) z /\ holds bm Y (net_output_shape n) y
    /\ let s := net_output_shape n in
       let total := sum (map (fun '(i, j, k) => env_exp e (z i j k)) (cells s)) in
       (fin total = true -> real total <> 0 ->
          (forall i j k, in_shape s i j k -> fin (y i j k) = true /\ 0 <= real (y i j k) <= 1)
          /\ (forall i j k i' j' k', in_shape s i j k -> in_shape s i' j' k' -> f32_gtb (env_exp e (z i j k)) (env_exp e (z i' j' k')) = false ->
                real (y i j k) <= real (y i' j' k'))
          /\ let g := (1 + u) ^ length (cells s) - 1 in
             g < 1 -> Rabs (Rsum (map (fun '(i, j, k) => real (y i j k)) (cells s)) - 1) <= (g + u) / (1 - g) + INR (length (cells s)) * eta)
       /\ (forall i j k, in_shape s i j k -> env_exp e (z i j k) = B754_infinity 24 128 false -> isnan (y i j k) = true).
Proof.
  intros Pos W L SX. destruct (last_softmax (f32_relu_agrees e) bm n ls l X W L SX) as (n1 & Z & Y & z & E & GZ & GY & HZ & HY).
  eexists n1, Z, Y, z, _. do 4 (split; [eassumption|]). split; [exact HY|]. cbv zeta beta. cbn [fdiv fexp f32_arith].
  set (s := net_output_shape n). set (ex := fun c : N * N * N => let '(i, j, k) := c in env_exp e (z i j k)).
  change (fun '(i, j, k) => env_exp e (z i j k)) with ex. set (total := sum (map ex (cells s))).
  assert (Nn : forall x, fin (env_exp e x) = true -> 0 <= real (env_exp e x)).
  { intros x Fx. pose proof (Pos x) as P. rewrite gtb_false in P.
    - rewrite !rank_finite in P by (reflexivity || exact Fx). exact P.
    - reflexivity.
    - destruct (env_exp e x); try discriminate; reflexivity. }
  split.
  - intros Hf Hz.
    assert (Pl : forall y, In y (map ex (cells s)) -> fin y = true -> 0 <= real y).
    { intros y Hy. apply in_map_iff in Hy. destruct Hy as (((i & j) & k) & <- & _). apply Nn. }
    destruct (sum_grows e (map ex (cells s)) f32_zero Hf Pl) as (Z0 & G); [reflexivity|cbn; lra|]. change (fold_left _ _ _) with total in Z0, G. cbn in Z0.
    assert (Pt : 0 < real total) by lra.
    assert (U : forall i j k, in_shape s i j k -> fin (env_exp e (z i j k)) = true /\ real (env_exp e (z i j k)) <= real total).
    { intros i j k Hin. apply G. apply in_map_iff. exists (i, j, k). split; [reflexivity|]. apply in_cells, Hin. }
    assert (V : forall i j k, in_shape s i j k -> fin (f32_div e (env_exp e (z i j k)) total) = true /\ 0 <= real (f32_div e (env_exp e (z i j k)) total) <= 1).
    { intros i j k Hin. destruct (U i j k Hin) as (Fx & Lx). apply div_unit; [exact Fx|exact Hf|split; [apply Nn; exact Fx|exact Lx]|exact Pt]. }
    split; [exact V|]. split.
    + intros i j k i' j' k' Hin Hin' H. destruct (U i j k Hin) as (Fx & Lx), (U i' j' k' Hin') as (Fx' & Lx').
      rewrite gtb_false in H by (match goal with |- isnan ?v = false => destruct v; try discriminate; reflexivity end).
      rewrite !rank_finite in H by assumption.
      assert (D : forall x, fin x = true -> 0 <= real x <= real total -> real (f32_div e x total) = rnd (real x / real total)).
      { intros x F1 B1. pose proof (Binary.Bdiv_correct 24 128 f32_prec f32_emax (nan_div e) BinarySingleNaN.mode_NE x total Hz) as C.
        change (round radix2 _ _ (real x / real total)) with (rnd (real x / real total)) in C.
        assert (B : 0 <= rnd (real x / real total) <= 1).
        { split; [rewrite <- rnd_0|rewrite <- rnd_1]; apply rnd_mono.
          - apply Rmult_le_pos; [lra|]. left. apply Rinv_0_lt_compat. exact Pt.
          - apply Rmult_le_reg_r with (real total); [exact Pt|]. unfold Rdiv. rewrite Rmult_assoc, Rinv_l by lra. lra. }
        rewrite Rlt_bool_true in C; [apply C|]. rewrite Rabs_pos_eq by lra. apply Rle_lt_trans with 1; [lra|]. change 1 with (bpow radix2 0). apply bpow_lt. lia. }
      rewrite !D; [|exact Fx'|split; [apply Nn, Fx'|exact Lx']|exact Fx|split; [apply Nn, Fx|exact Lx]].
      apply rnd_mono. apply Rmult_le_compat_r; [left; apply Rinv_0_lt_compat; exact Pt|exact H].
    + intros Hg. pose proof (quotients_sum e (map ex (cells s)) Pl Hf Hz) as Q. cbv zeta in Q. rewrite map_map, map_length in Q.
      change (fold_left _ _ _) with total in Q. specialize (Q Hg).
      rewrite (map_ext (fun c => real (f32_div e (ex c) total)) (fun '(i, j, k) => real (f32_div e (env_exp e (z i j k)) total))) in Q by (intros ((i & j) & k); reflexivity).
      exact Q.
  - intros i j k Hin Hinf. rewrite Hinf.
    assert (I : fin total = false).
    { destruct (fin total) eqn:Hf; [|reflexivity]. destruct (fold_fin _ _ _ Hf) as (_ & Fl). rewrite Forall_forall in Fl. specialize (Fl (env_exp e (z i j k))).
      rewrite Hinf in Fl. exfalso. assert (Q : false = true); [apply Fl|discriminate Q]. apply in_map_iff. exists (i, j, k). split; [exact Hinf|]. apply in_cells, Hin. }
    destruct total as [sg|sg|sg p H'|sg m ex' H']; try discriminate I; unfold f32_div, Bdiv; exact (isnan_build_nan _).
Qed.
End Rounded.
