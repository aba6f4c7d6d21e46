(** * C63: softmax keeps the order of its inputs and ignores a common shift *)
From Coq Require Import Reals Lra ZifyBool ZifyNat ZifyN.
From Flocq Require Import Core IEEE754.Binary.
From Verif Require Import Base Arith Helper Tensor Float32 Float32Facts Spec SpecLayer SpecReal SpecError RealArith.
From Verif Require Import Loops TensorFacts OpsFacts ProofsTensor Layout LayerFacts RealSums FloatError ProofsReal ProofsError ProofsRand.
Local Open Scope R_scope.

Section Real.
Context (m : R).
#[local] Hint Extern 0 (Arith R) => exact (R_arith m) : typeclass_instances.
Notation T := (tensor R).

Lemma softmax_shape (bm : build) (t o : T) s f : holds bm t s f -> shaped o s -> exists o' total, softmax t o = Done o'
  /\ holds bm o' s (fun i j k => exp (f i j k) / total) /\ total = Rsum (map (fun '(i, j, k) => exp (f i j k)) (cells s)).
Proof.
  intros Ht Ho. apply holds_iff in Ht. destruct Ht as (A & ->). pose proof (shaped_eq _ _ Ho) as (_ & ->). rewrite softmax_of_fun.
  do 2 eexists. split; [reflexivity|]. split; [|reflexivity]. cbn [fdiv fexp R_arith]. rewrite sum_Rsum. apply holds_of_fun. exact A.
Qed.

Lemma softmax_order bm (t o : T) s f : holds bm t s f -> shaped o s ->
  exists o' g, softmax t o = Done o' /\ holds bm o' s g
    /\ forall i j k i' j' k', in_shape s i j k -> in_shape s i' j' k' -> (f i j k < f i' j' k' <-> g i j k < g i' j' k').
Proof.
  intros Ht Ho. destruct (softmax_shape bm t o s f Ht Ho) as (o' & S & E & H & HS). exists o', (fun i j k => exp (f i j k) / S).
  split; [exact E|]. split; [exact H|]. intros i j k i' j' k' Hin _.
  assert (P : 0 < S).
  { rewrite HS. apply Rsum_pos; [|intros ((a & b) & c) _; apply exp_pos]. apply in_cells in Hin. intros Q. rewrite Q in Hin. destruct Hin. }
  assert (PI : 0 < / S) by (apply Rinv_0_lt_compat; exact P). unfold Rdiv. split; intros L.
  - apply Rmult_lt_compat_r; [exact PI|]. apply exp_increasing. exact L.
  - apply exp_lt_inv. apply Rmult_lt_reg_r in L; assumption.
Qed.

Lemma softmax_shift bm (t t' o o0 : T) s f c : holds bm t s f -> holds bm t' s (fun i j k => f i j k + c) -> shaped o s -> shaped o0 s ->
  exists g o1 o2, softmax t o = Done o1 /\ softmax t' o0 = Done o2 /\ holds bm o1 s g /\ holds bm o2 s g.
Proof.
  intros Ht Ht' Ho Ho0. destruct (softmax_shape bm t o s f Ht Ho) as (o1 & S & E & H & HS).
  destruct (softmax_shape bm t' o0 s _ Ht' Ho0) as (o2 & S2 & E2 & H2 & HS2).
  exists (fun i j k => exp (f i j k) / S), o1, o2. do 3 (split; [assumption|]). eapply holds_ext; [|exact H2].
  intros i j k Hin. cbv beta.
  assert (P : 0 < S).
  { rewrite HS. apply Rsum_pos; [|intros ((a & b) & q) _; apply exp_pos]. apply in_cells in Hin. intros Q. rewrite Q in Hin. destruct Hin. }
  assert (Q : S2 = S * exp c).
  { rewrite HS, HS2, <- Rsum_scale_r. apply Rsum_ext. intros ((a & b) & q) _. apply exp_plus. }
  rewrite Q, exp_plus. pose proof (exp_pos c). field. split; lra.
Qed.
End Real.

Section F32.
Context (e : env).
Let AR : Arith f32 := f32_arith e.
Local Existing Instance AR.

Lemma softmax_f32_order bm (t o : tensor f32) s f :
  (forall x, f32_gtb f32_zero (env_exp e x) = false) ->
  (forall i j k i' j' k', in_shape s i j k -> in_shape s i' j' k' -> f32_gtb (f i j k) (f i' j' k') = false ->
     f32_gtb (env_exp e (f i j k)) (env_exp e (f i' j' k')) = false) ->
  holds bm t s f -> shaped o s ->
  let total := sum (map (fun '(i, j, k) => fexp (f i j k)) (cells s)) in
  fin total = true -> real total <> 0 ->
  exists o' g, softmax t o = Done o' /\ holds bm o' s g
    /\ forall i j k i' j' k', in_shape s i j k -> in_shape s i' j' k' -> f32_gtb (f i j k) (f i' j' k') = false ->
         real (g i j k) <= real (g i' j' k').
Proof.
  intros Pos Mono Ht Ho total Hf Hz. pose proof Ht as Ht0. apply holds_iff in Ht. destruct Ht as (A & ->). pose proof (shaped_eq _ _ Ho) as (_ & ->). rewrite softmax_of_fun.
  do 2 eexists. split; [reflexivity|]. split; [apply holds_of_fun; exact A|]. cbv beta. fold total.
  assert (Nn : forall x, fin (env_exp e x) = true -> 0 <= real (env_exp e x)).
  { intros x Fx. specialize (Pos x). rewrite gtb_false in Pos.
    - rewrite !rank_finite in Pos by (reflexivity || exact Fx). exact Pos.
    - reflexivity.
    - destruct (env_exp e x); try discriminate; reflexivity. }
  destruct (sum_grows e (map (fun '(i, j, k) => fexp (f i j k)) (cells s)) f32_zero Hf) as (Z & G).
  - intros y Hy. apply in_map_iff in Hy. destruct Hy as (((i & j) & k) & <- & _). apply Nn.
  - reflexivity.
  - cbn. lra.
  - change (fold_left _ _ _) with total in Z, G. cbn in Z. intros i j k i' j' k' Hin Hin' L. pose proof Hin as Hin0. pose proof Hin' as Hin0'. apply in_cells in Hin. apply in_cells in Hin'.
    destruct (G (env_exp e (f i j k))) as (Fx & Lx). { apply in_map_iff. exists (i, j, k). split; [reflexivity|exact Hin]. }
    destruct (G (env_exp e (f i' j' k'))) as (Fx' & Lx'). { apply in_map_iff. exists (i', j', k'). split; [reflexivity|exact Hin']. }
    assert (Z0 : real f32_zero = 0) by reflexivity.
    assert (Tp : 0 < real total) by lra.
    destruct (div_unit e _ _ Fx Hf (conj (Nn _ Fx) Lx) Tp) as (D & _). destruct (div_unit e _ _ Fx' Hf (conj (Nn _ Fx') Lx') Tp) as (D' & _).
    destruct (div_finite_inv e _ _ Hf Hz D) as (_ & R1). destruct (div_finite_inv e _ _ Hf Hz D') as (_ & R2).
    change (real (f32_div e (env_exp e (f i j k)) total) <= real (f32_div e (env_exp e (f i' j' k')) total)). rewrite R1, R2.
    apply rnd_mono. apply Rmult_le_compat_r; [left; apply Rinv_0_lt_compat; exact Tp|].
    specialize (Mono _ _ _ _ _ _ Hin0 Hin0' L). rewrite gtb_false in Mono.
    + rewrite !rank_finite in Mono by assumption. exact Mono.
    + destruct (env_exp e (f i j k)); try discriminate; reflexivity.
    + destruct (env_exp e (f i' j' k')); try discriminate; reflexivity.
Qed.
End F32.
