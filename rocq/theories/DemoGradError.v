(** * The network of DemoGridTrain on samples known up to 1/1000 *)
From Coq Require Import Reals Lra ZifyBool ZifyNat ZifyN.
From Flocq Require Import Core IEEE754.Binary.
From Verif Require Import Base Arith Helper Tensor Network Bincode Serial Float32 Spec SpecLayer SpecNet SpecReal SpecError FloatError SpecNetError SpecModes SpecChain SpecBatch SpecGrid SpecGridBack RealArith RealSums Loops.
From Verif Require Import ProofsTensor LayerFacts TensorFacts RealGrad NetBack RealConv ProofsChain Demo DemoNet DemoReal DemoGrad DemoNetError DemoGridTrain SpecGradError.
Local Open Scope string_scope.
Local Open Scope R_scope.

(** Inputs of at most 10 and loss gradients of at most 6, each known up to 1/1000. *)
Definition span2 : span := mkSpan (6 * 10 + 1) (6 * / 1000 + bound_biased 2 (6 * (10 + / 1000)) 1) 6 (/ 1000).
Definition span1 : span := mkSpan 10 (/ 1000) (7 * 6) (7 * / 1000 + bound 2 (7 * (6 + / 1000))).
Definition span0 : span := mkSpan 10 (/ 1000) (INR 1 * ga span1) (INR 1 * gd span1 + bound 1 (INR 1 * (ga span1 + gd span1))).

Lemma big_fits n a : (n <= 3)%nat -> 0 <= a <= 1000 -> sum_fits n a.
Proof.
  intros Hn Ha. unfold sum_fits. apply Rle_trans with ((1 + u) ^ 3 * 1001); [|unfold u; lra].
  assert (U : 1 <= 1 + u) by (pose proof u_pos; lra).
  apply Rmult_le_compat; [apply pow_le; lra| |apply Rle_pow; assumption|].
  - assert (0 <= INR n * eta) by (apply Rmult_le_pos; [apply pos_INR|unfold eta; lra]). lra.
  - assert (INR n <= INR 3) as N3 by (apply le_INR; exact Hn). cbn [INR] in N3.
    assert (INR n * eta <= 1); [|lra]. apply Rle_trans with (3 * eta); [apply Rmult_le_compat_r; [unfold eta; lra|lra]|unfold eta; lra].
Qed.

Lemma span1_small : 0 <= gd span1 <= / 100.
Proof. cbn [gd span1]. unfold bound, u, eta. cbn [INR]. lra. Qed.

Lemma span2_small : 0 <= xd span2 <= / 100.
Proof. cbn [xd span2]. unfold bound_biased, u, eta. cbn [INR plus]. lra. Qed.

Lemma g_slopes : net_slopes demo_env (-1000) Debug 2 (map params_of (layers t_R)) span0 [span1; span2].
Proof.
  unfold t_R. rewrite t_params. cbn [net_slopes]. split; [|split; [|exact I]].
  - refine (SlopeMaxPool demo_env (-1000) Debug 2 _ _ _ _ 1 span0 span1 _ _ _ _ _ _); try reflexivity.
    + cbn [span0 span1 xa xd]. constructor; try reflexivity; lra.
    + intros a b c (Ha & Hb & Hc). cbn [di dj dk] in *. change (cells (mkShape 2 1 1)) with [(0, 0, 0); (1, 0, 0)]%N. cbn [filter di dj dk].
      assert (c = 0%N) by lia. subst c. assert (Db : (b = 0 \/ b = 1)%N) by lia. assert (Da : (a = 0 \/ a = 1 \/ a = 2 \/ a = 3)%N) by lia.
      destruct Db as [-> | ->], Da as [-> | [-> | [-> | ->]]]; vm_compute; constructor.
    + apply big_fits; [lia|]. pose proof span1_small. replace (ga span1) with 42 by (cbn; lra). cbn [INR]. lra.
  - set (W := t_tensor (mkShape 2 2 1) [1; -2; 3; 4]). set (B := t_tensor (mkShape 2 1 1) [1; -1]).
    assert (HW : holds Debug W (mkShape 2 2 1) (at_ W)) by demo_rhold.
    assert (HB : holds Debug B (mkShape 2 1 1) (at_ B)) by demo_rhold.
    refine (SlopeFC demo_env (-1000) Debug 2 W B 2 2 (at_ W) 7 span1 span2 _ HW _ _ _ _ _ _ _); try reflexivity; try lra.
    + cbn [span1 span2 xa xd]. apply (BFC demo_env (-1000) Debug W B 2 2 _ _ 6 1 10 (/ 1000) HW HB); try lra.
      * intros i Hi. change (upto 2) with [0; 1]%N. cbn [map Rsum fold_right]. assert (D : i = 0%N \/ i = 1%N) by lia.
        destruct D as [-> | ->]; cbv - [Rplus Rle IZR Ropp Rabs]; repeat (first [rewrite Rabs_pos_eq by lra|rewrite Rabs_left by lra]); lra.
      * intros i Hi. assert (D : i = 0%N \/ i = 1%N) by lia.
        destruct D as [-> | ->]; cbv - [Rplus Rle IZR Ropp Rabs]; [rewrite Rabs_pos_eq by lra|rewrite Rabs_left by lra]; lra.
      * unfold fits_f32. change (N.to_nat 2) with 2%nat. change (2 + 1)%nat with 3%nat. cbn [INR]. unfold u, eta. lra.
    + intros i Hi. change (upto 2) with [0; 1]%N. cbn [map Rsum fold_right]. assert (D : i = 0%N \/ i = 1%N) by lia.
      destruct D as [-> | ->]; cbv - [Rplus Rle IZR Ropp Rabs]; repeat (first [rewrite Rabs_pos_eq by lra|rewrite Rabs_left by lra]); lra.
    + apply big_fits; [lia|]. cbn [span2 ga gd]. lra.
    + apply big_fits; [lia|]. cbn [span2 ga gd INR]. lra.
    + apply big_fits; [lia|]. cbn [span2 span1 ga gd xa xd INR]. lra.
Qed.

(** The exact samples: the f32 inputs are 1/1000 too small, the f32 loss gradients 1/1000 too large. *)
Definition more (z : Z) : R := IZR z + / 1000.
Definition less (z : Z) : R := IZR z - / 1000.
Definition g_batch : list (tensor R * tensor R) :=
  [(rt (mkShape 4 2 1) (map more [1; 2; 3; 9; -5; 6; 7; -8]%Z), rt (mkShape 2 1 1) (map less [2; -3]%Z));
   (rt (mkShape 4 2 1) (map more [0; 5; 1; -2; 3; -2; -5; 0]%Z), rt (mkShape 2 1 1) (map less [1; 4]%Z))].

Lemma ints_near a d h (s : shape) (l : list Z) : 0 <= d -> 0 <= a ->
  Forall (fun z => fin (f32_of_Z z) = true /\ Rabs (real (f32_of_Z z) - h z) <= d /\ Rabs (h z) <= a) l ->
  near a d s (at_ (tn s l)) (at_ (rt s (map h l))).
Proof.
  intros Pd Pa A i j k _. unfold at_. cbn [tshape tn rt data]. set (q := N.to_nat (flat s i j k)). clearbody q. revert q.
  induction A as [|z l (Fz & Ez & Bz) _ IH]; intros q.
  - destruct q; cbn [map nth]; (split; [reflexivity|]); change (@fzero R _) with 0; change (real (@fzero f32 _)) with 0; rewrite Rminus_0_r, Rabs_R0; auto.
  - destruct q as [|q]; cbn [map nth]; [|apply IH]. auto.
Qed.

Lemma g_samples : Forall2 (sample_near demo_env (-1000) Debug (mkShape 4 2 1) (mkShape 2 1 1) span0 span2) t_batch g_batch.
Proof.
  assert (S : forall l r, Forall (fun z => fin (f32_of_Z z) = true /\ Rabs (real (f32_of_Z z) - more z) <= / 1000 /\ Rabs (more z) <= 10) l ->
    Forall (fun z => fin (f32_of_Z z) = true /\ Rabs (real (f32_of_Z z) - less z) <= / 1000 /\ Rabs (less z) <= 6) r -> length l = 8%nat -> length r = 2%nat ->
    sample_near demo_env (-1000) Debug (mkShape 4 2 1) (mkShape 2 1 1) span0 span2 (tn (mkShape 4 2 1) l, tn (mkShape 2 1 1) r)
      (rt (mkShape 4 2 1) (map more l), rt (mkShape 2 1 1) (map less r))).
  { intros l r Al Ar Ll Lr. eexists _, _, _, _. cbn [fst snd span0 span2 xa xd ga gd].
    split; [|split; [|split; [refine (ints_near 10 (/ 1000) _ _ l _ _ Al); lra|split; [|split; [|refine (ints_near 6 (/ 1000) _ _ r _ _ Ar); lra]]]]].
    1,3: refine (demo_holds Debug (tn _ _) _).
    3,4: refine (demo_holds Debug (rt _ _) _).
    all: unfold wfb; cbn [tshape strides data tn rt si sj sk di dj dk]; unfold len; rewrite map_length, ?Ll, ?Lr; vm_compute; reflexivity. }
  assert (Q : forall h z, h = more \/ h = less -> fin (f32_of_Z z) = true -> real (f32_of_Z z) = IZR z -> forall a, (Z.abs z + 1 <= a)%Z ->
    fin (f32_of_Z z) = true /\ Rabs (real (f32_of_Z z) - h z) <= / 1000 /\ Rabs (h z) <= IZR a).
  { intros h z Hh F E a H. split; [exact F|]. rewrite E. apply IZR_le in H. rewrite plus_IZR, abs_IZR in H. pose proof (Rle_abs (IZR z)). pose proof (Rle_abs (- IZR z)) as M. rewrite Rabs_Ropp in M.
    destruct Hh as [-> | ->]; unfold more, less; split; apply Rabs_le; lra. }
  constructor; [|constructor; [|constructor]]; apply S; try reflexivity; repeat (constructor; [apply Q; [auto|reflexivity|cbn; unfold F2R; cbn; lra|lia]|]); constructor.
Qed.

(** The kinks are further away than the errors. *)
Lemma firm_at (l : list R) win p0 p1 : let X := rt (mkShape 4 2 1) l in
  length l = 8%nat -> winners (-1000) (mkShape 2 2 1) 2 (mkShape 2 1 1) (at_ X) win ->
  (forall i j k c, in_shape (mkShape 2 1 1) i j k -> In c (window_positions 2 2 2 i j k) -> c <> win i j k -> value_at (at_ X) c + / 10 < value_at (at_ X) (win i j k)) ->
  pool_map (-1000) (mkShape 2 2 1) 2 (at_ X) 0 0 0 = p0 -> pool_map (-1000) (mkShape 2 2 1) 2 (at_ X) 1 0 0 = p1 ->
  / 10 < Rabs (p0 + 3 * p1 + 1) -> / 10 < Rabs (-2 * p0 + 4 * p1 - 1) -> firm (-1000) Debug (map params_of (layers t_R)) span0 [span1; span2] X.
Proof.
  cbv zeta. intros L WN MG P0 P1 U0 U1. set (X := rt (mkShape 4 2 1) l) in *. unfold t_R. rewrite t_params. cbn [firm layer_firm].
  assert (HX : holds Debug X (mkShape 4 2 1) (at_ X)).
  { refine (demo_holds Debug X _). unfold X, wfb. cbn [tshape strides data rt si sj sk di dj dk]. unfold len. rewrite L. vm_compute. reflexivity. }
  split; [exists (at_ X), win; split; [exact HX|split; [exact WN|]]|].
  { intros i j k c H1 H2 H3. pose proof (MG i j k c H1 H2 H3). cbn [span0 xd]. lra. }
  intros Z C. apply (computes_map (-1000) Debug (PMaxPool (mkShape 4 2 1) (mkShape 2 2 1) (mkShape 2 1 1) 2) X Z (at_ X)) in C; [|exact HX]. cbn [pout layer_map] in C.
  split; [|intros; exact I].
  intros M n w b x Hw Hb Hx i Hi.
  set (W := t_tensor (mkShape 2 2 1) [1; -2; 3; 4]) in *. set (B := t_tensor (mkShape 2 1 1) [1; -1]) in *.
  assert (HW : holds Debug W (mkShape 2 2 1) (at_ W)) by demo_rhold. assert (HB : holds Debug B (mkShape 2 1 1) (at_ B)) by demo_rhold.
  pose proof (holds_shape _ _ _ _ _ _ Hw HW) as S. injection S as -> ->.
  assert (E : fc_pre 2 w b x i = fc_pre 2 (at_ W) (at_ B) (pool_map (-1000) (mkShape 2 2 1) 2 (at_ X)) i).
  { apply fc_pre_ext.
    - intros p Hp. apply (holds_fun Debug _ _ _ _ Hw HW). repeat split; cbn; lia.
    - apply (holds_fun Debug _ _ _ _ Hb HB). repeat split; cbn; lia.
    - intros p Hp. apply (holds_fun Debug _ _ _ _ Hx C). repeat split; cbn; lia. }
  rewrite E. assert (D : i = 0%N \/ i = 1%N) by lia. eapply Rle_lt_trans; [apply (proj2 span2_small)|].
  unfold fc_pre. change (upto 2) with [0; 1]%N. cbn [map Rsum fold_right]. rewrite P0, P1. clear - D U0 U1.
  destruct D as [-> | ->]; cbv - [Rplus Rmult IZR Ropp Rabs Rlt Rinv Rminus]; cbn [INR] in *.
  - replace (1 * p0 + (3 * p1 + 0) + 1) with (p0 + 3 * p1 + 1) by ring. lra.
  - replace (-2 * p0 + (4 * p1 + 0) + -1) with (-2 * p0 + 4 * p1 - 1) by ring. lra.
Qed.

Ltac more_max := cbv - [Rmax IZR Rplus Rinv]; repeat match goal with |- context [Rmax ?a ?b] => first [rewrite (Rmax_left a b) by lra|rewrite (Rmax_right a b) by lra] end; reflexivity.
Ltac by_cells Hi Hj Hk := cbn [di dj dk] in *; match type of Hj with (?j < _)%N => assert (j = 0%N) by lia end; match type of Hk with (?k < _)%N => assert (k = 0%N) by lia end;
  subst; match type of Hi with (?i < _)%N => let D := fresh in assert (D : i = 0%N \/ i = 1%N) by lia; destruct D as [-> | ->] end.
Ltac by_window Hc Ne := vm_compute in Hc; repeat (destruct Hc as [<-|Hc]; [first [exfalso; apply Ne; reflexivity|cbv - [Rlt IZR Rplus Rinv]; lra]|]); destruct Hc.

Lemma g_firm : Forall (fun s => firm (-1000) Debug (map params_of (layers t_R)) span0 [span1; span2] (fst s)) g_batch.
Proof.
  repeat apply Forall_cons; try apply Forall_nil; cbn [fst].
  - refine (firm_at _ (fun i _ _ => if N.eqb i 0 then (1, 1, 0)%N else (3, 0, 0)%N) (more 6) (more 9) _ _ _ _ _ _ _); try reflexivity; try more_max.
    + intros i j k (Hi & Hj & Hk). by_cells Hi Hj Hk; (split; [vm_compute; tauto|split; [cbv - [Rlt IZR Rplus Rinv]; lra|]]); intros c' Hc Ne; by_window Hc Ne.
    + intros i j k c (Hi & Hj & Hk) Hc Ne. by_cells Hi Hj Hk; by_window Hc Ne.
    + unfold more. rewrite Rabs_pos_eq; lra.
    + unfold more. rewrite Rabs_pos_eq; lra.
  - refine (firm_at _ (fun i _ _ => if N.eqb i 0 then (1, 0, 0)%N else (2, 0, 0)%N) (more 5) (more 1) _ _ _ _ _ _ _); try reflexivity; try more_max.
    + intros i j k (Hi & Hj & Hk). by_cells Hi Hj Hk; (split; [vm_compute; tauto|split; [cbv - [Rlt IZR Rplus Rinv]; lra|]]); intros c' Hc Ne; by_window Hc Ne.
    + intros i j k c (Hi & Hj & Hk) Hc Ne. by_cells Hi Hj Hk; by_window Hc Ne.
    + unfold more. rewrite Rabs_pos_eq; lra.
    + unfold more. rewrite Rabs_left; lra.
Qed.

Lemma g_errors : weight_error 2 span1 span2 <= / 30 /\ bias_error 2 span2 <= / 400.
Proof. unfold weight_error, bias_error. cbn [span1 span2 ga gd xa xd]. unfold bound, u, eta. cbn [INR]. split; lra. Qed.

(** A softmax layer with three inputs of at most 1/4. *)
Definition soft_b : span := mkSpan 1 (softmax_factor 3 0 (/ 2) - 1 + eta) 1 (/ 1000).
Definition soft_t : R := product_error 3 (xd soft_b) 1 (/ 1000).
Definition soft_a : span := mkSpan (/ 4) 0 (2 * 1) (xd soft_b * (2 * 1 + / 1000 + soft_t) + / 1000 + soft_t + bound 2 ((1 + xd soft_b) * (2 * 1 + / 1000 + soft_t))).

Lemma soft_small : 0 <= xd soft_b <= 3.
Proof. cbn [soft_b xd]. unfold softmax_factor. rewrite Rmult_0_r, exp_0. unfold u, eta. lra. Qed.

Lemma soft_slopes : layer_slopes flat_exp (-1000) Debug 1 (PSoftmax (mkShape 3 1 1)) soft_a soft_b.
Proof.
  pose proof soft_small as S.
  assert (T : 0 <= soft_t <= 50).
  { unfold soft_t, product_error. set (d := xd soft_b) in *. clearbody d. assert (B : 0 <= bound 3 (INR 3 * ((1 + d) * (1 + / 1000))) <= 1).
    - unfold bound, u, eta. cbn [INR]. lra.
    - cbn [INR] in *. lra. }
  refine (SlopeSoftmax flat_exp (-1000) Debug 1 3 soft_a soft_b _ _ _ _ _); try reflexivity.
  - exact flat_bounds.
  - apply big_fits; [cbn; lia|]. change (N.to_nat 3) with 3%nat. set (d := xd soft_b) in *. clearbody d. cbn [soft_b ga gd INR]. lra.
  - change (N.to_nat 3) with 3%nat. change (product_error 3 (xd soft_b) (ga soft_b) (gd soft_b)) with soft_t. apply big_fits; [lia|].
    set (d := xd soft_b) in *. clearbody d. cbn [soft_b ga gd]. set (t := soft_t) in *. clearbody t.
    assert (0 <= (1 + d) * (2 * 1 + / 1000 + t) <= 4 * 53); [|lra]. split; [apply Rmult_le_pos; lra|apply Rmult_le_compat; lra].
Qed.
