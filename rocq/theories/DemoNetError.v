(** * A network in f32 and over the reals for the examples *)
From Coq Require Import Reals Lra ZifyBool ZifyNat ZifyN.
From Flocq Require Import Core IEEE754.Binary.
From Verif Require Import Base Arith Helper Tensor Network Bincode Serial Spec SpecLayer SpecNet SpecReal Loops TensorFacts ProofsTensor LayerFacts NetFacts NetBack RealArith RealSums Float32.
From Verif Require Import SpecError FloatError SpecNetError Demo DemoNet DemoReal DemoGrad.
Local Open Scope string_scope.
Local Open Scope R_scope.

(** The fully connected layer [d_fc] over the reals, behind the pooling layer [d_mp]. *)
Definition x_fc : layer R := LFC (mkFC (rt (mkShape 2 2 1) [1; -2; 3; 4]) zero1 zero1 (rt (mkShape 2 1 1) [1; -1]) zero1 zero1 "dense" Inference).
Definition x_mp : layer R := LMaxPool (mkMP (mkShape 4 2 1) (mkShape 2 2 1) (mkShape 2 1 1) 2 "pool" Inference []).
Definition x_net : network R := DemoGrad.run_ops (network_new Inference) [OAdd x_mp; OAdd x_fc].

Lemma run_ops_well ops : forall n : network R, well_built Debug n -> Forall good_op ops -> well_built Debug (network_new Training : network R) -> well_built Debug (DemoGrad.run_ops n ops).
Proof.
  induction ops as [|op ops IH]; intros n W G W0; cbn [DemoGrad.run_ops]; [exact W|]. inversion G; subst.
  destruct (run_op Debug n op) as [(n1 & r)|] eqn:E1; [|exact W0]. apply IH; [|assumption|exact W0]. exact (built_step Debug n op n1 r W H1 E1).
Qed.

Lemma x_net_built : well_built Debug x_net.
Proof.
  apply run_ops_well; [apply built_new| |apply built_new]. constructor; [repeat split; try reflexivity; discriminate|]. constructor; [|constructor].
  exists 2%N, 2%N. split; [demo_shaped|]. split; [demo_shaped|discriminate].
Qed.

Lemma x_net_params : map params_of (layers x_net) =
  [PMaxPool (mkShape 4 2 1) (mkShape 2 2 1) (mkShape 2 1 1) 2; PFC (rt (mkShape 2 2 1) [1; -2; 3; 4]) (rt (mkShape 2 1 1) [1; -1])].
Proof. run_R. reflexivity. Qed.

Lemma exact_demo s (l : list Z) (l' : list R) : map (fun z => real (f32_of_Z z)) l = l' -> forallb (fun z => fin (f32_of_Z z)) l = true ->
  exact_tensor (tn s l) (rt s l').
Proof.
  intros E F. split; [reflexivity|]. split; [reflexivity|]. split.
  - cbn [data tn rt]. rewrite <- E, map_map. reflexivity.
  - cbn [data tn]. apply Forall_forall. intros x Hx. apply in_map_iff in Hx. destruct Hx as (z & <- & Hz). rewrite forallb_forall in F. apply F. exact Hz.
Qed.

Lemma two_params {F} {AR : Arith F} {BT : Bits F} (w b : list F) g1 g2 g3 g4 :
  match run_op Debug (network_new Inference) (OAdd (LMaxPool (mkMP (mkShape 4 2 1) (mkShape 2 2 1) (mkShape 2 1 1) 2 "pool" Inference []))) with
  | Done (n1, _) =>
    match run_op Debug n1 (OAdd (LFC (mkFC (mkTensor (mkStride 1 2 (2 * 2)) (mkShape 2 2 1) w) g1 g2 (mkTensor (mkStride 1 2 (2 * 1)) (mkShape 2 1 1) b) g3 g4 "dense" Inference))) with
    | Done (n2, _) => map params_of (layers n2) = [PMaxPool (mkShape 4 2 1) (mkShape 2 2 1) (mkShape 2 1 1) 2;
        PFC (mkTensor (mkStride 1 2 (2 * 2)) (mkShape 2 2 1) w) (mkTensor (mkStride 1 2 (2 * 1)) (mkShape 2 1 1) b)]
    | Panic _ => False
    end
  | Panic _ => False
  end.
Proof. lazy. reflexivity. Qed.

Lemma demo_exact n : run_all Debug (network_new Inference) [OAdd d_mp; OAdd d_fc] = Some n ->
  Forall2 exact_params (map params_of (layers n)) (map params_of (layers x_net)).
Proof.
  rewrite x_net_params. intros E.
  assert (P : map params_of (layers n) = [PMaxPool (mkShape 4 2 1) (mkShape 2 2 1) (mkShape 2 1 1) 2; PFC (tn (mkShape 2 2 1) [1;-2;3;4]%Z) (tn (mkShape 2 1 1) [1;-1]%Z)]).
  { pose proof (two_params (map f32_of_Z [1;-2;3;4]%Z) (map f32_of_Z [1;-1]%Z) dot dot dot dot) as C. cbn [run_all] in E. unfold d_mp, d_fc, tn in E. cbn [di dj] in E, C.
    destruct (run_op Debug (network_new Inference) _) as [(n1 & r1)|]; [|discriminate E]. destruct (run_op Debug n1 _) as [(n2 & r2)|]; [|discriminate E].
    injection E as <-. exact C. }
  rewrite P. constructor; [repeat split|]. constructor; [|constructor]. split; apply exact_demo; try reflexivity; cbn; unfold F2R; cbn; repeat f_equal; lra.
Qed.

Lemma pow3_small : (1 + u) ^ 3 * 56 <= 2 ^ 127.
Proof. unfold u. lra. Qed.

Lemma demo_bounds : net_bounds demo_env (-1000) Debug (map params_of (layers x_net)) 9 0 (6 * 9 + 1) (6 * 0 + bound_biased 2 (6 * (9 + 0)) 1).
Proof.
  rewrite x_net_params. econstructor; [constructor; try reflexivity; lra|]. econstructor; [|constructor].
  assert (HW : holds Debug (rt (mkShape 2 2 1) [1; -2; 3; 4]) (mkShape 2 2 1) (at_ (rt (mkShape 2 2 1) [1; -2; 3; 4]))) by demo_rhold.
  assert (HB : holds Debug (rt (mkShape 2 1 1) [1; -1]) (mkShape 2 1 1) (at_ (rt (mkShape 2 1 1) [1; -1]))) by demo_rhold.
  apply (BFC demo_env (-1000) Debug _ _ 2 2 _ _ 6 1 9 0 HW HB); try lra.
  - intros i Hi. change (upto 2) with [0; 1]%N. cbn [map Rsum fold_right]. assert (D : i = 0%N \/ i = 1%N) by lia.
    destruct D as [-> | ->]; cbv - [Rplus Rle IZR Ropp Rabs]; repeat (first [rewrite Rabs_pos_eq by lra|rewrite Rabs_left by lra]); lra.
  - intros i Hi. assert (D : i = 0%N \/ i = 1%N) by lia.
    destruct D as [-> | ->]; cbv - [Rplus Rle IZR Ropp Rabs]; [rewrite Rabs_pos_eq by lra|rewrite Rabs_left by lra]; lra.
  - unfold fits_f32. change (N.to_nat 2) with 2%nat. change (2 + 1)%nat with 3%nat. eapply Rle_trans; [|exact pow3_small].
    apply Rmult_le_compat_l; [apply pow_le; pose proof u_pos; lra|]. cbn [INR]. unfold eta. lra.
Qed.

(** An [exp] that is always 1 is accurate to one half on [-1/4, 1/4]. *)
Definition flat_exp : env :=
  {| nan_add := nan_add demo_env; nan_mul := nan_mul demo_env; nan_div := nan_div demo_env; nan_sqrt := nan_sqrt demo_env;
     max_zero := max_zero demo_env; env_exp := fun _ => f32_one; env_powi2 := env_powi2 demo_env |}.

Lemma exp_quarter x : Rabs x <= / 4 -> Rabs (1 - exp x) <= / 2 * exp x.
Proof.
  intros H. apply Rabs_le_inv in H. apply Rabs_le. pose proof (exp_ineq1_le x). pose proof (exp_ineq1_le (- x)) as Q. rewrite exp_Ropp in Q. pose proof (exp_pos x) as P.
  assert (exp x <= 4 / 3).
  { assert (Q2 : 3 / 4 <= / exp x) by lra. apply Rinv_le_contravar in Q2; [|lra]. rewrite Rinv_inv in Q2. lra. }
  split; lra.
Qed.

Lemma flat_accurate : exp_accurate flat_exp (/ 4) (/ 2).
Proof. intros x _ H. split; [reflexivity|]. change (env_exp flat_exp x) with f32_one. rewrite real_one. apply exp_quarter. exact H. Qed.

Lemma flat_bounds : layer_bounds flat_exp (-1000) Debug (PSoftmax (mkShape 3 1 1)) (/ 4) 0 1 (softmax_factor 3 0 (/ 2) - 1 + eta).
Proof.
  apply BSoftmax; [lra| |]; cbn [di dj dk]; rewrite Rplus_0_r; [exact flat_accurate|]. change (N.to_nat (3 * 1 * 1)) with 3%nat.
  assert (exp (/ 4) <= 4 / 3).
  { pose proof (exp_ineq1_le (- / 4)) as Q. rewrite exp_Ropp in Q. pose proof (exp_pos (/ 4)).
    assert (Q2 : 3 / 4 <= / exp (/ 4)) by lra. apply Rinv_le_contravar in Q2; [|lra]. rewrite Rinv_inv in Q2. lra. }
  apply Rle_trans with (3 * (4 / 3 * (1 + / 2)) * (1 + u) ^ 3); [|unfold u; lra].
  apply Rmult_le_compat_r; [apply pow_le; pose proof u_pos; lra|]. cbn [INR]. lra.
Qed.
