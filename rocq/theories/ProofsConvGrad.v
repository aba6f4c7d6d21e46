(** * Convolutional backward as a gradient, where it is one *)
From Coq Require Import Reals Lra ZifyBool ZifyNat ZifyN.
From Verif Require Import Base Arith Helper Tensor Convolution Network Spec SpecLayer SpecReal SpecOps Loops TensorFacts OpsFacts.
From Verif Require Import ProofsTensor ProofsConv ProofsBackprop ProofsOutgoing Layout LayerFacts BackFacts ProofsLayer RealArith RealSums RealGrad RealConv ProofsReal ProofsGrad.
Ltac Zify.zify_post_hook ::= Z.div_mod_to_equations.
Local Open Scope R_scope.

Section Real.
Context (m : R).
#[local] Hint Extern 0 (Arith R) => exact (R_arith m) : typeclass_instances.
Notation T := (tensor R).

(** ** C16 *)
Lemma outgoing_adjoint bm (incoming outgoing : T) (kernels : list T) s rs ks g h o :
  holds bm incoming rs g -> holds bm outgoing s o -> all_hold bm kernels ks h -> len kernels = dk rs ->
  (forall k, (k < dk rs)%N -> conv_ok s ks 1 rs k) ->
  di rs = di ks -> dj rs = dj ks -> (di s <= 2147483648)%N -> (dj s <= 2147483648)%N -> (0 < di ks)%N -> (0 < dj ks)%N ->
  exists og d, convolution_backprop_outgoing_gradient bm incoming kernels 1 outgoing = Done (og, Ok tt) /\ holds bm og s d
    /\ forall x, gradient s (fun x' => pairing rs g (conv_linear ks 1 h x')) x d.
Proof.
  intros Hg Ho Hk L P Ei Ej Bi Bj Zi Zj. destruct (outgoing_stride1 bm incoming outgoing kernels s rs ks g h o Hg Ho Hk L P Ei Ej Bi Bj Zi Zj) as (og & E & H).
  exists og, (fun a b c => sum (covering_products rs ks 1 h g a b c)). split; [exact E|]. split; [exact H|].
  intros x Xc v C. eapply deriv_ext; [|apply (curve_pairing s Xc x v (fun a b c => sum (covering_products rs ks 1 h g a b c)) C)].
  intros t. cbv beta. symmetry. apply conv_adjoint. exact P.
Qed.

(** ** C17 *)
Lemma kernel_adjoint bm (incoming image result : T) s rs ks g x o stride :
  holds bm incoming rs g -> holds bm image s x -> holds bm result ks o -> conv_ok s ks stride rs 0 -> dk rs = 1%N ->
  exists K d, convolution_backprop_kernel bm incoming image stride 0 result = Done (K, Ok tt) /\ holds bm K ks d
    /\ forall u, gradient ks (fun u' => pairing rs g (conv_linear ks stride (fun _ => u') x)) u d.
Proof.
  intros Hg Hx Ho P D.
  destruct (backprop_kernel_depth1 bm incoming image result rs s ks g x o stride Hg Hx Ho P D) as (K & E & H).
  eexists K, _. split; [exact E|]. split; [exact H|].
  intros u Uc v C. eapply deriv_ext; [|eapply curve_pairing; exact C].
  intros t. cbv beta. rewrite conv_kernel_adjoint, D, upto_1. cbn [map Rsum fold_right]. rewrite Rplus_0_r.
  apply pairing_ext; [|reflexivity]. intros a e c _. rewrite sum_Rsum. apply Rsum_ext. intros (i & j) _. reflexivity.
Qed.

(** ** C29 *)
Section Layer.
Context (bm : build) (ks : shape) (l : conv_layer R) (h : N -> N -> N -> N -> R) (b : N -> R) (x g : N -> N -> N -> R) (X Y0 G og : T).
Hypothesis (O : conv_layer_ok ks l) (R : cv_run_state l = Training) (Hk : all_hold bm (cv_kernels l) ks h).
Hypothesis (Hb : forall n t, nth_error (cv_biases l) (N.to_nat n) = Some t -> get_item bm t (mkIndex 0 0 0) = Done (b n)).
Hypothesis (HX : holds bm X (cv_input_shape l) x) (HY : shaped Y0 (cv_output_shape l)) (HG : holds bm G (cv_output_shape l) g).
Hypothesis (Ho : shaped og (cv_input_shape l)).
Hypothesis (Pos : forall i j k, in_shape (cv_output_shape l) i j k -> 0 < conv_pre ks (cv_stride l) h b x i j k).

Lemma conv_forward_map : exists l1 Y, cv_forward bm l X Y0 = Done (l1, Y, Ok tt)
  /\ holds bm Y (cv_output_shape l) (conv_map ks (cv_stride l) h b x)
  /\ conv_layer_ok ks l1 /\ cv_run_state l1 = Training /\ params_of (LConv l1) = params_of (LConv l).
Proof.
  destruct (conv_forward_ok bm ks l X Y0 (relu_agrees_R m) O (holds_shaped _ _ _ _ HX) HY) as (l1 & Y & E & _ & O1 & _ & P & _ & R1).
  destruct (conv_forward_holds bm ks l h b x X Y0 (relu_agrees_R m) O Hk Hb HX HY) as (l1' & Y' & E' & H).
  rewrite E in E'. injection E' as <- <-. exists l1, Y. split; [exact E|]. split; [|rewrite R1; auto].
  eapply holds_ext; [|exact H]. intros i j k _. cbv beta. rewrite relu_R, sum_Rsum. reflexivity.
Qed.

Lemma conv_input_gradient :
  cv_stride l = 1%N -> di (cv_output_shape l) = di ks -> dj (cv_output_shape l) = dj ks -> (0 < di ks)%N -> (0 < dj ks)%N ->
  (di (cv_input_shape l) <= 2147483648)%N -> (dj (cv_input_shape l) <= 2147483648)%N ->
  exists l1 Y l2 og' d, cv_forward bm l X Y0 = Done (l1, Y, Ok tt) /\ holds bm Y (cv_output_shape l) (conv_map ks 1 h b x)
    /\ cv_backward bm l1 X Y G og = Done (l2, og', Ok tt) /\ holds bm og' (cv_input_shape l) d
    /\ gradient (cv_input_shape l) (fun x' => pairing (cv_output_shape l) g (conv_map ks 1 h b x')) x d.
Proof.
  intros S Ei Ej Zi Zj Bi Bj. destruct conv_forward_map as (l1 & Y & E & H & O1 & R1 & P1). rewrite S in H.
  cbn [params_of] in P1. injection P1 as K1 K2 K3 K4 K5. pose proof O as (_ & Ek & _ & _ & _ & _ & P & _). rewrite S in P.
  destruct (outgoing_stride1 bm G og (cv_kernels l) (cv_input_shape l) (cv_output_shape l) ks g h (val og) HG (shaped_holds bm _ _ Ho) Hk
    ltac:(symmetry; exact Ek) P Ei Ej Bi Bj Zi Zj) as (og' & E2 & H5).
  pose proof (cv_backward_values bm ks l1 X Y G og O1 R1 ltac:(rewrite K4; apply (holds_shaped _ _ _ _ HX)) ltac:(rewrite K5; apply (holds_shaped _ _ _ _ HG))) as EB.
  rewrite K1, K3, S, E2 in EB. cbn [bind] in EB. eexists l1, Y, _, og', _. split; [exact E|]. split; [exact H|]. split; [exact EB|]. split; [exact H5|].
  intros Xc v C.
  pose proof (conv_curve (cv_input_shape l) ks 1 (cv_output_shape l) (fun _ => h) (fun _ => b) Xc h (fun _ _ _ _ => 0) b (fun _ => 0) x v P
    (fun k _ => curve_const _ _) (fun k _ => conj eq_refl (deriv_const _ _)) C ltac:(intros; rewrite <- S; apply Pos; assumption)) as C'.
  eapply deriv_eq; [|eapply curve_pairing; exact C'].
  rewrite <- (conv_adjoint m (cv_input_shape l) ks 1 (cv_output_shape l) h g v P). apply pairing_ext; [reflexivity|].
  intros i j k _. unfold conv_velocity, conv_linear. rewrite Rplus_0_r. apply Rsum_ext. intros ((a & e) & c) _. ring.
Qed.

Lemma conv_kernel_gradient l1 Y l2 og' r :
  len (cv_kernels l) = 1%N -> cv_forward bm l X Y0 = Done (l1, Y, Ok tt) -> cv_backward bm l1 X Y G og = Done (l2, og', r) ->
  holds bm Y (cv_output_shape l) (conv_map ks (cv_stride l) h b x) /\
  exists K d, cv_kernel_gradients l2 = [K] /\ holds bm K ks d
    /\ gradient ks (fun u => pairing (cv_output_shape l) g (conv_map ks (cv_stride l) (fun _ => u) b x)) (h 0%N) d.
Proof.
  intros L EF EB. destruct conv_forward_map as (l1' & Y' & E & H & O1 & R1 & P1). rewrite E in EF. injection EF as -> ->. split; [exact H|].
  cbn [params_of] in P1. injection P1 as K1 K2 K3 K4 K5. pose proof O as (_ & Ek & _ & _ & _ & _ & P & _).
  destruct (conv_backward_exact bm ks l1 l2 x g X Y G og og' r O1 R1 ltac:(rewrite K4; exact HX) ltac:(rewrite K5; exact HG) EB) as (LK & KG & _ & _).
  rewrite K1, L in LK. destruct (cv_kernel_gradients l2) as [|K [|K' kl]]; unfold len in LK; cbn [length] in LK; try lia.
  specialize (KG 0%N K eq_refl). eexists K, _. split; [reflexivity|]. split; [exact KG|]. rewrite K3, K5.
  assert (D : dk (cv_output_shape l) = 1%N) by congruence.
  intros Uc v C.
  pose proof (conv_curve (cv_input_shape l) ks (cv_stride l) (cv_output_shape l) (fun t _ => Uc t) (fun _ => b) (fun _ => x) (fun _ => h 0%N) (fun _ => v) b (fun _ => 0) x (fun _ _ _ => 0) P
    (fun k _ => C) (fun k _ => conj eq_refl (deriv_const _ _)) (curve_const _ _)) as C'.
  eapply deriv_eq; [|eapply curve_pairing; apply C'].
  - transitivity (pairing (cv_output_shape l) g (conv_linear ks (cv_stride l) (fun _ => v) x)).
    + apply pairing_ext; [reflexivity|]. intros i j k _. unfold conv_velocity, conv_linear. rewrite Rplus_0_r. apply Rsum_ext. intros ((a & e) & c) _. ring.
    + rewrite conv_kernel_adjoint, D, upto_1. cbn [map Rsum fold_right]. rewrite Rplus_0_r.
      apply pairing_ext; [|reflexivity]. intros a e c _. rewrite sum_Rsum, Rsum_cells, D, upto_1. cbn [map Rsum fold_right]. rewrite Rplus_0_r.
      unfold channel_cells. rewrite Rsum_flat_map. apply Rsum_ext. intros j _. rewrite map_map. reflexivity.
  - intros i j k Hin. pose proof Hin as (_ & _ & Lk). rewrite D in Lk. replace k with 0%N in * by lia. exact (Pos i j 0%N Hin).
Qed.

End Layer.
End Real.
