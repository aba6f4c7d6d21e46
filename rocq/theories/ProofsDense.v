(** * Proofs for C70: a convolution over the whole image is a fully connected layer *)
From Coq Require Import ZifyBool ZifyNat ZifyN.
From Flocq Require Import Core IEEE754.Binary IEEE754.Bits.
From Verif Require Import Base Arith Helper Tensor Convolution Network Float32 Spec SpecLayer Loops TensorFacts OpsFacts Float32Facts.
From Verif Require Import ProofsTensor ProofsConv ProofsPool ProofsFloat Layout LayerFacts ProofsLayer.
Local Open Scope N_scope.

Lemma mul_comm_same e x y : same (f32_mul e x y) (f32_mul e y x).
Proof.
  unfold f32_mul, Bmult.
  replace (@BinarySingleNaN.Bmult 24 128 f32_prec f32_emax BinarySingleNaN.mode_NE (B2BSN 24 128 y) (B2BSN 24 128 x))
    with (@BinarySingleNaN.Bmult 24 128 f32_prec f32_emax BinarySingleNaN.mode_NE (B2BSN 24 128 x) (B2BSN 24 128 y)); [apply BSN2B_same|].
  generalize (B2BSN 24 128 x) (B2BSN 24 128 y). clear x y. intros x y. apply BinarySingleNaN.B2SF_inj.
  destruct x as [sx|sx| |sx mx ex Hx], y as [sy|sy| |sy my ey Hy]; try reflexivity; cbn; try (rewrite Bool.xorb_comm; reflexivity).
  rewrite !BinarySingleNaN.B2SF_SF2B, Bool.xorb_comm, Pos.mul_comm, Z.add_comm. reflexivity.
Qed.

Lemma tiles_whole m stride n : tiles m m stride n -> n = 1.
Proof. intros (S & _ & _ & ->). rewrite N.sub_diag, N.div_0_l by exact S. reflexivity. Qed.

Lemma column_cells m : cells (mkShape m 1 1) = map (fun i => (i, 0, 0)) (upto m).
Proof. unfold cells. cbn [di dj dk]. change (upto 1) with [0]. cbn [flat_map]. rewrite !app_nil_r. reflexivity. Qed.

Lemma depth_cells m : cells (mkShape 1 1 m) = map (fun k => (0, 0, k)) (upto m).
Proof.
  unfold cells. cbn [di dj dk]. change (upto 1) with [0]. cbn [flat_map map app]. induction (upto m) as [|k l IH]; [reflexivity|].
  cbn [flat_map map app]. rewrite IH. reflexivity.
Qed.

Section Dense.
Context (e : env).
#[local] Hint Extern 0 (Arith f32) => exact (f32_arith e) : typeclass_instances.
#[local] Hint Extern 0 (Arith binary32) => exact (f32_arith e) : typeclass_instances.

Lemma Forall2_map_in {A B C} (P : B -> C -> Prop) (f : A -> B) (g : A -> C) l : (forall a, In a l -> P (f a) (g a)) -> Forall2 P (map f l) (map g l).
Proof. induction l as [|a l IH]; intros H; constructor; [apply H; left; reflexivity|]. apply IH. intros b Hb. apply H. right. exact Hb. Qed.

Lemma whole_image_dense bm (lc : conv_layer f32) (lf : fc_layer f32) s m (h : N -> N -> N -> N -> f32) (bv : N -> f32) (w b x x' : N -> N -> N -> f32) (X X' Yc Yf : tensor f32) :
  let AR := f32_arith e in
  conv_layer_ok s lc -> cv_input_shape lc = s -> len (cv_kernels lc) = m -> all_hold bm (cv_kernels lc) s h ->
  (forall k t, nth_error (cv_biases lc) (N.to_nat k) = Some t -> get_item bm t (mkIndex 0 0 0) = Done (bv k)) ->
  fc_ok m (di s * dj s * dk s) lf -> holds bm (fc_weights lf) (mkShape m (di s * dj s * dk s) 1) w -> holds bm (fc_bias lf) (mkShape m 1 1) b ->
  (forall k i j c, k < m -> in_shape s i j c -> w k (flat s i j c) 0 = h k i j c) -> (forall k, k < m -> b k 0 0 = bv k) ->
  holds bm X s x -> holds bm X' (mkShape (di s * dj s * dk s) 1 1) x' -> (forall i j c, in_shape s i j c -> x' (flat s i j c) 0 0 = x i j c) ->
  shaped Yc (cv_output_shape lc) -> shaped Yf (mkShape m 1 1) -> 0 < m ->
  exists lc' lf' Y Y', cv_forward bm lc X Yc = Done (lc', Y, Ok tt) /\ fc_forward bm lf X' Yf = Done (lf', Y', Ok tt)
    /\ tshape Y = mkShape 1 1 m /\ tshape Y' = mkShape m 1 1 /\ data Y = data Y'.
Proof.
  intros AR Oc Is Lk Hk Hb Of Hw Hbf Ew Eb Hx Hx' Ex Sc Sf M.
  assert (Hxc : holds bm X (cv_input_shape lc) x) by (rewrite Is; exact Hx).
  destruct (@conv_forward_holds f32 (f32_arith e) bm s lc h bv x X Yc (f32_relu_agrees e) Oc Hk Hb Hxc Sc) as (lc' & Y & E1 & H1).
  destruct (@fc_forward_holds f32 (f32_arith e) bm lf m _ w b x' X' Yf (f32_relu_agrees e) Of Hw Hbf Hx' Sf) as (lf' & Y' & E2 & H2).
  exists lc', lf', Y, Y'. split; [exact E1|]. split; [exact E2|].
  assert (So : cv_output_shape lc = mkShape 1 1 m).
  { destruct Oc as (_ & Ek & _ & _ & _ & _ & P & _). rewrite Is in P. destruct (P 0) as (_ & T0 & T1 & _); [lia|].
    apply tiles_whole in T0, T1. destruct (cv_output_shape lc) as [a c d]. cbn [di dj dk] in *. subst. reflexivity. }
  rewrite So in H1. apply holds_iff in H1. destruct H1 as (A1 & ->). apply holds_iff in H2. destruct H2 as (A2 & ->).
  do 2 (split; [reflexivity|]). cbn [of_fun data]. rewrite column_cells, depth_cells, !map_map. apply map_ext_in. intros k Hk'. apply in_upto in Hk'.
  apply relu_same. rewrite (Eb k Hk'). apply add_same; [|apply same_refl]. apply fold_same; [|apply same_refl].
  unfold window_products. rewrite upto_cells, map_map. apply Forall2_map_in. intros [[i j] c] Hc. apply in_cells in Hc.
  rewrite (Ew k i j c Hk' Hc), (Ex i j c Hc). rewrite !N.mul_0_l, !N.add_0_l. apply mul_comm_same.
Qed.

End Dense.
