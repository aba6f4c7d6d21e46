(** * C70: a convolution over the whole image is a fully connected layer *)
From Verif Require Import Base Arith Helper Tensor Network Float32 Spec SpecLayer ProofsDense LayerFacts TensorFacts Demo DemoNet DemoTrain DemoDense.

(** Kernels of the image's shape (any stride then fits), weights whose rows are the kernels in storage order: the same f32 bits,
    whatever the modes of the two layers and even if products or sums are NaN. *)
Theorem C70_same_bits : forall e bm (lc : conv_layer f32) (lf : fc_layer f32) s m (h : N -> N -> N -> N -> f32) (bv : N -> f32)
    (w b x x' : N -> N -> N -> f32) (X X' Yc Yf : tensor f32),
  let AR := f32_arith e in
  conv_layer_ok s lc -> cv_input_shape lc = s -> len (cv_kernels lc) = m -> all_hold bm (cv_kernels lc) s h ->
  (forall k t, nth_error (cv_biases lc) (N.to_nat k) = Some t -> get_item bm t (mkIndex 0 0 0) = Done (bv k)) ->
  fc_ok m (di s * dj s * dk s) lf -> holds bm (fc_weights lf) (mkShape m (di s * dj s * dk s) 1) w -> holds bm (fc_bias lf) (mkShape m 1 1) b ->
  (forall k i j c, k < m -> in_shape s i j c -> w k (flat s i j c) 0 = h k i j c) -> (forall k, k < m -> b k 0 0 = bv k) ->
  holds bm X s x -> holds bm X' (mkShape (di s * dj s * dk s) 1 1) x' -> (forall i j c, in_shape s i j c -> x' (flat s i j c) 0 0 = x i j c) ->
  shaped Yc (cv_output_shape lc) -> shaped Yf (mkShape m 1 1) -> 0 < m ->
  exists lc' lf' Y Y', cv_forward bm lc X Yc = Done (lc', Y, Ok tt) /\ fc_forward bm lf X' Yf = Done (lf', Y', Ok tt)
    /\ tshape Y = mkShape 1 1 m /\ tshape Y' = mkShape m 1 1 /\ data Y = data Y'.
Proof. exact whole_image_dense. Qed.
Print Assumptions C70_same_bits.

Example C70_case : conv_layer_ok (mkShape 2 2 1) w_cv /\ fc_ok 2 4 w_fc
  /\ (forall k i j c, k < 2 -> in_shape (mkShape 2 2 1) i j c -> val (fc_weights w_fc) k (flat (mkShape 2 2 1) i j c) 0 = kernel_at (cv_kernels w_cv) k i j c)
  /\ outs (cv_forward Debug w_cv (tn (mkShape 2 2 1) [5;6;-7;8]%Z) (tn (mkShape 1 1 2) [9;9]%Z)) = Some (ints [5;0]%Z)
  /\ outs (fc_forward Debug w_fc (tn (mkShape 4 1 1) [5;6;-7;8]%Z) (tn (mkShape 2 1 1) [7;7]%Z)) = Some (ints [5;0]%Z).
Proof. split; [exact w_cv_ok|]. split; [exact w_fc_ok|]. split; [exact w_rows|]. split; vm_compute; reflexivity. Qed.
