(** * C85: sparse weights *)
From Verif Require Import Base Arith Helper Tensor Network Float32 Spec SpecLayer SpecSparse ProofsSparse LayerFacts TensorFacts Demo DemoNet DemoTrain DemoSparse.

(** A convolution, whatever its stride and kernels, is the fully connected layer whose row for the output (i, j, k) holds kernel [k] at the
    positions under its window and zeros of either sign elsewhere: on finite images the same f32 bits, even if kernels are infinite or NaN. *)
Theorem C85_convolution : forall e bm (lc : conv_layer f32) (lf : fc_layer f32) ks ins outs m n (h : N -> N -> N -> N -> f32) (bv : N -> f32)
    (w b x x' : N -> N -> N -> f32) (X X' Yc Yf : tensor f32),
  let AR := f32_arith e in
  cv_input_shape lc = ins -> cv_output_shape lc = outs -> n = di ins * dj ins * dk ins -> m = di outs * dj outs * dk outs ->
  conv_layer_ok ks lc -> all_hold bm (cv_kernels lc) ks h ->
  (forall k t, nth_error (cv_biases lc) (N.to_nat k) = Some t -> get_item bm t (mkIndex 0 0 0) = Done (bv k)) ->
  fc_ok m n lf -> holds bm (fc_weights lf) (mkShape m n 1) w -> holds bm (fc_bias lf) (mkShape m 1 1) b ->
  (forall i j k a c d, in_shape outs i j k -> in_shape ks a c d ->
     w (flat outs i j k) (flat ins (i * cv_stride lc + a) (j * cv_stride lc + c) d) 0 = h k a c d) ->
  (forall i j k a c d, in_shape outs i j k -> in_shape ins a c d -> ~ under ks (cv_stride lc) i j a c ->
     zero (w (flat outs i j k) (flat ins a c d) 0)) ->
  (forall i j k, in_shape outs i j k -> b (flat outs i j k) 0 0 = bv k) ->
  holds bm X ins x -> holds bm X' (mkShape n 1 1) x' ->
  (forall i j k, in_shape ins i j k -> x' (flat ins i j k) 0 0 = x i j k /\ finite (x i j k)) ->
  shaped Yc outs -> shaped Yf (mkShape m 1 1) ->
  exists lc' lf' Y Y', cv_forward bm lc X Yc = Done (lc', Y, Ok tt) /\ fc_forward bm lf X' Yf = Done (lf', Y', Ok tt)
    /\ tshape Y = outs /\ tshape Y' = mkShape m 1 1 /\ data Y = data Y'.
Proof. exact conv_sparse. Qed.
Print Assumptions C85_convolution.

(** Inputs all of whose weights are zero do not matter as long as they are finite: not even to the sign of a zero or a rounding. *)
Theorem C85_ignored_inputs : forall e bm (l : fc_layer f32) m n (w b x x' : N -> N -> N -> f32) (X X' Y0 : tensor f32),
  let AR := f32_arith e in
  fc_ok m n l -> holds bm (fc_weights l) (mkShape m n 1) w -> holds bm (fc_bias l) (mkShape m 1 1) b ->
  holds bm X (mkShape n 1 1) x -> holds bm X' (mkShape n 1 1) x' -> shaped Y0 (mkShape m 1 1) ->
  (forall p, p < n -> x p 0 0 = x' p 0 0 \/ finite (x p 0 0) /\ finite (x' p 0 0) /\ forall i, i < m -> zero (w i p 0)) ->
  exists l1 l2 Y, fc_forward bm l X Y0 = Done (l1, Y, Ok tt) /\ fc_forward bm l X' Y0 = Done (l2, Y, Ok tt).
Proof. exact ignored_inputs. Qed.
Print Assumptions C85_ignored_inputs.

(** The kernel (1, 2) over a 3x2 image and its 4x6 matrix. *)
Example C85_case : conv_layer_ok (mkShape 2 1 1) t_cv /\ fc_ok 4 6 t_fc
  /\ (forall i j k a c d, in_shape (mkShape 2 2 1) i j k -> in_shape (mkShape 2 1 1) a c d ->
        val (fc_weights t_fc) (flat (mkShape 2 2 1) i j k) (flat (mkShape 3 2 1) (i * 1 + a) (j * 1 + c) d) 0 = kernel_at (cv_kernels t_cv) k a c d)
  /\ (forall i j k a c d, in_shape (mkShape 2 2 1) i j k -> in_shape (mkShape 3 2 1) a c d -> ~ under (mkShape 2 1 1) 1 i j a c ->
        zero (val (fc_weights t_fc) (flat (mkShape 2 2 1) i j k) (flat (mkShape 3 2 1) a c d) 0))
  /\ outs (cv_forward Debug t_cv (tn (mkShape 3 2 1) [5;6;-7;8;1;2]%Z) (tn (mkShape 2 2 1) [9;9;9;9]%Z)) = Some (ints [18;0;11;6]%Z)
  /\ outs (fc_forward Debug t_fc (tn (mkShape 6 1 1) [5;6;-7;8;1;2]%Z) (tn (mkShape 4 1 1) [7;7;7;7]%Z)) = Some (ints [18;0;11;6]%Z).
Proof. split; [exact t_cv_ok|]. split; [exact t_fc_ok|]. split; [exact t_window|]. split; [exact t_outside|]. split; vm_compute; reflexivity. Qed.

(** 3 with weight 1 and an ignored 5; an ignored infinity makes the sum a NaN and the output 0. *)
Example C85_infinite : let l := mkFC (tn (mkShape 1 2 1) [1;0]%Z) dot dot (tn (mkShape 1 1 1) [0]%Z) dot dot "dense" Inference in
  outs (fc_forward Debug l (tn (mkShape 2 1 1) [3;5]%Z) (tn (mkShape 1 1 1) [7]%Z)) = Some (ints [3]%Z)
  /\ outs (fc_forward Debug l (mkTensor (mkStride 1 2 2) (mkShape 2 1 1) [f32_of_Z 3; b32 2139095040]) (tn (mkShape 1 1 1) [7]%Z)) = Some (ints [0]%Z).
Proof. split; vm_compute; reflexivity. Qed.
