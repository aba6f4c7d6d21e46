(** * Where a network is differentiable layer by layer *)
From Coq Require Import Reals.
From Verif Require Import Base Arith Helper Tensor Network Spec SpecLayer SpecNet SpecReal RealArith.

(** A layer with parameters [p] is differentiable at the input [X]: no pre-activation is 0, every pooling window has a unique maximum.
    For a convolution, whose backward pass ignores the activation: no pre-activation is clipped. *)
Definition layer_smooth (low : R) (bm : build) (p : params R) (X : tensor R) : Prop :=
  let AR := R_arith low in
  match p with
  | PFC weights bias => forall m n w b x,
      holds bm weights (mkShape m n 1) w -> holds bm bias (mkShape m 1 1) b -> holds bm X (mkShape n 1 1) x ->
      forall i, i < m -> fc_pre n w b x i <> 0%R
  | PConv kernels biases stride ins outs => forall ks h b x,
      all_hold bm kernels ks h ->
      (forall n t, nth_error biases (N.to_nat n) = Some t -> get_item bm t (mkIndex 0 0 0) = Done (b n)) -> holds bm X ins x ->
      forall i j k, in_shape outs i j k -> (0 < conv_pre ks stride h b x i j k)%R
  | PMaxPool ins mask outs stride => exists x win, holds bm X ins x /\ winners low mask stride outs x win
  | PSoftmax _ => True
  end.

Fixpoint smooth (low : R) (bm : build) (ps : list (params R)) (X : tensor R) : Prop :=
  match ps with
  | [] => True
  | p :: ps' => layer_smooth low bm p X /\ forall Z, @computes R (R_arith low) bm p X Z -> smooth low bm ps' Z
  end.

(** Layers whose backward pass is exact: a convolution needs stride 1 and kernels of its output's extents. *)
Definition backs_exactly {F} (l : layer F) : Prop :=
  match l with
  | LConv l => cv_stride l = 1 /\ cv_kernels l <> []
      /\ Forall (fun k => di (tshape k) = di (cv_output_shape l) /\ dj (tshape k) = dj (cv_output_shape l)) (cv_kernels l)
      /\ 0 < di (cv_output_shape l) /\ 0 < dj (cv_output_shape l)
      /\ di (cv_input_shape l) <= 2147483648 /\ dj (cv_input_shape l) <= 2147483648
  | _ => backs l
  end.
