(** * Vocabulary for C101: scaling by powers of two *)
From Coq Require Import Reals.
From Flocq Require Import IEEE754.Binary.
From Verif Require Import Base Arith Helper Tensor Network Float32 Spec SpecLayer SpecReal SpecError.
Local Open Scope R_scope.

(** [x'] is [x * 2^k], and has its sign if they are zero. *)
Definition scaled (k : Z) (x x' : f32) : Prop :=
  fin x = true /\ fin x' = true /\ Bsign 24 128 x' = Bsign 24 128 x /\ real x' = real x * powerRZ 2 k.

Definition scaled_on (k : Z) (s : shape) (x x' : N -> N -> N -> f32) : Prop :=
  forall i j c, in_shape s i j c -> scaled k (x i j c) (x' i j c).

Definition scaled_tensor {AR : Arith f32} (bm : build) (k : Z) (t t' : tensor f32) : Prop :=
  exists s f f', holds bm t s f /\ holds bm t' s f' /\ scaled_on k s f f'.

(** The bias of a channel. *)
Definition scaled_bias {AR : Arith f32} (bm : build) (k : Z) (t t' : tensor f32) : Prop :=
  exists b b', get_item bm t (mkIndex 0 0 0) = Done b /\ get_item bm t' (mkIndex 0 0 0) = Done b' /\ scaled k b b'.

(** The layer [p'] turns inputs scaled by 2^c into outputs scaled by 2^d. *)
Definition scaled_layer {AR : Arith f32} (bm : build) (c d : Z) (p p' : params f32) : Prop :=
  match p, p' with
  | PFC weights bias, PFC weights' bias' => scaled_tensor bm (d - c) weights weights' /\ scaled_tensor bm d bias bias'
  | PConv kernels biases stride ins outs, PConv kernels' biases' stride' ins' outs' =>
      stride' = stride /\ ins' = ins /\ outs' = outs /\ Forall2 (scaled_tensor bm (d - c)) kernels kernels' /\ Forall2 (scaled_bias bm d) biases biases'
  | PMaxPool ins mask outs stride, PMaxPool ins' mask' outs' stride' => ins' = ins /\ mask' = mask /\ outs' = outs /\ stride' = stride /\ d = c
  | _, _ => False
  end.

Inductive scaled_layers {AR : Arith f32} (bm : build) : Z -> Z -> list (params f32) -> list (params f32) -> Prop :=
| scaled_none c : scaled_layers bm c c [] []
| scaled_one c d f p p' ps ps' : scaled_layer bm c d p p' -> scaled_layers bm d f ps ps' -> scaled_layers bm c f (p :: ps) (p' :: ps').

(** The product of two numbers is no subnormal number. *)
Definition normal_product (x y : f32) : Prop := real x * real y = 0 \/ powerRZ 2 (-126) <= Rabs (real x * real y).

(** A layer with parameters [p] neither overflows nor underflows on [X]. *)
Definition layer_in_range {AR : Arith f32} (bm : build) (p : params f32) (X : tensor f32) : Prop :=
  match p with
  | PFC weights bias => forall m n w b x,
      holds bm weights (mkShape m n 1) w -> holds bm bias (mkShape m 1 1) b -> holds bm X (mkShape n 1 1) x ->
      forall i, (i < m)%N -> (forall q, (q < n)%N -> normal_product (w i q 0%N) (x q 0%N 0%N))
        /\ fin (fadd (sum (map (fun q => fmul (w i q 0%N) (x q 0%N 0%N)) (upto n))) (b i 0%N 0%N)) = true
  | PConv kernels biases stride ins outs => forall ks h b x,
      all_hold bm kernels ks h ->
      (forall n t, nth_error biases (N.to_nat n) = Some t -> get_item bm t (mkIndex 0 0 0) = Done (b n)) -> holds bm X ins x ->
      forall i j k, in_shape outs i j k ->
        (forall a e c, in_shape ks a e c -> normal_product (x (i * stride + a)%N (j * stride + e)%N c) (h k a e c))
        /\ fin (fadd (sum (window_products ks stride x (h k) i j)) (b k)) = true
  | PMaxPool _ mask _ _ => (0 < di mask)%N /\ (0 < dj mask)%N
  | PSoftmax _ => False
  end.

Fixpoint in_range {AR : Arith f32} (bm : build) (ps : list (params f32)) (X : tensor f32) : Prop :=
  match ps with
  | [] => True
  | p :: ps' => layer_in_range bm p X /\ forall Z, computes bm p X Z -> in_range bm ps' Z
  end.
