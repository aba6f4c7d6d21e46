(** * Specification vocabulary for exact arithmetic *)
From Coq Require Import Reals.
From Verif Require Import Base Arith Helper Tensor Spec.

Definition Rsum (l : list R) : R := fold_right Rplus 0%R l.

(** The sum over a shape's elements of the products of [f] and [g]. *)
Definition pairing (s : shape) (f g : N -> N -> N -> R) : R :=
  Rsum (map (fun '(i, j, k) => f i j k * g i j k)%R (cells s)).

(** [X] passes through [x] at 0 and its elements have the derivatives [v] there. *)
Definition curve (s : shape) (X : R -> N -> N -> N -> R) (x v : N -> N -> N -> R) : Prop :=
  forall i j k, in_shape s i j k -> X 0%R i j k = x i j k /\ derivable_pt_lim (fun t => X t i j k) 0 (v i j k).

(** [d] is the gradient of [phi] at [x]: along every differentiable curve through [x] the derivative of [phi] is the pairing of
    [d] with the curve's velocity. *)
Definition gradient (s : shape) (phi : (N -> N -> N -> R) -> R) (x d : N -> N -> N -> R) : Prop :=
  forall X v, curve s X x v -> derivable_pt_lim (fun t => phi (X t)) 0 (pairing s d v).

(** ** What the layers compute, as functions *)

(** A fully connected layer with [n] inputs. *)
Definition fc_pre (n : N) (w b x : N -> N -> N -> R) (i : N) : R :=
  (Rsum (map (fun p => w i p 0%N * x p 0%N 0%N) (upto n)) + b i 0%N 0%N)%R.
Definition fc_map (n : N) (w b x : N -> N -> N -> R) : N -> N -> N -> R := fun i _ _ => Rmax 0 (fc_pre n w b x i).

(** The windows of [x] against the kernels [h 0], [h 1], ... of shape [ks]. *)
Definition conv_linear (ks : shape) (stride : N) (h : N -> N -> N -> N -> R) (x : N -> N -> N -> R) (i j k : N) : R :=
  Rsum (map (fun '(a, e, c) => x (i * stride + a)%N (j * stride + e)%N c * h k a e c)%R (cells ks)).

(** A convolutional layer with kernels [h 0], [h 1], ... of shape [ks] and biases [b 0], [b 1], ... *)
Definition conv_pre (ks : shape) (stride : N) (h : N -> N -> N -> N -> R) (b : N -> R) (x : N -> N -> N -> R) (i j k : N) : R :=
  (conv_linear ks stride h x i j k + b k)%R.
Definition conv_map (ks : shape) (stride : N) (h : N -> N -> N -> N -> R) (b : N -> R) (x : N -> N -> N -> R) : N -> N -> N -> R :=
  fun i j k => Rmax 0 (conv_pre ks stride h b x i j k).

(** Softmax over a shape. *)
Definition softmax_map (s : shape) (x : N -> N -> N -> R) : N -> N -> N -> R :=
  fun i j k => (exp (x i j k) / Rsum (map (fun '(i, j, k) => exp (x i j k)) (cells s)))%R.

Definition value_at (x : N -> N -> N -> R) (c : N * N * N) : R := let '(i, j, k) := c in x i j k.

(** Of the positions [l], [c] holds the greatest value, no other position does, and it is above [low]. *)
Definition unique_max (low : R) (l : list (N * N * N)) (x : N -> N -> N -> R) (c : N * N * N) : Prop :=
  In c l /\ (low < value_at x c)%R /\ forall c', In c' l -> c' <> c -> (value_at x c' < value_at x c)%R.

(** Max pooling, starting from [low] instead of negative infinity. *)
Definition pool_map (low : R) (mask : shape) (stride : N) (x : N -> N -> N -> R) : N -> N -> N -> R :=
  fun i j k => fold_right Rmax low (window_values (di mask) (dj mask) stride x i j k).

(** Every window of the mask over [x] has its unique maximum at [win]. *)
Definition winners (low : R) (mask : shape) (stride : N) (outs : shape) (x : N -> N -> N -> R) (win : N -> N -> N -> N * N * N) : Prop :=
  forall i j k, in_shape outs i j k -> unique_max low (window_positions (di mask) (dj mask) stride i j k) x (win i j k).
