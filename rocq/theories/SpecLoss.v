(** * Vocabulary for C103: losses other than linear ones *)
From Coq Require Import Reals.
From Verif Require Import Base Arith Helper Tensor Network Spec SpecLayer SpecReal SpecNet SpecTrain SpecChain SpecBatch RealArith.
Local Open Scope R_scope.

(** A loss: a number for every array of outputs. *)
Definition loss_fun : Type := (N -> N -> N -> R) -> R.

(** The loss depends on the elements of the shape [s] only. *)
Definition looks_at (s : shape) (L : loss_fun) : Prop :=
  forall y y', (forall i j k, in_shape s i j k -> y i j k = y' i j k) -> L y = L y'.

(** A sample for training: an input, the tensor handed to the backward pass, and the loss of the network's output. *)
Definition sample : Type := (tensor R * tensor R) * loss_fun.

(** What the network outputs on the input [X]. *)
Definition outputs (low : R) (bm : build) (n : network R) (X : tensor R) (y : N -> N -> N -> R) : Prop :=
  let AR := R_arith low in
  exists n' Y, infer bm n X = Done (n', Ok tt) /\ get_output n' = Done (Ok Y) /\ holds bm Y (net_output_shape n) y.

(** The sum of the losses of the network's outputs on the samples' inputs. *)
Inductive total_loss (low : R) (bm : build) (n : network R) : list sample -> R -> Prop :=
| total_none : total_loss low bm n [] 0
| total_one X G (L : loss_fun) rest y r l :
    outputs low bm n X y -> (forall y', outputs low bm n X y' -> L y' = r) ->
    total_loss low bm n rest l -> total_loss low bm n ((X, G, L) :: rest) (r + l).

(** The sample has the right shapes, the network is differentiable there, and the tensor for the backward pass holds the gradient of the
    loss at the network's output. *)
Definition aimed (low : R) (bm : build) (n : network R) (s : sample) : Prop :=
  let AR := R_arith low in
  let '(X, G, L) := s in
  sample_ok low bm n (X, G) /\ looks_at (net_output_shape n) L
  /\ exists y g, outputs low bm n X y /\ holds bm G (net_output_shape n) g /\ gradient (net_output_shape n) L y g.

(** Half the squared distance to a target. *)
Definition squared_error (s : shape) (target : N -> N -> N -> R) : loss_fun :=
  fun y => Rsum (map (fun '(i, j, k) => (y i j k - target i j k) * (y i j k - target i j k) / 2) (cells s)).

(** The cross entropy of the target distribution. *)
Definition cross_entropy (s : shape) (target : N -> N -> N -> R) : loss_fun :=
  fun y => Rsum (map (fun '(i, j, k) => - (target i j k * ln (y i j k))) (cells s)).
