(** * Vocabulary for C66: how much a network can amplify a change of its input *)
From Coq Require Import Reals.
From Verif Require Import Base Arith Helper Tensor Network Float32 Spec SpecLayer SpecReal SpecError RealArith.
Local Open Scope R_scope.

(** No two elements differ by more than [d]. *)
Definition apart (d : R) (s : shape) (x y : N -> N -> N -> R) : Prop := forall i j k, in_shape s i j k -> Rabs (x i j k - y i j k) <= d.

(** [layer_gain low bm p g]: a change of the input by at most [d] changes the output by at most [g * d]. [g] bounds the sum of the
    absolute weights behind one output. *)
Inductive layer_gain (low : R) (bm : build) : params R -> R -> Prop :=
| GFC weights bias m n w g :
    let AR := R_arith low in
    holds bm weights (mkShape m n 1) w ->
    (forall i, (i < m)%N -> Rsum (map (fun p => Rabs (w i p 0%N)) (upto n)) <= g) -> 0 <= g ->
    layer_gain low bm (PFC weights bias) g
| GConv kernels biases stride ins outs ks h g :
    let AR := R_arith low in
    all_hold bm kernels ks h ->
    (forall k, (k < dk outs)%N -> Rsum (map (fun '(i, j, c) => Rabs (h k i j c)) (cells ks)) <= g) -> 0 <= g ->
    layer_gain low bm (PConv kernels biases stride ins outs) g
| GMaxPool ins mask outs stride : layer_gain low bm (PMaxPool ins mask outs stride) 1
| GSoftmax s : layer_gain low bm (PSoftmax s) (/ 2).

(** The product over the layers. *)
Inductive net_gain (low : R) (bm : build) : list (params R) -> R -> Prop :=
| gain_none : net_gain low bm [] 1
| gain_layer p ps g1 g2 : layer_gain low bm p g1 -> net_gain low bm ps g2 -> net_gain low bm (p :: ps) (g1 * g2).
