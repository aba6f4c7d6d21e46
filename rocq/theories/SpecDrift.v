(** * Vocabulary for C93: two networks whose parameters differ by little *)
From Coq Require Import Reals.
From Verif Require Import Base Arith Helper Tensor Network Float32 Spec SpecLayer SpecReal SpecError SpecGain RealArith.
Local Open Scope R_scope.

(** No element exceeds [a] in absolute value. *)
Definition within (a : R) (s : shape) (x : N -> N -> N -> R) : Prop := forall i j k, in_shape s i j k -> Rabs (x i j k) <= a.

(** [layer_drift low bm p p' a d a1 d1]: given inputs [d] apart, of which the second is at most [a], the outputs of the layers with the
    parameters [p] and [p'] are at most [d1] apart and the second is at most [a1]. Behind one output, [g] bounds the sum of the absolute
    weights of [p], [g'] the one of [p'], [c] the sum of their differences; [b1] bounds the biases of [p'], [f] their differences. *)
Inductive layer_drift (low : R) (bm : build) : params R -> params R -> R -> R -> R -> R -> Prop :=
| DFC weights bias weights' bias' m n w w' b b' g g' c b1 f a d :
    let AR := R_arith low in
    holds bm weights (mkShape m n 1) w -> holds bm weights' (mkShape m n 1) w' ->
    holds bm bias (mkShape m 1 1) b -> holds bm bias' (mkShape m 1 1) b' ->
    (forall i, (i < m)%N -> Rsum (map (fun p => Rabs (w i p 0%N)) (upto n)) <= g /\ Rsum (map (fun p => Rabs (w' i p 0%N)) (upto n)) <= g'
       /\ Rsum (map (fun p => Rabs (w i p 0%N - w' i p 0%N)) (upto n)) <= c
       /\ Rabs (b' i 0%N 0%N) <= b1 /\ Rabs (b i 0%N 0%N - b' i 0%N 0%N) <= f) ->
    0 <= g -> 0 <= g' -> 0 <= c -> 0 <= b1 -> 0 <= f ->
    layer_drift low bm (PFC weights bias) (PFC weights' bias') a d (g' * a + b1) (g * d + (c * a + f))
| DConv kernels biases kernels' biases' stride ins outs ks h h' bv bv' g g' c b1 f a d :
    let AR := R_arith low in
    all_hold bm kernels ks h -> all_hold bm kernels' ks h' ->
    (forall n t, nth_error biases (N.to_nat n) = Some t -> get_item bm t (mkIndex 0 0 0) = Done (bv n)) ->
    (forall n t, nth_error biases' (N.to_nat n) = Some t -> get_item bm t (mkIndex 0 0 0) = Done (bv' n)) ->
    (forall k, (k < dk outs)%N -> Rsum (map (fun '(i, j, l) => Rabs (h k i j l)) (cells ks)) <= g /\ Rsum (map (fun '(i, j, l) => Rabs (h' k i j l)) (cells ks)) <= g'
       /\ Rsum (map (fun '(i, j, l) => Rabs (h k i j l - h' k i j l)) (cells ks)) <= c
       /\ Rabs (bv' k) <= b1 /\ Rabs (bv k - bv' k) <= f) ->
    0 <= g -> 0 <= g' -> 0 <= c -> 0 <= b1 -> 0 <= f ->
    layer_drift low bm (PConv kernels biases stride ins outs) (PConv kernels' biases' stride ins outs) a d (g' * a + b1) (g * d + (c * a + f))
| DMaxPool ins mask outs stride a d :
    (0 < di mask)%N -> (0 < dj mask)%N -> low <= - a ->
    layer_drift low bm (PMaxPool ins mask outs stride) (PMaxPool ins mask outs stride) a d a d
| DSoftmax s a d : layer_drift low bm (PSoftmax s) (PSoftmax s) a d 1 (/ 2 * d).

Inductive net_drift (low : R) (bm : build) : list (params R) -> list (params R) -> R -> R -> R -> R -> Prop :=
| drift_none a d : net_drift low bm [] [] a d a d
| drift_layer p p' ps ps' a d a1 d1 a2 d2 :
    layer_drift low bm p p' a d a1 d1 -> net_drift low bm ps ps' a1 d1 a2 d2 -> net_drift low bm (p :: ps) (p' :: ps') a d a2 d2.
