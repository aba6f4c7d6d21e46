(** * Vocabulary for C71: layers with non-negative weights *)
From Coq Require Import Reals.
From Verif Require Import Base Arith Helper Tensor Network Float32 Spec SpecLayer SpecError.
Local Open Scope R_scope.

(** A finite f32 that is not negative. *)
Definition positive (x : f32) : Prop := fin x = true /\ 0 <= real x.

(** Weights or kernels not negative, biases finite; pooling over at least one element; no softmax. *)
Inductive positive_layer (e : env) (bm : build) : params f32 -> Prop :=
| PosFC weights bias m n w b :
    let AR := f32_arith e in
    holds bm weights (mkShape m n 1) w -> holds bm bias (mkShape m 1 1) b ->
    (forall i p, (i < m)%N -> (p < n)%N -> positive (w i p 0%N)) -> (forall i, (i < m)%N -> fin (b i 0%N 0%N) = true) ->
    positive_layer e bm (PFC weights bias)
| PosConv kernels biases stride ins outs ks h bv :
    let AR := f32_arith e in
    all_hold bm kernels ks h ->
    (forall n b, nth_error biases (N.to_nat n) = Some b -> get_item bm b (mkIndex 0 0 0) = Done (bv n)) ->
    (forall k i j c, (k < dk outs)%N -> in_shape ks i j c -> positive (h k i j c)) -> (forall k, (k < dk outs)%N -> fin (bv k) = true) ->
    positive_layer e bm (PConv kernels biases stride ins outs)
| PosMaxPool ins mask outs stride : (0 < di mask)%N -> (0 < dj mask)%N -> positive_layer e bm (PMaxPool ins mask outs stride).
