(** * Vocabulary for C109: equal units stay equal *)
From Coq Require Import Reals.
From Verif Require Import Base Arith Helper Tensor Network Bincode Serial Spec SpecLayer SpecNet RealArith.
Local Open Scope N_scope.

Section Twins.
Context (low : R) (bm : build).
#[local] Hint Extern 0 (Arith R) => exact (R_arith low) : typeclass_instances.
Notation T := (tensor R).

(** Units [a] and [b] between two layers: equal rows and biases in front, equal columns behind. *)
Definition alike (a b : N) (weights bias next : T) : Prop := exists m n p w c v,
  holds bm weights (mkShape m n 1) w /\ holds bm bias (mkShape m 1 1) c /\ holds bm next (mkShape p m 1) v /\ a < m /\ b < m
  /\ (forall q, q < n -> w a q 0 = w b q 0) /\ c a 0 0 = c b 0 0 /\ (forall q, q < p -> v q a 0 = v q b 0).

Definition twins (a b : N) (f g : fc_layer R) : Prop := alike a b (fc_weights f) (fc_bias f) (fc_weights g).
Definition twin_gradients (a b : N) (f g : fc_layer R) : Prop := alike a b (fc_weights_gradients f) (fc_bias_gradients f) (fc_weights_gradients g).

End Twins.
