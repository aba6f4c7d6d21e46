(** * Vocabulary for what happens close to a point *)
From Coq Require Import Reals.
From Verif Require Import Base Arith Helper Tensor Network Spec.

(** Every element of [x'] is within [r] of the one of [x]. *)
Definition near (s : shape) (r : R) (x x' : N -> N -> N -> R) : Prop :=
  forall i j k, in_shape s i j k -> (Rabs (x' i j k - x i j k) <= r)%R.

Definition change (x x' : N -> N -> N -> R) : N -> N -> N -> R := fun i j k => (x' i j k - x i j k)%R.

(** Layers whose output is made of straight pieces: all but softmax. *)
Definition piecewise {F} (l : layer F) : Prop := match l with LSoftmax _ => False | _ => True end.
