(** * Vocabulary for C85: sparse weights *)
From Flocq Require Import IEEE754.Binary.
From Verif Require Import Base Arith Helper Tensor Float32 Spec.

Definition finite (x : f32) : Prop := is_finite 24 128 x = true.
(** Zero of either sign. *)
Definition zero (x : f32) : Prop := exists s, x = B754_zero 24 128 s.

(** The image position (a, e) lies under the window at the output position (i, j). *)
Definition under (ks : shape) (stride i j a e : N) : Prop :=
  i * stride <= a < i * stride + di ks /\ j * stride <= e < j * stride + dj ks.
