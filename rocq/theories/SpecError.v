(** * Vocabulary for f32 errors against exact arithmetic *)
From Coq Require Import Reals.
From Flocq Require Import IEEE754.Binary.
From Verif Require Import Base Float32.
Local Open Scope R_scope.

(** An f32 that is neither infinite nor NaN, and the real number it stands for. *)
Notation fin := (Binary.is_finite 24 128).
Notation real := (Binary.B2R 24 128).

(** Unit roundoff, and half the smallest positive f32. *)
Definition u : R := / 2 ^ 24.
Definition eta : R := / 2 ^ 150.

(** The bound for a sum of [n] products whose absolute values add up to [a]; with a bias of absolute value [b] added at the end. *)
Definition bound (n : nat) (a : R) : R := ((1 + u) ^ n - 1) * a + INR n * (1 + u) ^ n * eta.
Definition bound_biased (n : nat) (a b : R) : R := ((1 + u) ^ (n + 1) - 1) * (a + b) + INR n * (1 + u) ^ (n + 1) * eta.
