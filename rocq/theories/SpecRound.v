(** * Vocabulary for C73: f32 gradients against exact sums *)
From Coq Require Import Reals.
From Verif Require Import Base Arith Helper Tensor Network Float32 Spec SpecLayer SpecTrain SpecReal SpecError.
Local Open Scope R_scope.

Notation values := (N -> N -> N -> f32).

(** The unit lets the gradient through on input [x]: its f32 pre-activation is positive. *)
Definition active (e : env) (n : N) (w b : values) (i : N) (x : values) : bool :=
  f32_gtb (@pre_activation f32 (f32_arith e) n w b x i) f32_zero.

(** The exact gradient of unit [i] for one pair. *)
Definition passed (e : env) (n : N) (w b : values) (i : N) (p : values * values) : R :=
  if active e n w b i (fst p) then real (snd p i 0%N 0%N) else 0.

(** [v] is a finite f32 only if it is within [c] of [r]. *)
Definition within (v : f32) (r c : R) : Prop := fin v = true -> Rabs (real v - r) <= c.
