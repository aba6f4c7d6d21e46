(** * Specification vocabulary for f32 *)
From Verif Require Import Base Float32.

(** [m] is the largest non-NaN element of [l], or negative infinity if there is none. *)
Definition max_of (l : list f32) (m : f32) : Prop :=
  isnan m = false /\ (m = f32_ninf \/ In m l) /\ forall x, In x l -> f32_gtb x m = false.

(** Of the positions [l] (in order), with values [v], the first one attaining the maximum has value [m] and
    number [p]: everything before it is NaN or strictly smaller, nothing after it is greater. *)
Definition first_max {P} (l : list P) (v : P -> f32) (number : P -> N) (m : f32) (p : N) : Prop :=
  exists before x after, l = before ++ x :: after /\ m = v x /\ p = number x /\ isnan m = false
    /\ (forall y, In y before -> isnan (v y) = true \/ f32_gtb m (v y) = true)
    /\ (forall y, In y after -> f32_gtb (v y) m = false).
