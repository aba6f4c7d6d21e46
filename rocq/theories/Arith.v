(** * Scalar operations used by the code.

    The Rust code computes with [f32]. The model is written over any type [F] with these
    operations. The class holds operations only, no laws: a theorem about a generic [F] holds for every
    choice of operations, in particular for IEEE binary32 ([Float32.v]) and for exact reals ([RealArith.v]). *)
From Verif Require Import Base.

Class Arith (F : Type) := {
  fzero : F;                  (* 0.0 *)
  fone : F;                   (* 1.0 *)
  fmone : F;                  (* -1.0 *)
  fninf : F;                  (* f32::NEG_INFINITY *)
  fadd : F -> F -> F;         (* a + b *)
  fmul : F -> F -> F;         (* a * b *)
  fdiv : F -> F -> F;         (* a / b *)
  fgtb : F -> F -> bool;      (* a > b *)
  feqb : F -> F -> bool;      (* a == b *)
  fmax : F -> F -> F;         (* a.max(b) *)
  fexp : F -> F;              (* a.exp() *)
  fsqrt : F -> F;             (* a.sqrt() *)
  fpowi2 : F -> F             (* a.powi(2) *)
}.

(** f32's bit representation, used by bincode. *)
Class Bits (F : Type) := {
  fto_bits : F -> N;          (* a.to_bits() *)
  fof_bits : N -> F           (* f32::from_bits(n) *)
}.
