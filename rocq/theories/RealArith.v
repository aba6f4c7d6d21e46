(** * The exact instance: real numbers

    Used for the algebraic and calculus properties ("in exact arithmetic"). [m] stands in for
    f32::NEG_INFINITY, which is not a real; theorems that touch max pooling assume it lies below all pixels. *)
From Coq Require Import Reals.
From Verif Require Import Base Arith.

#[export] Instance R_arith (m : R) : Arith R := {|
  fzero := 0%R;
  fone := 1%R;
  fmone := (-1)%R;
  fninf := m;
  fadd := Rplus;
  fmul := Rmult;
  fdiv := Rdiv;
  fgtb := fun x y => if Rlt_dec y x then true else false;
  feqb := fun x y => if Req_EM_T x y then true else false;
  fmax := Rmax;
  fexp := exp;
  fsqrt := sqrt;
  fpowi2 := fun x => (x * x)%R
|}.
