(** * The f32 instance: IEEE 754 binary32 (Flocq)

    Round to nearest, ties to even. What the Rust reference leaves open is a parameter [env]: the payload and
    sign of the NaN an operation produces, which zero [f32::max] returns when comparing +0.0 with -0.0, and the
    values of [exp] and [powi]. *)
From Flocq Require Import Core.Zaux Core.FLX IEEE754.Binary IEEE754.Bits.
From Verif Require Import Base Arith.

Definition f32 := binary32.
Definition f32_prec : FLX.Prec_gt_0 24 := eq_refl.
Definition f32_emax : BinarySingleNaN.Prec_lt_emax 24 128 := eq_refl.

Notation isnan := (is_nan 24 128).
Definition a_nan := { x : f32 | isnan x = true }.

Record env := {
  nan_add : f32 -> f32 -> a_nan;
  nan_mul : f32 -> f32 -> a_nan;
  nan_div : f32 -> f32 -> a_nan;
  nan_sqrt : f32 -> a_nan;
  max_zero : f32 -> f32 -> bool;   (* on a tie of zeros: true = first operand *)
  env_exp : f32 -> f32;
  env_powi2 : f32 -> f32
}.

Definition f32_zero : f32 := B754_zero 24 128 false.
Definition f32_one : f32 := B754_finite 24 128 false 8388608 (-23) eq_refl.
Definition f32_mone : f32 := B754_finite 24 128 true 8388608 (-23) eq_refl.
Definition f32_ninf : f32 := B754_infinity 24 128 true.

Definition f32_cmp (x y : f32) : option comparison := Bcompare 24 128 x y.
Definition f32_gtb (x y : f32) : bool :=
  match f32_cmp x y with Some Gt => true | _ => false end.
Definition f32_eqb (x y : f32) : bool :=
  match f32_cmp x y with Some Eq => true | _ => false end.

Section Env.
Context (e : env).

Definition f32_add : f32 -> f32 -> f32 := Bplus 24 128 f32_prec f32_emax (nan_add e) BinarySingleNaN.mode_NE.
Definition f32_mul : f32 -> f32 -> f32 := Bmult 24 128 f32_prec f32_emax (nan_mul e) BinarySingleNaN.mode_NE.
Definition f32_div : f32 -> f32 -> f32 := Bdiv 24 128 f32_prec f32_emax (nan_div e) BinarySingleNaN.mode_NE.
Definition f32_sqrt : f32 -> f32 := Bsqrt 24 128 f32_prec f32_emax (nan_sqrt e) BinarySingleNaN.mode_NE.

(** [f32::max]: a NaN operand loses; equal non-zero operands are identical; on a tie of zeros either may be
    returned. *)
Definition f32_max (x y : f32) : f32 :=
  if isnan x then y
  else if isnan y then x
  else match f32_cmp x y with
       | Some Gt => x
       | Some Lt => y
       | _ => if max_zero e x y then x else y
       end.

#[export] Instance f32_arith : Arith f32 := {|
  fzero := f32_zero;
  fone := f32_one;
  fmone := f32_mone;
  fninf := f32_ninf;
  fadd := f32_add;
  fmul := f32_mul;
  fdiv := f32_div;
  fgtb := f32_gtb;
  feqb := f32_eqb;
  fmax := f32_max;
  fexp := env_exp e;
  fsqrt := f32_sqrt;
  fpowi2 := env_powi2 e
|}.

End Env.

#[export] Instance f32_bits : Bits f32 := {|
  fto_bits := fun x => Z.to_N (bits_of_b32 x);
  fof_bits := fun n => b32_of_bits (Z.of_N n)
|}.

(** A concrete environment for worked examples: x86 payload propagation, [powi(2)] as [x * x], [exp] from a
    table of the few values the examples need (0.0 elsewhere). *)
Definition b32 (n : Z) : f32 := b32_of_bits n.

Definition demo_exp (x : f32) : f32 :=
  match bits_of_b32 x with
  | 1065353216%Z => b32 1076754516%Z      (* exp 1.0 = 2.7182817 *)
  | 1073741824%Z => b32 1089237798%Z      (* exp 2.0 = 7.389056 *)
  | 1077936128%Z => b32 1101049646%Z      (* exp 3.0 = 20.085537 *)
  | 0%Z => b32 1065353216%Z               (* exp 0.0 = 1.0 *)
  | 1120403456%Z => b32 2139095040%Z      (* exp 100.0 = inf *)
  | 3276275712%Z => b32 0%Z               (* exp -200.0 = 0.0 *)
  | _ => f32_zero
  end.

Definition demo_env : env := {|
  nan_add := binop_nan_pl32;
  nan_mul := binop_nan_pl32;
  nan_div := binop_nan_pl32;
  nan_sqrt := unop_nan_pl32;
  max_zero := fun _ _ => true;
  env_exp := demo_exp;
  env_powi2 := fun x => Bmult 24 128 f32_prec f32_emax binop_nan_pl32 BinarySingleNaN.mode_NE x x
|}.

(** The f32 nearest to the integer [z], for examples. *)
Definition f32_of_Z (z : Z) : f32 :=
  binary_normalize 24 128 f32_prec f32_emax BinarySingleNaN.mode_NE z 0 false.
