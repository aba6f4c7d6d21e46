(** * Model of the uniform generator behind [Tensor::fill_with_uniform]

    tensor.rs:91 builds [rand::distributions::Uniform::new_inclusive(min, max)] and tensor.rs:94 draws one value
    per element. This file models rand 0.8.5's [UniformFloat<f32>] (rand/src/distributions/uniform.rs,
    [uniform_float_impl!] with 9 bits to discard), from its documented algorithm: the crate's source is not
    available here. The raw 32-bit outputs of [thread_rng] are arbitrary. *)
From Flocq Require Import Core.Zaux Core.FLX IEEE754.Binary IEEE754.Bits.
From Verif Require Import Base Arith Float32 Tensor.

Section Uniform.
Context (bm : build) (e : env).

Definition f32_sub : f32 -> f32 -> f32 := Bminus 24 128 f32_prec f32_emax (nan_add e) BinarySingleNaN.mode_NE.
Definition f32_leb (x y : f32) : bool :=
  match f32_cmp x y with Some Lt | Some Eq => true | _ => false end.
Definition finite (x : f32) : bool := Binary.is_finite 24 128 x.

(** [(word >> 9).into_float_with_exponent(0) - 1.0]: the upper 23 bits as the fraction of a float in [1, 2). *)
Definition unit_value (word : N) : f32 := f32_sub (fof_bits (1065353216 + word / 512)) f32_one.

(** [max_rand]: the largest of them. *)
Definition max_rand : f32 := unit_value 4294967295.

(** [scale.decrease_masked(mask)]: the previous bit pattern. *)
Definition decrease (x : f32) : f32 := fof_bits (fto_bits x - 1).

(** [while !done(a) { a = step(a) }], at most [p] rounds; see [uniform_loop_ends] for why they suffice. *)
Fixpoint loop_until {A} (done : A -> bool) (step : A -> A) (p : positive) (a : A) : A :=
  if done a then a
  else match p with
       | xH => step a
       | xO q => loop_until done step q (loop_until done step q a)
       | xI q => loop_until done step q (loop_until done step q (step a))
       end.

(** The loop's exit test: the largest value that can be drawn does not exceed [high]. *)
Definition scale_ok (low high scale : f32) : bool :=
  negb (f32_gtb (f32_add e (f32_mul e scale max_rand) low) high).

(** [UniformFloat::new_inclusive(low, high)], returning (low, scale). *)
Definition uniform_new (low high : f32) : res (f32 * f32) :=
  if match bm with Debug => negb (finite low && finite high) | Release => false end then Panic PAssert
  else if negb (f32_leb low high) then Panic PAssert
  else
    let scale := f32_div e (f32_sub high low) max_rand in
    if negb (finite scale) then Panic PAssert
    else Done (low, loop_until (scale_ok low high) decrease (N.succ_pos (fto_bits scale)) scale).

(** [UniformFloat::sample] on one 32-bit word. *)
Definition uniform_sample (d : f32 * f32) (word : N) : f32 :=
  let '(low, scale) := d in f32_add e (f32_mul e (unit_value word) scale) low.

(** tensor.rs:90-96 with the generator spelt out; [words n] is the n-th raw output. *)
Definition fill_with_uniform_words (t : tensor f32) (min max : f32) (words : nat -> N) : res (tensor f32) :=
  d <- uniform_new min max ;;
  fill_with_uniform true (fun n => uniform_sample d (words n)) t.

End Uniform.
