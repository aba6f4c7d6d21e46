(** * Base: the parts of Rust the model needs.

    Panics, [Result], fixed-width integers, vectors and loops. These definitions model the Rust
    language and its core library, not a file of the repository. *)
From Coq Require Export String NArith ZArith Bool Lia List.
Export ListNotations.
Global Open Scope N_scope.
Global Open Scope bool_scope.

(** Overflow checks of the build profile: [Debug] (cargo's dev/test profile, overflow panics) and
    [Release] (overflow wraps modulo 2^32). *)
Inductive build := Debug | Release.

(** Why a panic happened. *)
Inductive panic :=
| POverflow       (* arithmetic overflow check *)
| PDivZero        (* division / remainder by zero *)
| PBounds         (* slice or vector index out of bounds *)
| PUnwrap         (* unwrap / expect on None or Err *)
| PAssert.        (* failed assertion in a library (rand) *)

(** Result of running code that may panic. *)
Inductive res (A : Type) :=
| Done (a : A)
| Panic (p : panic).
Arguments Done {A} _.
Arguments Panic {A} _.

Definition bind {A B} (x : res A) (f : A -> res B) : res B :=
  match x with Done a => f a | Panic p => Panic p end.

Declare Scope res_scope.
Notation "x <- e ;; k" := (bind e (fun x => k))
  (at level 61, e at next level, right associativity) : res_scope.
Notation "' p <- e ;; k" := (bind e (fun x => match x with p => k end))
  (at level 61, p pattern, e at next level, right associativity) : res_scope.
Global Open Scope res_scope.

(** Rust's [Result<A, &'static str>] / [Result<A, Box<dyn Error>>]. *)
Inductive result (A : Type) :=
| Ok (a : A)
| Err (msg : string).
Arguments Ok {A} _.
Arguments Err {A} _.

(** ** u32 (values are [N]; every u32 is below [W32]) *)
Definition W32 : N := 4294967296.

Definition u32_add (b : build) (x y : N) : res N :=
  if x + y <? W32 then Done (x + y)
  else match b with Debug => Panic POverflow | Release => Done ((x + y) mod W32) end.

Definition u32_sub (b : build) (x y : N) : res N :=
  if y <=? x then Done (x - y)
  else match b with Debug => Panic POverflow | Release => Done (x + W32 - y) end.

Definition u32_mul (b : build) (x y : N) : res N :=
  if x * y <? W32 then Done (x * y)
  else match b with Debug => Panic POverflow | Release => Done ((x * y) mod W32) end.

Definition u32_div (x y : N) : res N :=
  if y =? 0 then Panic PDivZero else Done (x / y).

Definition u32_rem (x y : N) : res N :=
  if y =? 0 then Panic PDivZero else Done (x mod y).

(** [usize as u32] truncates. *)
Definition as_u32 (x : N) : N := x mod W32.

(** ** i32 (values are [Z]) *)
Definition I32_MIN : Z := (-2147483648)%Z.
Definition I32_MAX : Z := 2147483647%Z.

(** [u32 as i32] reinterprets. *)
Definition u32_as_i32 (x : N) : Z :=
  if x <? 2147483648 then Z.of_N x else (Z.of_N x - 4294967296)%Z.

(** [i32 as u32] reinterprets. *)
Definition i32_as_u32 (x : Z) : N := Z.to_N (x mod 4294967296)%Z.

Definition i32_wrap (x : Z) : Z :=
  ((x + 2147483648) mod 4294967296 - 2147483648)%Z.

Definition i32_fit (b : build) (x : Z) : res Z :=
  if ((I32_MIN <=? x) && (x <=? I32_MAX))%Z then Done x
  else match b with Debug => Panic POverflow | Release => Done (i32_wrap x) end.

Definition i32_add (b : build) (x y : Z) : res Z := i32_fit b (x + y)%Z.
Definition i32_sub (b : build) (x y : Z) : res Z := i32_fit b (x - y)%Z.

(** Rust's [/] on i32 truncates towards zero; MIN / -1 panics in every profile. *)
Definition i32_div (x y : Z) : res Z :=
  if (y =? 0)%Z then Panic PDivZero
  else if ((x =? I32_MIN) && (y =? -1))%Z then Panic POverflow
  else Done (Z.quot x y).

(** ** Vectors *)
Definition len {A} (l : list A) : N := N.of_nat (length l).

(** [v[i]] *)
Definition vget {A} (l : list A) (i : N) : res A :=
  if i <? len l then
    match nth_error l (N.to_nat i) with Some x => Done x | None => Panic PBounds end
  else Panic PBounds.

Fixpoint list_set {A} (l : list A) (n : nat) (x : A) : list A :=
  match l, n with
  | [], _ => []
  | _ :: t, O => x :: t
  | h :: t, S n' => h :: list_set t n' x
  end.

(** [v[i] = x] *)
Definition vset {A} (l : list A) (i : N) (x : A) : res (list A) :=
  if i <? len l then Done (list_set l (N.to_nat i) x) else Panic PBounds.

(** ** Loops *)

(** The values of the Rust range [lo..hi]. *)
Definition Nrange (lo hi : N) : list N :=
  map (fun n => lo + N.of_nat n) (seq 0 (N.to_nat (hi - lo))).

(** [for x in l { s = f(x, s) }], the body may panic. *)
Fixpoint forM {A S} (l : list A) (f : A -> S -> res S) (s : S) : res S :=
  match l with
  | [] => Done s
  | x :: t => s' <- f x s ;; forM t f s'
  end.

(** [for x in lo..hi { .. }] *)
Definition for_ {S} (lo hi : N) (f : N -> S -> res S) (s : S) : res S :=
  forM (Nrange lo hi) f s.

(** A loop whose body may also leave the function with [Err] (the [?] operator). *)
Fixpoint tryM {A S} (l : list A) (f : A -> S -> res (S * result unit)) (s : S)
  : res (S * result unit) :=
  match l with
  | [] => Done (s, Ok tt)
  | x :: t =>
      '(s', r) <- f x s ;;
      match r with
      | Ok _ => tryM t f s'
      | Err e => Done (s', Err e)
      end
  end.

(** ** Zipped iteration *)
Fixpoint zip_with {A B C} (f : A -> B -> C) (la : list A) (lb : list B) : list C :=
  match la, lb with
  | a :: ta, b :: tb => f a b :: zip_with f ta tb
  | _, _ => []
  end.

(** [for (d, s) in dst.iter_mut().zip(src.iter()) { d := f d s }]: elements of [dst] beyond the
    shorter list keep their value. *)
Fixpoint zip_update {A B} (f : A -> B -> A) (dst : list A) (src : list B) : list A :=
  match dst, src with
  | d :: td, s :: ts => f d s :: zip_update f td ts
  | _, _ => dst
  end.
