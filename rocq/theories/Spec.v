(** * Specification vocabulary

    Small definitions used to state the properties. They do not refer to the loops of the model. *)
From Verif Require Import Base Arith Helper Tensor.

(** 0, 1, .., n-1. *)
Definition upto (n : N) : list N := map N.of_nat (seq 0 (N.to_nat n)).

(** All three extents and both partial products fit in u32. *)
Definition allocatable (s : shape) : Prop :=
  di s < W32 /\ dj s < W32 /\ dk s < W32 /\ di s * dj s < W32 /\ di s * dj s * dk s < W32.

Definition in_shape (s : shape) (i j k : N) : Prop := i < di s /\ j < dj s /\ k < dk s.

(** Column-major position of (i, j, k). *)
Definition flat (s : shape) (i j k : N) : N := i + di s * j + di s * dj s * k.

(** The shape's triples in storage order. *)
Definition cells (s : shape) : list (N * N * N) :=
  flat_map (fun k => flat_map (fun j => map (fun i => (i, j, k)) (upto (di s))) (upto (dj s))) (upto (dk s)).

Section Scalars.
Context {F : Type}.

(** What [Tensor::new] establishes: canonical strides and one element per index. *)
Definition wf (t : tensor F) : Prop :=
  allocatable (tshape t)
  /\ strides t = mkStride 1 (di (tshape t)) (di (tshape t) * dj (tshape t))
  /\ len (data t) = di (tshape t) * dj (tshape t) * dk (tshape t).

(** [t], read through [get_item], is the function [f]. *)
Definition reads (bm : build) {AR : Arith F} (t : tensor F) (f : N -> N -> N -> F) : Prop :=
  forall i j k, in_shape (tshape t) i j k -> get_item bm t (mkIndex i j k) = Done (f i j k).

(** Left-to-right sum starting from 0.0. *)
Definition sum {AR : Arith F} (l : list F) : F := fold_left fadd l fzero.

End Scalars.

(** [t] is a well-formed tensor of shape [s] whose element (i, j, k) is [f i j k]. *)
Definition holds {F} {AR : Arith F} (bm : build) (t : tensor F) (s : shape) (f : N -> N -> N -> F) : Prop :=
  wf t /\ tshape t = s /\ reads bm t f.

(** ** Histories of writes *)
Inductive write (F : Type) :=
| WSet (x : index) (v : F)
| WFill (v : F).
Arguments WSet {F} _ _.
Arguments WFill {F} _.

Definition run_write {F} {AR : Arith F} (bm : build) (w : write F) (t : tensor F) : res (tensor F) :=
  match w with
  | WSet x v => set_item bm t x v
  | WFill v => Done (fill_with_value t v)
  end.

Definition index_eqb (x y : index) : bool := (ix x =? ix y) && (jx x =? jx y) && (kx x =? kx y).

(** The value last written at [x]; the history is in chronological order. *)
Definition last_written {F} {AR : Arith F} (h : list (write F)) (x : index) : F :=
  fold_left (fun old w => match w with
                          | WSet y v => if index_eqb x y then v else old
                          | WFill v => v
                          end) h fzero.

(** ** Scatter-add: the positions q of the list with l[q] = p, in order. *)
Definition sources (l : list N) (p : N) : list N :=
  filter (fun q => match nth_error l (N.to_nat q) with Some x => x =? p | None => false end) (upto (len l)).

(** The longest prefix whose entries are all below [n]. *)
Fixpoint prefix_below (n : N) (l : list N) : list N :=
  match l with
  | [] => []
  | x :: t => if x <? n then x :: prefix_below n t else []
  end.

(** ** Windows: [n] windows of extent [e], [stride] apart, tile an axis of extent [m] exactly. *)
Definition tiles (m e stride n : N) : Prop :=
  stride <> 0 /\ e <= m /\ (m - e) mod stride = 0 /\ n = (m - e) / stride + 1.

(** A kernel tiles the image with the result's extents and the channel exists. *)
Definition conv_ok (im kernel : shape) (stride : N) (r : shape) (ch : N) : Prop :=
  dk im = dk kernel /\ tiles (di im) (di kernel) stride (di r) /\ tiles (dj im) (dj kernel) stride (dj r) /\ ch < dk r.

(** Everything below 2^31 and no more kernel extent than gradient extent: where the outgoing gradient of a
    convolution stays inside its operands. *)
Definition outgoing_fits (rs ks s : shape) (stride : N) : Prop :=
  stride < 2147483648 /\ di s < 2147483648 /\ dj s < 2147483648 /\ di ks < 2147483648 /\ dj ks < 2147483648
  /\ di ks <= di rs /\ dj ks <= dj rs.

Definition pool_ok (im mask : shape) (stride : N) (r : shape) : Prop :=
  dk r = dk im /\ tiles (di im) (di mask) stride (di r) /\ tiles (dj im) (dj mask) stride (dj r).

Definition u32_shape (s : shape) : Prop := di s < W32 /\ dj s < W32 /\ dk s < W32.

Definition same_but_swapped (a b : shape) : Prop := di a = dj b /\ dj a = di b /\ dk a = dk b.

(** Subtraction of u32 values as a release build performs it. *)
Definition wrapping_sub (a b : N) : N := (a + W32 - b) mod W32.

Definition kernel_fits (im kernel : shape) : Prop := di kernel <= di im /\ dj kernel <= dj im.

(** The bias tensor has at most one element (the code's test). *)
Definition at_most_one (s : shape) : Prop := di s <= 1 /\ dj s <= 1 /\ dk s <= 1.

(** The products image * kernel under the window at output position (i, j), kernel cells in storage order. *)
Definition window_products {F} {AR : Arith F} (ks : shape) (stride : N) (image kernel : N -> N -> N -> F)
    (i j : N) : list F :=
  map (fun '(ki, kj, kk) => fmul (image (i * stride + ki) (j * stride + kj) kk) (kernel ki kj kk)) (cells ks).

(** Every in-range index can be read and written without a panic. *)
Definition accessible {F} {AR : Arith F} (bm : build) (t : tensor F) : Prop :=
  forall i j k v, in_shape (tshape t) i j k ->
    (exists x, get_item bm t (mkIndex i j k) = Done x) /\ (exists t', set_item bm t (mkIndex i j k) v = Done t').

(** [s1] times [s2] is a matrix product of shape [sr] in every k-slice. *)
Definition mm_shapes (s1 s2 sr : shape) : Prop :=
  dj s1 = di s2 /\ di sr = di s1 /\ dj sr = dj s2 /\ dk s1 = dk s2 /\ dk sr = dk s1.

(** ** Pooling windows: the positions under the mask at output (i, j, k), in the order they are visited, and
    the values there. *)
Definition window_positions (mi mj stride i j k : N) : list (N * N * N) :=
  flat_map (fun jj => map (fun ii => (i * stride + ii, j * stride + jj, k)) (upto mi)) (upto mj).

Definition window_values {F} (mi mj stride : N) (f : N -> N -> N -> F) (i j k : N) : list F :=
  map (fun '(a, b, c) => f a b c) (window_positions mi mj stride i j k).

(** ** Convolution *)

(** The only axis where the tile count of a fitting kernel does not fit in u32. *)
Definition extent_edge (m e stride : N) : Prop := m = W32 - 1 /\ e = 0 /\ stride = 1.

(** [tiles] computed with wrapping u32 arithmetic. *)
Definition wrapped_tiles (m e stride n : N) : Prop :=
  stride <> 0 /\ wrapping_sub m e mod stride = 0 /\ n = (wrapping_sub m e / stride + 1) mod W32.

(** The positions (i, j) of one channel, in storage order. *)
Definition channel_cells (s : shape) : list (N * N) :=
  flat_map (fun j => map (fun i => (i, j)) (upto (di s))) (upto (dj s)).

(** Of [n] windows of extent [e], [stride] apart, those covering coordinate [a]. *)
Definition covering (n e stride a : N) : list N :=
  filter (fun i => (stride * i <=? a) && (a <? stride * i + e)) (upto n).

(** The products kernel * gradient of all windows covering (a, b), channel by channel. *)
Definition covering_products {F} {AR : Arith F} (rs ks : shape) (stride : N)
    (h : N -> N -> N -> N -> F) (g : N -> N -> N -> F) (a b c : N) : list F :=
  flat_map (fun k => flat_map (fun j => map (fun i =>
      fmul (h k (a - stride * i) (b - stride * j) c) (g i j k))
    (covering (di rs) (di ks) stride a)) (covering (dj rs) (dj ks) stride b)) (upto (dk rs)).

(** [l] is a list of tensors of shape [s], the n-th of which holds [h n]. *)
Definition all_hold {F} {AR : Arith F} (bm : build) (l : list (tensor F)) (s : shape) (h : N -> N -> N -> N -> F) : Prop :=
  forall n t, nth_error l (N.to_nat n) = Some t -> holds bm t s (h n).

(** ** Activations *)
Definition relu {F} {AR : Arith F} (x : F) : F := if fgtb x fzero then x else fzero.

(** The scalar type's [max(x, 0.0)] is [relu] on everything that was accumulated from 0.0. True for f32 whatever
    zero [f32::max] picks on ties (a sum started at +0.0 is never -0.0), and for the reals. *)
Definition relu_agrees (F : Type) {AR : Arith F} : Prop :=
  forall l b, fmax (fadd (sum l) b) fzero = relu (fadd (sum l) b).
