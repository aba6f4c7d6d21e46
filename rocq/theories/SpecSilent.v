(** * Vocabulary for C98: units that did not fire *)
From Flocq Require Import IEEE754.Binary.
From Verif Require Import Base Arith Helper Tensor Convolution Network Bincode Serial Spec SpecLayer SpecNet Float32 SpecSparse SpecOpposed.

(** Cell [p] of the [i]-th of some tensors. *)
Definition cell_of {AR : Arith f32} (bm : build) (ts : list (tensor f32)) (i : nat) (p : index) (v : f32) : Prop :=
  exists t, nth_error ts i = Some t /\ get_item bm t p = Done v.

(** Equal, or both NaN. *)
Definition equal (x y : f32) : Prop := x = y \/ is_nan 24 128 x = true /\ is_nan 24 128 y = true.

(** [n1] is a network after a forward pass, [n2] the same network after the backward pass that followed: output [u] of layer [i] is zero
    and the gradient that reached it is finite. *)
Definition silent {AR : Arith f32} (bm : build) (n1 n2 : network f32) (i : nat) (u : N) : Prop :=
  cell_of bm (intermediate_states n1) (S i) (mkIndex u 0 0) f32_zero
  /\ exists v, cell_of bm (intermediate_gradients n2) (S i) (mkIndex u 0 0) v /\ finite v.

(** A session (see C97) during which output [u] of layer [i] never fires, on finite inputs of that layer. *)
Inductive silent_session {AR : Arith f32} (bm : build) (i : nat) (u : N) : network f32 -> list (tensor f32 * tensor f32) -> network f32 -> Prop :=
| silent_end n : silent_session bm i u n [] n
| silent_sample n x g rest n1 n2 n3 : infer bm n x = Done (n1, Ok tt) -> net_backward bm n1 g = Done (n2, Ok tt) -> silent bm n1 n2 i u ->
    (forall t, nth_error (intermediate_states n1) i = Some t -> Forall finite (data t)) -> silent_session bm i u n2 rest n3 ->
    silent_session bm i u n ((x, g) :: rest) n3.
