(** * Vocabulary for C97: two training runs whose gradients are related value by value *)
From Coq Require Import Reals.
From Flocq Require Import IEEE754.Binary.
From Verif Require Import Base Arith Helper Tensor Convolution Network Bincode Serial Spec SpecLayer SpecNet Float32 SpecError.

Section Scalars.
Context {F : Type} {AR : Arith F} {BT : Bits F}.
Notation T := (tensor F).

(** Tensors of one shape whose values are related one by one. *)
Definition related (rel : F -> F -> Prop) (bm : build) (t t' : T) : Prop :=
  exists s f f', holds bm t s f /\ holds bm t' s f' /\ forall i j k, in_shape s i j k -> rel (f i j k) (f' i j k).

(** Layers with the same parameters, name and mode whose stored gradients are related. *)
Definition layer_related (rel : F -> F -> Prop) (bm : build) (l l' : layer F) : Prop :=
  params_of l' = params_of l /\ get_name l' = get_name l /\ get_run_mode l' = get_run_mode l
  /\ match l, l' with
     | LFC f, LFC f' => related rel bm (fc_weights_gradients f) (fc_weights_gradients f') /\ related rel bm (fc_bias_gradients f) (fc_bias_gradients f')
     | LConv c, LConv c' => Forall2 (related rel bm) (cv_kernel_gradients c) (cv_kernel_gradients c')
         /\ Forall2 (related rel bm) (cv_bias_gradients c) (cv_bias_gradients c')
     | _, _ => True
     end.

(** One sample after the other: a forward pass at the input and a backward pass from the gradient of the loss. All must succeed. *)
Inductive session (bm : build) : network F -> list (T * T) -> network F -> Prop :=
| session_end n : session bm n [] n
| session_sample n x g rest n1 n2 n3 : infer bm n x = Done (n1, Ok tt) -> net_backward bm n1 g = Done (n2, Ok tt) -> session bm n2 rest n3 ->
    session bm n ((x, g) :: rest) n3.

End Scalars.

(** [y] is the negative of [x]. The sign of a zero does not matter; NaN counts as the negative of NaN. *)
Definition opposite (x y : f32) : Prop :=
  (isnan x = true /\ isnan y = true) \/ (exists s, x = B754_infinity 24 128 s /\ y = B754_infinity 24 128 (negb s))
  \/ (fin x = true /\ fin y = true /\ real y = (- real x)%R).
