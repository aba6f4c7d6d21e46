(** * Turning images over *)
From Verif Require Import Base Arith Helper Tensor Network Spec SpecLayer.

(** The reflections that generate all symmetries of a rectangle. *)
Inductive turning := Transpose | FlipRows | FlipColumns.

Definition turn (v : turning) (s : shape) : shape :=
  match v with Transpose => mkShape (dj s) (di s) (dk s) | _ => s end.

(** Where the element (i, j) of an image of shape [s] goes. *)
Definition goes (v : turning) (s : shape) (i j : N) : N * N :=
  match v with Transpose => (j, i) | FlipRows => (di s - 1 - i, j) | FlipColumns => (i, dj s - 1 - j) end.

(** [x'] is [x] turned over. *)
Definition turned {F} (v : turning) (s : shape) (x x' : N -> N -> N -> F) : Prop :=
  forall i j k, in_shape s i j k -> let '(i', j') := goes v s i j in x' i' j' k = x i j k.

Definition turned_tensor {F} {AR : Arith F} (bm : build) (v : turning) (t t' : tensor F) : Prop :=
  exists f f', holds bm t (tshape t) f /\ holds bm t' (turn v (tshape t)) f' /\ turned v (tshape t) f f'.

(** Layers that do to turned images what the originals do to images: shapes, kernels and masks are turned. *)
Definition turned_layer {F} {AR : Arith F} (bm : build) (v : turning) (p p' : params F) : Prop :=
  match p, p' with
  | PConv kernels biases stride ins outs, PConv kernels' biases' stride' ins' outs' =>
      ins' = turn v ins /\ outs' = turn v outs /\ stride' = stride /\ biases' = biases /\ Forall2 (turned_tensor bm v) kernels kernels'
  | PMaxPool ins mask outs stride, PMaxPool ins' mask' outs' stride' =>
      ins' = turn v ins /\ outs' = turn v outs /\ mask' = turn v mask /\ stride' = stride
  | PSoftmax s, PSoftmax s' => s' = turn v s
  | _, _ => False
  end.
