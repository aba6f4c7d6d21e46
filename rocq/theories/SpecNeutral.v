(** * Vocabulary for C108: layers that do nothing *)
From Flocq Require Import IEEE754.Binary.
From Verif Require Import Base Arith Helper Tensor Network Bincode Serial Float32 Spec SpecLayer SpecNet SpecError.
Local Open Scope N_scope.

(** The identity matrix and no bias; one 1x1 kernel per channel that reads its own channel, and no biases; 1x1 windows. Strides are 1. *)
Definition does_nothing (e : env) (bm : build) (p : params f32) : Prop :=
  let AR := f32_arith e in
  match p with
  | PFC weights bias => exists n, holds bm weights (mkShape n n 1) (fun i j _ => if i =? j then fone else fzero) /\ holds bm bias (mkShape n 1 1) (fun _ _ _ => fzero)
  | PConv kernels biases stride ins outs =>
      stride = 1 /\ outs = ins /\ all_hold bm kernels (mkShape 1 1 (dk ins)) (fun channel _ _ k => if k =? channel then fone else fzero)
      /\ Forall (fun b => get_item bm b (mkIndex 0 0 0) = Done fzero) biases
  | PMaxPool ins mask outs stride => di mask = 1 /\ dj mask = 1 /\ stride = 1
  | PSoftmax _ => False
  end.

(** The values such a layer returns as they are: pooling all but NaN, the others the finite ones with sign bit 0. *)
Definition passes (p : params f32) (v : f32) : Prop :=
  match p with
  | PMaxPool _ _ _ _ => isnan v = false
  | _ => fin v = true /\ Bsign 24 128 v = false
  end.
