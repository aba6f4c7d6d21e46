(** * Vocabulary for C75: receptive fields *)
From Verif Require Import Base Arith Helper Tensor Network Spec SpecLayer.

(** The same kernels, window and stride, on images of possibly different sizes. *)
Inductive alike {F} : params F -> params F -> Prop :=
| AlikeConv kernels biases stride ins outs ins' outs' :
    alike (PConv kernels biases stride ins outs) (PConv kernels biases stride ins' outs')
| AlikeMaxPool ins mask outs ins' mask' outs' stride : di mask = di mask' -> dj mask = dj mask' ->
    alike (PMaxPool ins mask outs stride) (PMaxPool ins' mask' outs' stride).

(** [field ps step a b]: after the layers [ps], the output at (i, j) sees the [a] by [b] inputs from (i * step, j * step) on. *)
Inductive field {F} : list (params F) -> N -> N -> N -> Prop :=
| FieldNone : field [] 1 1 1
| FieldConv kernels biases stride ins outs ps step a b ei ej : field ps step a b ->
    (forall k, In k kernels -> di (tshape k) = ei /\ dj (tshape k) = ej) ->
    field (PConv kernels biases stride ins outs :: ps) (stride * step) ((a - 1) * stride + ei) ((b - 1) * stride + ej)
| FieldMaxPool ins mask outs stride ps step a b : field ps step a b ->
    field (PMaxPool ins mask outs stride :: ps) (stride * step) ((a - 1) * stride + di mask) ((b - 1) * stride + dj mask).
