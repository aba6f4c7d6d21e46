(** * Vocabulary for C91: three backward passes and their gradients *)
From Coq Require Import Reals.
From Verif Require Import Base Arith Helper Tensor Convolution Network Spec SpecLayer RealArith.
Local Open Scope R_scope.

(** [t3] is [a] times [t1] plus [b] times [t2]. *)
Definition combined (low : R) (bm : build) (a b : R) (t1 t2 t3 : tensor R) : Prop :=
  let AR := R_arith low in
  exists s x y, holds bm t1 s x /\ holds bm t2 s y /\ holds bm t3 s (fun i j k => a * x i j k + b * y i j k).

(** What was added to [t0] to get [t3] is [a] times what was added to get [t1] plus [b] times what was added to get [t2]. *)
Definition combined_from (low : R) (bm : build) (a b : R) (t0 t1 t2 t3 : tensor R) : Prop :=
  let AR := R_arith low in
  exists s z x y, holds bm t0 s z /\ holds bm t1 s (fun i j k => z i j k + x i j k) /\ holds bm t2 s (fun i j k => z i j k + y i j k)
    /\ holds bm t3 s (fun i j k => z i j k + (a * x i j k + b * y i j k)).

(** The same of the gradients a layer stores. Fully connected layers add to them, convolutions overwrite the kernels' and leave the biases'. *)
Inductive layer_combined (low : R) (bm : build) (a b : R) : layer R -> layer R -> layer R -> layer R -> Prop :=
| comb_fc f f1 f2 f3 :
    combined_from low bm a b (fc_weights_gradients f) (fc_weights_gradients f1) (fc_weights_gradients f2) (fc_weights_gradients f3) ->
    combined_from low bm a b (fc_bias_gradients f) (fc_bias_gradients f1) (fc_bias_gradients f2) (fc_bias_gradients f3) ->
    layer_combined low bm a b (LFC f) (LFC f1) (LFC f2) (LFC f3)
| comb_conv c c1 c2 c3 :
    (forall i, (i < length (cv_kernels c))%nat -> exists k1 k2 k3, nth_error (cv_kernel_gradients c1) i = Some k1
      /\ nth_error (cv_kernel_gradients c2) i = Some k2 /\ nth_error (cv_kernel_gradients c3) i = Some k3 /\ combined low bm a b k1 k2 k3) ->
    cv_bias_gradients c1 = cv_bias_gradients c -> cv_bias_gradients c2 = cv_bias_gradients c -> cv_bias_gradients c3 = cv_bias_gradients c ->
    layer_combined low bm a b (LConv c) (LConv c1) (LConv c2) (LConv c3)
| comb_pool p : layer_combined low bm a b (LMaxPool p) (LMaxPool p) (LMaxPool p) (LMaxPool p)
| comb_softmax s s1 s2 s3 : layer_combined low bm a b (LSoftmax s) (LSoftmax s1) (LSoftmax s2) (LSoftmax s3).
