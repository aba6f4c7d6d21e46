(** * C109: equal units stay equal *)
From Coq Require Import Reals.
From Verif Require Import Base Arith Helper Tensor Network Bincode Serial Spec SpecLayer SpecNet SpecModes SpecOpposed SpecRelabel SpecTwins RealArith ProofsTwins Float32 Demo DemoReal DemoGrad DemoJoint DemoTwins.
Local Open Scope R_scope.

(** One batch: the two units get the same gradients. *)
Theorem C109_gradients : forall low bm (BT : Bits R) (n m : network R) samples i f g a b, let AR := R_arith low in
  training_built bm n -> trainable n -> Forall (cleared bm) (layers n) -> sized n samples ->
  nth_error (layers n) i = Some (LFC f) -> nth_error (layers n) (S i) = Some (LFC g) -> twins low bm a b f g -> session bm n samples m ->
  exists f' g', nth_error (layers m) i = Some (LFC f') /\ nth_error (layers m) (S i) = Some (LFC g') /\ twins low bm a b f' g' /\ twin_gradients low bm a b f' g'.
Proof. exact @twins_batch. Qed.
Print Assumptions C109_gradients.

(** Any number of batches with a gradient descent step after each. *)
Theorem C109_training : forall low bm (BT : Bits R) (n r : network R) batches i f g a b, let AR := R_arith low in
  training_built bm n -> trainable n -> Forall (cleared bm) (layers n) -> Forall (fun s => sized n (snd s)) batches ->
  nth_error (layers n) i = Some (LFC f) -> nth_error (layers n) (S i) = Some (LFC g) -> twins low bm a b f g -> epochs low bm n batches r ->
  exists f' g', nth_error (layers r) i = Some (LFC f') /\ nth_error (layers r) (S i) = Some (LFC g') /\ twins low bm a b f' g' /\ twin_gradients low bm a b f' g'.
Proof. exact @twins_epochs. Qed.
Print Assumptions C109_training.

(** [fill_weights_with_value] and [fill_bias_with_value] make all units of a layer equal. *)
Theorem C109_filled : forall low bm m n p (f g : fc_layer R) u c v a b, let AR := R_arith low in
  fc_ok m n f -> fc_ok p m g -> (a < m)%N -> (b < m)%N -> twins low bm a b (fc_fill_bias (fc_fill_weights f u) c) (fc_fill_weights g v).
Proof. exact @twins_filled. Qed.
Print Assumptions C109_filled.

(** relu (2 relu (x + 1) + 2 relu (x + 1) - 1), and what one batch and one step of length 1 make of it. *)
Example C109_case : (training_built Debug w_start /\ trainable w_start /\ Forall (cleared Debug) (layers w_start) /\ sized w_start [(j_x, j_g)]
    /\ exists f g, nth_error (layers w_start) 0 = Some (LFC f) /\ nth_error (layers w_start) 1 = Some (LFC g) /\ twins (-1000) Debug 0 1 f g)
  /\ (exists m, session Debug w_start [(j_x, j_g)] m) /\ epochs (-1000) Debug w_start [(1, [(j_x, j_g)])] (j_net [-5; -5] [-1; -1] [-2; -2] [-2]).
Proof. exact (conj w_holds (conj w_session w_epoch)). Qed.

Example C109_filled_case : match j_fc1 [1; -1] [1; 5], j_fc2 [1; 2] [-1] with LFC f, LFC g => fc_ok 2 1 f /\ fc_ok 1 2 g | _, _ => False end.
Proof. exact w_layers. Qed.
