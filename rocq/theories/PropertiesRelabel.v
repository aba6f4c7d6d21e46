(** * C104: training commutes with renumbering and rescaling units *)
From Coq Require Import Reals Lra Lia.
From Verif Require Import Base Arith Helper Tensor Network Bincode Serial Spec SpecLayer SpecNet SpecOpposed SpecRewire SpecRelabel RealArith ProofsRelabel Float32 Demo DemoReal DemoGrad DemoJoint DemoRelabel.
Local Open Scope R_scope.

(** A batch: the accumulated gradients of the second network are those of the first, renumbered, divided by the factors of what a weight
    makes and multiplied by the factors of what it reads; the values and gradients between the layers correspond too. *)
Theorem C104_gradients : forall low bm (BT : Bits R) vs samples samples' (n n' : network R), let AR := R_arith low in
  (forall i, view_ok (vs i)) -> training_built bm n -> training_built bm n' -> trainable n -> layers_seen low bm vs (layers n) (layers n') ->
  samples_seen low bm vs (length (layers n)) samples samples' -> sized n samples ->
  exists m m', session bm n samples m /\ session bm n' samples' m' /\ layers_seen low bm vs (layers m) (layers m')
    /\ (samples <> [] -> tensors_seen (values_seen low bm) vs (intermediate_states m) (intermediate_states m')
        /\ tensors_seen (gradients_seen low bm) vs (intermediate_gradients m) (intermediate_gradients m')).
Proof. exact (fun low bm BT vs samples samples' n n' Vs => @session_seen low bm BT vs Vs samples samples' n n'). Qed.
Print Assumptions C104_gradients.

(** Any number of batches with a gradient descent step after each: without rescaling, the trained networks are the same up to the renumbering. *)
Theorem C104_training : forall low bm (BT : Bits R) vs (n n' r r' : network R) batches batches', let AR := R_arith low in
  (forall i, view_ok (vs i)) -> (forall i u, factor (vs i) u = 1) ->
  training_built bm n -> training_built bm n' -> trainable n -> layers_seen low bm vs (layers n) (layers n') ->
  Forall2 (fun a a' => fst a' = fst a /\ samples_seen low bm vs (length (layers n)) (snd a) (snd a')) batches batches' -> Forall (fun a => sized n (snd a)) batches ->
  epochs low bm n batches r -> epochs low bm n' batches' r' ->
  layers_seen low bm vs (layers r) (layers r').
Proof. exact (fun low bm BT vs n n' r r' batches batches' Vs F1 B B' Tn LS SS Sz H H' => @epochs_seen low bm BT vs Vs F1 n batches r H n' batches' r' H' B B' Tn LS SS Sz). Qed.
Print Assumptions C104_training.

(** The hidden units of relu (relu (x + 1) + 2 relu (5 - x) - 1) swapped, and one of them doubled. *)
Example C104_case : let c := fun u => if N.eqb u 0 then 2 else 1 in let n := j_start in let n' := j_net [2 * -1; 1 * 1] [2 * 5; 1 * 1] [2 / 2; 1 / 1] [-1] in
  (forall i, view_ok (swap_views c i)) /\ training_built Debug n /\ training_built Debug n' /\ trainable n /\ layers_seen (-1000) Debug (swap_views c) (layers n) (layers n')
  /\ samples_seen (-1000) Debug (swap_views c) (length (layers n)) [(j_x, j_g)] [(j_x, j_g)] /\ sized n [(j_x, j_g)].
Proof.
  cbv zeta. set (c := fun u => if N.eqb u 0 then 2 else 1). assert (P : forall u, 0 < c u) by (intros u; unfold c; destruct (N.eqb u 0); lra).
  split; [apply swap_ok; exact P|]. split; [apply j_built|]. split; [apply j_built|]. destruct (j_layers [1; -1] [1; 5] [1; 2] [-1]) as (L & SI & SO).
  split; [split; [|split]; unfold j_start; rewrite L; [discriminate|repeat constructor|repeat constructor]|]. split; [exact (swap_layers c P 1 (-1) 1 5 1 2 (-1))|].
  split; [unfold j_start; rewrite L; apply j_samples|]. constructor; [|constructor]. cbn [fst snd]. unfold j_start. rewrite SI, SO. split; demo_shaped.
Qed.

(** The same without rescaling, and what one batch and one step of length 1 make of the first network. *)
Example C104_training_case : let c := fun _ : N => 1 in let n := j_start in let n' := j_net [1 * -1; 1 * 1] [1 * 5; 1 * 1] [2 / 1; 1 / 1] [-1] in
  (forall i, view_ok (swap_views c i)) /\ (forall i u, factor (swap_views c i) u = 1) /\ training_built Debug n /\ training_built Debug n'
  /\ layers_seen (-1000) Debug (swap_views c) (layers n) (layers n')
  /\ epochs (-1000) Debug n [(1, [(j_x, j_g)])] (j_net [-2; -7] [0; 3] [-3; 0] [-2]).
Proof.
  cbv zeta. set (c := fun _ : N => 1). assert (P : forall u, 0 < c u) by (intros u; unfold c; lra).
  split; [apply swap_ok; exact P|]. split; [intros [|[|i]] u; reflexivity|]. split; [apply j_built|]. split; [apply j_built|]. split; [exact (swap_layers c P 1 (-1) 1 5 1 2 (-1))|exact j_epoch].
Qed.
