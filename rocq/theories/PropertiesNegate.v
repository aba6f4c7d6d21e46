(** * C97: negated losses give negated gradients *)
From Coq Require Import Reals Lra.
From Verif Require Import Base Arith Helper Tensor Convolution Network Bincode Serial Spec SpecLayer SpecNet SpecModes Float32 SpecError RealArith SpecOpposed ProofsNegate.
From Verif Require Import Loops TensorFacts ProofsTensor LayerFacts NetBack Demo DemoNet DemoReal DemoGrad DemoGridTrain.

(** Two networks in training mode with the same parameters and opposite stored gradients are trained on the same inputs, in f32, one with
    the opposite loss gradients of the other. All passes succeed. Afterwards the stored gradients are again opposite, value by value and without
    rounding error, up to the sign of zeros; the values at the boundaries between layers are the same and the gradients there are opposite. *)
Theorem C97_opposite : forall e bm (n n' : network f32) samples samples',
  let AR := f32_arith e in
  training_built bm n -> training_built bm n' -> Forall2 (layer_related opposite bm) (layers n) (layers n') ->
  layers n <> [] -> Forall stays_inside (layers n) -> Forall backs (layers n) ->
  Forall (fun a => shaped (fst a) (net_input_shape n) /\ shaped (snd a) (net_output_shape n)) samples ->
  Forall2 (fun a b => fst b = fst a /\ related opposite bm (snd a) (snd b)) samples samples' ->
  exists m m', session bm n samples m /\ session bm n' samples' m' /\ Forall2 (layer_related opposite bm) (layers m) (layers m')
    /\ (samples <> [] -> intermediate_states m' = intermediate_states m /\ Forall2 (related opposite bm) (intermediate_gradients m) (intermediate_gradients m')).
Proof. exact @session_negated. Qed.
Print Assumptions C97_opposite.

(** In particular from one network with zero gradients. *)
Theorem C97_from_zero : forall e bm (n : network f32) samples samples',
  let AR := f32_arith e in
  training_built bm n -> Forall (cleared bm) (layers n) ->
  layers n <> [] -> Forall stays_inside (layers n) -> Forall backs (layers n) ->
  Forall (fun a => shaped (fst a) (net_input_shape n) /\ shaped (snd a) (net_output_shape n)) samples ->
  Forall2 (fun a b => fst b = fst a /\ related opposite bm (snd a) (snd b)) samples samples' ->
  exists m m', session bm n samples m /\ session bm n samples' m' /\ Forall2 (layer_related opposite bm) (layers m) (layers m').
Proof. exact @session_negated_zero. Qed.
Print Assumptions C97_from_zero.

(** In exact arithmetic any common factor of the loss gradients becomes a factor of all gradients. *)
Theorem C97_scaled : forall low (BT : Bits R) bm c (n : network R) samples samples',
  let AR := R_arith low in let scaled x y := y = (c * x)%R in
  training_built bm n -> Forall (cleared bm) (layers n) ->
  layers n <> [] -> Forall stays_inside (layers n) -> Forall backs (layers n) ->
  Forall (fun a => shaped (fst a) (net_input_shape n) /\ shaped (snd a) (net_output_shape n)) samples ->
  Forall2 (fun a b => fst b = fst a /\ related scaled bm (snd a) (snd b)) samples samples' ->
  exists m m', session bm n samples m /\ session bm n samples' m' /\ Forall2 (layer_related scaled bm) (layers m) (layers m')
    /\ (samples <> [] -> intermediate_states m' = intermediate_states m /\ Forall2 (related scaled bm) (intermediate_gradients m) (intermediate_gradients m')).
Proof. exact @session_scaled. Qed.
Print Assumptions C97_scaled.

(** The network of C81 with its two samples, and the opposite of their loss gradients. *)
Definition n_batch : list (tensor f32 * tensor f32) :=
  [(tn (mkShape 4 2 1) [1; 2; 3; 9; -5; 6; 7; -8]%Z, tn (mkShape 2 1 1) [-2; 3]%Z); (tn (mkShape 4 2 1) [0; 5; 1; -2; 3; -2; -5; 0]%Z, tn (mkShape 2 1 1) [-1; -4]%Z)].

Example C97_case : training_built Debug t_f32 /\ Forall (cleared Debug) (layers t_f32) /\ layers t_f32 <> [] /\ Forall stays_inside (layers t_f32)
  /\ Forall backs (layers t_f32)
  /\ Forall (fun a => shaped (fst a) (net_input_shape t_f32) /\ shaped (snd a) (net_output_shape t_f32)) t_batch
  /\ Forall2 (fun a b => fst b = fst a /\ related opposite Debug (snd a) (snd b)) t_batch n_batch
  /\ let grads b := match run_all Debug t_f32 (flat_map (fun a => [OInfer (fst a); OBackward (snd a)]) b) with
       | Some n => map (fun l => match l with LFC f => Some (tbits (fc_weights_gradients f), tbits (fc_bias_gradients f)) | _ => None end) (layers n)
       | None => [] end in
     grads t_batch = [None; Some (ints [17; -18; 19; -27], ints [3; -3])]%Z /\ grads n_batch = [None; Some (ints [-17; 18; -19; 27], ints [-3; 3])]%Z.
Proof.
  assert (B : training_built Debug t_f32) by apply t_built.
  split; [exact B|]. pose proof (t_layers (map f32_of_Z [1; -2; 3; 4]%Z) (map f32_of_Z [1; -1]%Z)) as (L & Li & Lo). fold t_f32 in L, Li, Lo.
  rewrite L, Li, Lo. split.
  { constructor; [reflexivity|]. constructor; [|constructor]. cbn [cleared]. split; [|split; [|split]]; apply holds_iff; (split; [repeat split; reflexivity|lazy; reflexivity]). }
  split; [discriminate|]. split; [repeat constructor|]. split; [repeat constructor|]. split.
  { repeat constructor; demo_wf. }
  split.
  { assert (Q : forall a b a' b', opposite (f32_of_Z a) (f32_of_Z a') -> opposite (f32_of_Z b) (f32_of_Z b') ->
      related opposite Debug (tn (mkShape 2 1 1) [a; b]) (tn (mkShape 2 1 1) [a'; b'])).
    { intros a b a' b' Ha Hb. exists (mkShape 2 1 1), (at_ (tn (mkShape 2 1 1) [a; b])), (at_ (tn (mkShape 2 1 1) [a'; b'])).
      split; [apply demo_holds; reflexivity|]. split; [apply demo_holds; reflexivity|]. intros i j k (Hi & Hj & Hk). cbn [di dj dk] in *.
      assert (j = 0%N) by lia. assert (k = 0%N) by lia. subst. assert (D : i = 0%N \/ i = 1%N) by lia. destruct D as [-> | ->]; assumption. }
    constructor; [|constructor; [|constructor]]; (split; [reflexivity|]); apply Q; right; right; (split; [reflexivity|split; [reflexivity|]]);
      cbn; unfold Defs.F2R; cbn; lra. }
  vm_compute. split; reflexivity.
Qed.
