(** * C86: fixed-point networks are trained exactly *)
From Coq Require Import Reals Lra.
From Verif Require Import Base Arith Helper Tensor Network Bincode Serial Float32 Spec SpecLayer SpecNet SpecReal SpecError SpecNetError SpecModes SpecBatch SpecGrid SpecGridBack RealArith.
From Verif Require Import ProofsGridTrain Demo DemoNet DemoReal DemoGrad DemoGridTrain.
Local Open Scope R_scope.

(** [n'] is the f32 network [n] with its parameters read as real numbers. If the forward pass, the backward pass and the sums over the batch
    fit in 24 bits ([net_training]) then training does not round: the f32 gradients are the exact ones. *)
Theorem C86_exact : forall e low bm (BT : Bits R) u us batch batch' (n : network f32) (n' : network R),
  @training_built f32 (f32_arith e) f32_bits bm n -> @training_built R (R_arith low) BT bm n' -> layers n <> [] ->
  Forall2 exact_params (map params_of (layers n)) (map params_of (layers n')) ->
  net_training low bm (INR (length batch)) (map params_of (layers n')) u us -> 0 <= fa u -> 0 <= ba (last us u) ->
  Forall2 (sample_grid e low bm (net_input_shape n) (net_output_shape n) u (last us u)) batch batch' ->
  @no_gradients f32 (f32_arith e) bm n -> @no_gradients R (R_arith low) bm n' ->
  exists n2 n2', @train f32 (f32_arith e) bm n batch = Done (n2, Ok tt) /\ @train R (R_arith low) bm n' batch' = Done (n2', Ok tt)
    /\ forall i f', nth_error (layers n2') i = Some (LFC f') -> exists f m k wg wg' bgr bgr', nth_error (layers n2) i = Some (LFC f)
         /\ @holds f32 (f32_arith e) bm (fc_weights_gradients f) (mkShape m k 1) wg /\ @holds R (R_arith low) bm (fc_weights_gradients f') (mkShape m k 1) wg'
         /\ equal_reals (mkShape m k 1) wg wg'
         /\ @holds f32 (f32_arith e) bm (fc_bias_gradients f) (mkShape m 1 1) bgr /\ @holds R (R_arith low) bm (fc_bias_gradients f') (mkShape m 1 1) bgr'
         /\ equal_reals (mkShape m 1 1) bgr bgr'.
Proof. exact @train_exact. Qed.
Print Assumptions C86_exact.

(** The weight and bias gradients that the f32 network accumulates are the gradient of the loss summed over the batch. *)
Theorem C86_true_gradient : forall e low bm (BT : Bits R) u us batch batch' (n : network f32) (n' : network R) i f M k w b,
  @training_built f32 (f32_arith e) f32_bits bm n -> @training_built R (R_arith low) BT bm n' -> layers n <> [] ->
  Forall2 exact_params (map params_of (layers n)) (map params_of (layers n')) ->
  net_training low bm (INR (length batch)) (map params_of (layers n')) u us -> 0 <= fa u -> 0 <= ba (last us u) ->
  Forall2 (sample_grid e low bm (net_input_shape n) (net_output_shape n) u (last us u)) batch batch' ->
  @no_gradients f32 (f32_arith e) bm n -> @no_gradients R (R_arith low) bm n' ->
  Forall (sample_ok low bm n') batch' ->
  nth_error (layers n') i = Some (LFC f) -> @holds R (R_arith low) bm (fc_weights f) (mkShape M k 1) w -> @holds R (R_arith low) bm (fc_bias f) (mkShape M 1 1) b ->
  exists n2 f2 wg bgr dw db loss, @train f32 (f32_arith e) bm n batch = Done (n2, Ok tt) /\ nth_error (layers n2) i = Some (LFC f2)
    /\ @holds f32 (f32_arith e) bm (fc_weights_gradients f2) (mkShape M k 1) wg /\ equal_reals (mkShape M k 1) wg dw
    /\ @holds f32 (f32_arith e) bm (fc_bias_gradients f2) (mkShape M 1 1) bgr /\ equal_reals (mkShape M 1 1) bgr db
    /\ (forall nt W B w' b', @well_built R (R_arith low) BT bm nt -> map params_of (layers nt) = list_set (map params_of (layers n')) i (PFC W B) ->
          @holds R (R_arith low) bm W (mkShape M k 1) w' -> @holds R (R_arith low) bm B (mkShape M 1 1) b' -> batch_loss low bm nt batch' (loss w' b'))
    /\ gradient (mkShape M k 1) (fun w' => loss w' b) w dw
    /\ gradient (mkShape M 1 1) (fun b' => loss w b') b db.
Proof. exact @train_true_gradient. Qed.
Print Assumptions C86_true_gradient.

(** A pooling layer, a fully connected layer and two samples. The second sample is cut off by the ReLU of the second unit. *)
Example C86_case :
  training_built Debug t_f32 /\ training_built Debug t_R /\ layers t_f32 <> []
  /\ Forall2 exact_params (map params_of (layers t_f32)) (map params_of (layers t_R))
  /\ net_training (-1000) Debug (INR (length t_batch)) (map params_of (layers t_R)) level0 [level1; level2]
  /\ 0 <= fa level0 /\ 0 <= ba level2
  /\ Forall2 (sample_grid demo_env (-1000) Debug (net_input_shape t_f32) (net_output_shape t_f32) level0 level2) t_batch t_batch_R
  /\ no_gradients Debug t_f32 /\ no_gradients Debug t_R /\ Forall (sample_ok (-1000) Debug t_R) t_batch_R
  /\ match train Debug t_f32 t_batch with
     | Done (n2, Ok tt) => match nth_error (layers n2) 1 with
                           | Some (LFC f) => tbits (fc_weights_gradients f) = ints [17; -18; 19; -27]%Z /\ tbits (fc_bias_gradients f) = ints [3; -3]%Z
                           | _ => False
                           end
     | _ => False
     end.
Proof.
  assert (Z : INR (length t_batch) = 2) by reflexivity. rewrite Z. destruct (t_layers (map f32_of_Z [1; -2; 3; 4]%Z) (map f32_of_Z [1; -1]%Z)) as (L & SI & SO).
  split; [apply t_built|]. split; [apply t_built|]. split; [unfold t_f32; rewrite L; discriminate|]. split; [exact t_exact|]. split; [exact t_training|].
  split; [cbn; lra|]. split; [cbn; lra|]. split; [unfold t_f32; rewrite SI, SO; exact t_samples|]. split; [apply t_zero|]. split; [apply t_zero|]. split; [exact t_smooth|].
  vm_compute. split; reflexivity.
Qed.
