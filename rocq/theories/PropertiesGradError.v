(** * C87: f32 gradients are within a stated bound of the true gradient *)
From Coq Require Import Reals Lra.
From Verif Require Import Base Arith Helper Tensor Network Bincode Serial Float32 Spec SpecLayer SpecNet SpecReal SpecError SpecNetError SpecModes SpecBatch SpecGrid SpecGridBack RealArith.
From Verif Require Import SpecGradError ProofsGradTrain Demo DemoNet DemoReal DemoGrad DemoNetError DemoGridTrain DemoGradError.
Local Open Scope R_scope.

(** [n'] is the f32 network [n] with its parameters read as real numbers. The spans [u :: us] bound values, gradients and their errors
    between the layers; on the exact samples no kink of a ReLU or of a pooling window is within the error. Then the f32 weight and bias
    gradients after the batch are finite and within [weight_error] and [bias_error] of those of exact arithmetic. *)
Theorem C87_gradients : forall e low bm (BT : Bits R) u us batch batch' (n : network f32) (n' : network R),
  @training_built f32 (f32_arith e) f32_bits bm n -> @training_built R (R_arith low) BT bm n' -> layers n <> [] ->
  Forall2 exact_params (map params_of (layers n)) (map params_of (layers n')) ->
  net_slopes e low bm (length batch) (map params_of (layers n')) u us -> 0 <= xa u -> 0 <= xd u -> 0 <= ga (last us u) -> 0 <= gd (last us u) ->
  Forall2 (sample_near e low bm (net_input_shape n) (net_output_shape n) u (last us u)) batch batch' ->
  Forall (fun s => firm low bm (map params_of (layers n')) u us (fst s)) batch' ->
  @no_gradients f32 (f32_arith e) bm n -> @no_gradients R (R_arith low) bm n' ->
  exists n2 n2', @train f32 (f32_arith e) bm n batch = Done (n2, Ok tt) /\ @train R (R_arith low) bm n' batch' = Done (n2', Ok tt)
    /\ forall i f', nth_error (layers n2') i = Some (LFC f') -> exists f a b m k wg wg' bgr bgr', nth_error (layers n2) i = Some (LFC f)
         /\ nth_error (u :: us) i = Some a /\ nth_error us i = Some b
         /\ @holds f32 (f32_arith e) bm (fc_weights_gradients f) (mkShape m k 1) wg /\ @holds R (R_arith low) bm (fc_weights_gradients f') (mkShape m k 1) wg'
         /\ within (weight_error (length batch) a b) (mkShape m k 1) wg wg'
         /\ @holds f32 (f32_arith e) bm (fc_bias_gradients f) (mkShape m 1 1) bgr /\ @holds R (R_arith low) bm (fc_bias_gradients f') (mkShape m 1 1) bgr'
         /\ within (bias_error (length batch) b) (mkShape m 1 1) bgr bgr'.
Proof. exact @train_near. Qed.
Print Assumptions C87_gradients.

(** Within the same bounds they are the gradient of the loss summed over the exact batch. *)
Theorem C87_true_gradient : forall e low bm (BT : Bits R) u us batch batch' (n : network f32) (n' : network R) i f M k w b,
  @training_built f32 (f32_arith e) f32_bits bm n -> @training_built R (R_arith low) BT bm n' -> layers n <> [] ->
  Forall2 exact_params (map params_of (layers n)) (map params_of (layers n')) ->
  net_slopes e low bm (length batch) (map params_of (layers n')) u us -> 0 <= xa u -> 0 <= xd u -> 0 <= ga (last us u) -> 0 <= gd (last us u) ->
  Forall2 (sample_near e low bm (net_input_shape n) (net_output_shape n) u (last us u)) batch batch' ->
  Forall (fun s => firm low bm (map params_of (layers n')) u us (fst s)) batch' ->
  @no_gradients f32 (f32_arith e) bm n -> @no_gradients R (R_arith low) bm n' ->
  nth_error (layers n') i = Some (LFC f) -> @holds R (R_arith low) bm (fc_weights f) (mkShape M k 1) w -> @holds R (R_arith low) bm (fc_bias f) (mkShape M 1 1) b ->
  exists n2 f2 a c wg bgr dw db loss, @train f32 (f32_arith e) bm n batch = Done (n2, Ok tt) /\ nth_error (layers n2) i = Some (LFC f2)
    /\ nth_error (u :: us) i = Some a /\ nth_error us i = Some c
    /\ @holds f32 (f32_arith e) bm (fc_weights_gradients f2) (mkShape M k 1) wg /\ within (weight_error (length batch) a c) (mkShape M k 1) wg dw
    /\ @holds f32 (f32_arith e) bm (fc_bias_gradients f2) (mkShape M 1 1) bgr /\ within (bias_error (length batch) c) (mkShape M 1 1) bgr db
    /\ (forall nt W B w' b', @well_built R (R_arith low) BT bm nt -> map params_of (layers nt) = list_set (map params_of (layers n')) i (PFC W B) ->
          @holds R (R_arith low) bm W (mkShape M k 1) w' -> @holds R (R_arith low) bm B (mkShape M 1 1) b' -> batch_loss low bm nt batch' (loss w' b'))
    /\ gradient (mkShape M k 1) (fun w' => loss w' b) w dw
    /\ gradient (mkShape M 1 1) (fun b' => loss w b') b db.
Proof. exact @train_near_gradient. Qed.
Print Assumptions C87_true_gradient.

(** Two samples known up to 1/1000 and the f32 gradients, which are at most 1/30 and 1/400 away from the true ones; spans of a softmax layer. *)
Example C87_case :
  training_built Debug t_f32 /\ training_built Debug t_R /\ layers t_f32 <> []
  /\ Forall2 exact_params (map params_of (layers t_f32)) (map params_of (layers t_R))
  /\ net_slopes demo_env (-1000) Debug (length t_batch) (map params_of (layers t_R)) span0 [span1; span2]
  /\ 0 <= xa span0 /\ 0 <= xd span0 /\ 0 <= ga span2 /\ 0 <= gd span2
  /\ Forall2 (sample_near demo_env (-1000) Debug (net_input_shape t_f32) (net_output_shape t_f32) span0 span2) t_batch g_batch
  /\ Forall (fun s => firm (-1000) Debug (map params_of (layers t_R)) span0 [span1; span2] (fst s)) g_batch
  /\ no_gradients Debug t_f32 /\ no_gradients Debug t_R
  /\ match train Debug t_f32 t_batch with
     | Done (n2, Ok tt) => match nth_error (layers n2) 1 with
                           | Some (LFC f) => tbits (fc_weights_gradients f) = ints [17; -18; 19; -27]%Z /\ tbits (fc_bias_gradients f) = ints [3; -3]%Z
                           | _ => False
                           end
     | _ => False
     end
  /\ weight_error (length t_batch) span1 span2 <= / 30 /\ bias_error (length t_batch) span2 <= / 400
  /\ layer_slopes flat_exp (-1000) Debug 1 (PSoftmax (mkShape 3 1 1)) soft_a soft_b.
Proof.
  destruct (t_layers (map f32_of_Z [1; -2; 3; 4]%Z) (map f32_of_Z [1; -1]%Z)) as (L & SI & SO).
  split; [apply t_built|]. split; [apply t_built|]. split; [unfold t_f32; rewrite L; discriminate|]. split; [exact t_exact|]. split; [exact g_slopes|].
  split; [cbn; lra|]. split; [cbn; lra|]. split; [cbn; lra|]. split; [cbn; lra|]. split; [unfold t_f32; rewrite SI, SO; exact g_samples|]. split; [exact g_firm|].
  split; [apply t_zero|]. split; [apply t_zero|]. split; [vm_compute; split; reflexivity|]. split; [exact (proj1 g_errors)|]. split; [exact (proj2 g_errors)|exact soft_slopes].
Qed.
