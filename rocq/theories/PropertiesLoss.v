(** * C103: any differentiable loss *)
From Coq Require Import Reals Lra Lia.
From Verif Require Import Base Arith Helper Tensor Softmax Network Bincode Serial Spec SpecLayer SpecNet SpecReal SpecTrain SpecModes SpecChain SpecBatch SpecGridBack SpecJoint SpecLoss RealArith RealSums RealGrad NetFacts NetBack ProofsJoint ProofsLoss Demo DemoReal DemoGrad DemoJoint DemoLoss.
Local Open Scope string_scope.
Local Open Scope R_scope.

(** Every sample has its own loss, any function of the output that is differentiable there, and hands its gradient to the backward pass. The
    weights and biases of all layers then move along any differentiable curves. The total loss of the moving network has a derivative at
    time 0, the sum over all layers of the pairings of the accumulated gradients with the velocities. *)
Theorem C103_gradient : forall low (BT : Bits R) bm (batch : list sample) n ms,
  let AR := R_arith low in
  training_built bm n -> layers n <> [] -> Forall backs_exactly (layers n) -> Forall (aimed low bm n) batch -> no_gradients bm n ->
  Forall2 (moves low bm) (map params_of (layers n)) ms ->
  exists n' loss r, train bm n (map fst batch) = Done (n', Ok tt)
    /\ (forall t nt, well_built bm nt -> map params_of (layers nt) = map (fun q => fst q t) ms -> total_loss low bm nt batch (loss t))
    /\ slope_sum low bm (layers n') (map snd ms) r /\ derivable_pt_lim loss 0 r.
Proof. exact @loss_gradient. Qed.
Print Assumptions C103_gradient.

(** Unless all accumulated gradients are zero, a short enough step against them lowers the total loss. *)
Theorem C103_step : forall low (BT : Bits R) bm (batch : list sample) n,
  let AR := R_arith low in
  training_built bm n -> layers n <> [] -> Forall backs_exactly (layers n) -> Forall (aimed low bm n) batch -> no_gradients bm n ->
  exists n', train bm n (map fst batch) = Done (n', Ok tt) /\ (some_gradient low bm (layers n') ->
    exists eta0, 0 < eta0 /\ forall eta nt, 0 < eta < eta0 -> well_built bm nt -> stepped low bm eta (layers n') (layers nt) ->
      exists l l', total_loss low bm n batch l /\ total_loss low bm nt batch l' /\ l' < l).
Proof. exact @loss_step. Qed.
Print Assumptions C103_step.

(** The first of the intermediate gradients is the gradient of the sample's loss in the input. *)
Theorem C103_input : forall low (BT : Bits R) bm n (X : tensor R) x G (L : loss_fun),
  let AR := R_arith low in
  training_built bm n -> layers n <> [] -> Forall backs_exactly (layers n) -> holds bm X (net_input_shape n) x -> aimed low bm n (X, G, L) ->
  exists n1 n2 D d net, infer bm n X = Done (n1, Ok tt) /\ net_backward bm n1 G = Done (n2, Ok tt)
    /\ nth_error (intermediate_gradients n2) 0 = Some D /\ holds bm D (net_input_shape n) d
    /\ (forall X' x', holds bm X' (net_input_shape n) x' -> outputs low bm n X' (net x'))
    /\ gradient (net_input_shape n) (fun x' => L (net x')) x d.
Proof. exact @loss_at_input. Qed.
Print Assumptions C103_input.

(** For the squared error the tensor to hand over is output minus target. *)
Theorem C103_squared : forall s target y,
  looks_at s (squared_error s target) /\ gradient s (squared_error s target) y (fun i j k => y i j k - target i j k).
Proof. exact squared_gradient. Qed.
Print Assumptions C103_squared.

(** For the cross entropy it is target over output, negated. *)
Theorem C103_entropy : forall s target y, (forall i j k, in_shape s i j k -> 0 < y i j k) ->
  looks_at s (cross_entropy s target) /\ gradient s (cross_entropy s target) y (fun i j k => - (target i j k / y i j k)).
Proof. exact entropy_gradient. Qed.
Print Assumptions C103_entropy.

(** Given that, a softmax layer hands output minus target to the layer before it. *)
Theorem C103_softmax : forall low bm (l : sm_layer R) n x target (X Y0 G og : tensor R),
  let AR := R_arith low in
  sm_ok l -> sm_run_state l = Training -> sm_shape l = mkShape n 1 1 ->
  holds bm X (mkShape n 1 1) x -> shaped Y0 (mkShape n 1 1) -> shaped og (mkShape n 1 1) ->
  Rsum (map (fun i => target i 0%N 0%N) (upto n)) = 1 ->
  holds bm G (mkShape n 1 1) (fun i j k => - (target i j k / softmax_map (mkShape n 1 1) x i j k)) ->
  exists Y l2 og', sm_forward l X Y0 = Done (l, Y, Ok tt) /\ sm_backward bm l X Y G og = Done (l2, og', Ok tt)
    /\ holds bm og' (mkShape n 1 1) (fun i j k => softmax_map (mkShape n 1 1) x i j k - target i j k).
Proof. exact softmax_entropy. Qed.
Print Assumptions C103_softmax.

(** The network of C88 outputs 7 on 3, the target is 6: the loss is 1/2, the tensor handed over holds 7 - 6. A gradient is not zero. *)
Example C103_case :
  training_built Debug j_start /\ layers j_start <> [] /\ Forall backs_exactly (layers j_start)
  /\ Forall (aimed (-1000) Debug j_start) [l_sample] /\ no_gradients Debug j_start
  /\ total_loss (-1000) Debug j_start [l_sample] (1 / 2 + 0)
  /\ exists n', train Debug j_start (map fst [l_sample]) = Done (n', Ok tt) /\ some_gradient (-1000) Debug (layers n').
Proof.
  split; [apply j_built|]. split; [unfold j_start; rewrite (proj1 (j_layers _ _ _ _)); discriminate|].
  split; [unfold j_start; rewrite (proj1 (j_layers _ _ _ _)); repeat constructor|]. split; [constructor; [exact l_aimed|constructor]|]. split; [apply j_zero|].
  split; [exact l_total|].
  destruct j_trained as (n' & f1 & f2 & E & L & W1 & B1 & W2 & B2 & G1 & H1 & G2 & H2). exists n'. split; [exact E|]. rewrite L.
  exists 1%nat, f2, 1%N, 2%N, (at_ (fc_weights_gradients f2)), (at_ (fc_bias_gradients f2)). split; [reflexivity|]. rewrite G2, H2.
  split; [demo_rhold|]. split; [demo_rhold|]. left. exists 0%N, 0%N, 0%N. split; [repeat split; cbn; lia|]. cbv - [IZR]. lra.
Qed.

(** Softmax of two equal inputs with the first as the target: the tensor handed over holds -2 and 0. *)
Example C103_softmax_case : let AR := R_arith (-1000) in
  sm_ok r_sm /\ sm_run_state r_sm = Training /\ sm_shape r_sm = mkShape 2 1 1
  /\ holds Debug (rt (mkShape 2 1 1) [0; 0]) (mkShape 2 1 1) (fun _ _ _ => 0)
  /\ Rsum (map (fun i => l_target i 0%N 0%N) (upto 2)) = 1
  /\ holds Debug (rt (mkShape 2 1 1) [-2; 0]) (mkShape 2 1 1) (fun i j k => - (l_target i j k / softmax_map (mkShape 2 1 1) (fun _ _ _ => 0) i j k)).
Proof. split; [exact r_sm_ok|]. split; [reflexivity|]. split; [reflexivity|]. exact l_entropy. Qed.
