(** * C59: training on a batch *)
From Coq Require Import Reals Lra.
From Verif Require Import Base Arith Helper Tensor Convolution Network Bincode Serial Spec SpecLayer SpecNet SpecReal SpecChain SpecBatch RealArith.
From Verif Require Import ProofsBatch Demo DemoReal DemoTrain DemoGrad.
Local Open Scope R_scope.

(** One forward and backward pass per sample adds up the gradient of the batch's loss. [loss] is the loss of the networks that
    differ from [n] in the weights and biases of layer [i] only. *)
Theorem C59_batch_gradients : forall m (BT : Bits R) bm batch n i f M k w b wg bg,
  let AR := R_arith m in
  training_built bm n -> Forall backs_exactly (layers n) -> Forall (sample_ok m bm n) batch ->
  nth_error (layers n) i = Some (LFC f) ->
  holds bm (fc_weights f) (mkShape M k 1) w -> holds bm (fc_bias f) (mkShape M 1 1) b ->
  holds bm (fc_weights_gradients f) (mkShape M k 1) wg -> holds bm (fc_bias_gradients f) (mkShape M 1 1) bg ->
  exists n' f' dw db loss, train bm n batch = Done (n', Ok tt) /\ nth_error (layers n') i = Some (LFC f')
    /\ holds bm (fc_weights_gradients f') (mkShape M k 1) (fun a b c => wg a b c + dw a b c)
    /\ holds bm (fc_bias_gradients f') (mkShape M 1 1) (fun a b c => bg a b c + db a b c)
    /\ (forall nt W B w' b', well_built bm nt -> map params_of (layers nt) = list_set (map params_of (layers n)) i (PFC W B) ->
          holds bm W (mkShape M k 1) w' -> holds bm B (mkShape M 1 1) b' -> batch_loss m bm nt batch (loss w' b'))
    /\ gradient (mkShape M k 1) (fun w' => loss w' b) w dw
    /\ gradient (mkShape M 1 1) (fun b' => loss w b') b db.
Proof. exact @train_batch. Qed.
Print Assumptions C59_batch_gradients.

(** The network of C37, two samples. *)
Example C59_case : let batch := [(r_x, rt (mkShape 2 1 1) [1; 2]); (r_x, rt (mkShape 2 1 1) [-1; 5])] in
  training_built Debug r_net /\ Forall backs_exactly (layers r_net) /\ Forall (sample_ok (-1000) Debug r_net) batch
  /\ (exists f, nth_error (layers r_net) 1 = Some (LFC f) /\ shaped (fc_weights_gradients f) (mkShape 2 2 1)).
Proof.
  cbv zeta. split; [exact r_net_built|]. split; [demo_layers|]. split.
  - assert (I : net_input_shape r_net = mkShape 4 1 1) by (run_R; reflexivity). assert (O : net_output_shape r_net = mkShape 2 1 1) by (run_R; reflexivity).
    apply Forall_cons; [|apply Forall_cons; [|apply Forall_nil]]; (split; [rewrite I; demo_shaped|split; [rewrite O; demo_shaped|exact r_net_smooth]]).
  - eexists. split; [run_R; reflexivity|]. demo_shaped.
Qed.
