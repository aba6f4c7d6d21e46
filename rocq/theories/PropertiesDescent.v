(** * C84: the accumulated gradients are a descent direction *)
From Coq Require Import Reals Lra Lia.
From Verif Require Import Base Arith Helper Tensor FullyConnected Network Bincode Serial Spec SpecLayer SpecNet SpecReal SpecTrain SpecChain SpecBatch LayerFacts RealArith RealGrad ProofsGrad ProofsDescent Demo DemoReal DemoGrad.
Local Open Scope string_scope.
Local Open Scope R_scope.

(** Gradients start at zero, a batch is trained. The batch has exactly one loss. Subtracting a small multiple of the accumulated weight
    gradients from the weights, or of the bias gradients from the biases, lowers it, unless they are zero everywhere. *)
Theorem C84_descent : forall m (BT : Bits R) bm batch n i f M k w b,
  let AR := R_arith m in
  training_built bm n -> Forall backs_exactly (layers n) -> Forall (sample_ok m bm n) batch ->
  nth_error (layers n) i = Some (LFC f) ->
  holds bm (fc_weights f) (mkShape M k 1) w -> holds bm (fc_bias f) (mkShape M 1 1) b ->
  holds bm (fc_weights_gradients f) (mkShape M k 1) (fun _ _ _ => 0) -> holds bm (fc_bias_gradients f) (mkShape M 1 1) (fun _ _ _ => 0) ->
  exists n' f' dw db loss, train bm n batch = Done (n', Ok tt) /\ nth_error (layers n') i = Some (LFC f')
    /\ holds bm (fc_weights_gradients f') (mkShape M k 1) dw /\ holds bm (fc_bias_gradients f') (mkShape M 1 1) db
    /\ (forall l, batch_loss m bm n batch l <-> l = loss)
    /\ ((exists a c e, in_shape (mkShape M k 1) a c e /\ dw a c e <> 0) ->
        exists eta0, 0 < eta0 /\ forall eta nt W, 0 < eta < eta0 ->
          well_built bm nt -> map params_of (layers nt) = list_set (map params_of (layers n)) i (PFC W (fc_bias f)) ->
          holds bm W (mkShape M k 1) (fun a c e => w a c e - eta * dw a c e) ->
          exists l, batch_loss m bm nt batch l /\ l < loss)
    /\ ((exists a c e, in_shape (mkShape M 1 1) a c e /\ db a c e <> 0) ->
        exists eta0, 0 < eta0 /\ forall eta nt B, 0 < eta < eta0 ->
          well_built bm nt -> map params_of (layers nt) = list_set (map params_of (layers n)) i (PFC (fc_weights f) B) ->
          holds bm B (mkShape M 1 1) (fun a c e => b a c e - eta * db a c e) ->
          exists l, batch_loss m bm nt batch l /\ l < loss).
Proof. exact @train_descends. Qed.
Print Assumptions C84_descent.

(** One fully connected layer, relu (x + y + 1) and relu (x - y), at (2, 1) with the gradient (1, 2) of the loss: the hypotheses hold
    and the accumulated gradients are not zero. *)
Definition s_x : tensor R := rt (mkShape 2 1 1) [2; 1].
Definition s_g : tensor R := rt (mkShape 2 1 1) [1; 2].
Definition s_net : network R := run_ops (network_new Training) [OAdd (LFC r_fc)].

Example C84_case :
  training_built Debug s_net /\ Forall backs_exactly (layers s_net) /\ Forall (sample_ok (-1000) Debug s_net) [(s_x, s_g)]
  /\ nth_error (layers s_net) 0 = Some (LFC r_fc)
  /\ holds Debug (fc_weights_gradients r_fc) (mkShape 2 2 1) (fun _ _ _ => 0) /\ holds Debug (fc_bias_gradients r_fc) (mkShape 2 1 1) (fun _ _ _ => 0)
  /\ exists n' f, train Debug s_net [(s_x, s_g)] = Done (n', Ok tt) /\ nth_error (layers n') 0 = Some (LFC f)
     /\ at_ (fc_weights_gradients f) 0 1 0 = 1 /\ at_ (fc_bias_gradients f) 1 0 0 = 2.
Proof.
  assert (HW : holds Debug (fc_weights r_fc) (mkShape 2 2 1) (at_ (fc_weights r_fc))) by demo_rhold.
  assert (HB : holds Debug (fc_bias r_fc) (mkShape 2 1 1) (at_ (fc_bias r_fc))) by demo_rhold.
  assert (HX : holds Debug s_x (mkShape 2 1 1) (at_ s_x)) by demo_rhold.
  assert (Built : training_built Debug s_net).
  { apply run_ops_training; [apply train_new|]. constructor; [split; [exists 2%N, 2%N; exact r_fc_ok|discriminate]|constructor]. }
  split; [exact Built|]. split; [demo_layers|]. split; [|split; [run_R; reflexivity|split; [|split]]].
  - apply Forall_cons; [|apply Forall_nil].
    assert (I : net_input_shape s_net = mkShape 2 1 1) by (run_R; reflexivity). assert (O : net_output_shape s_net = mkShape 2 1 1) by (run_R; reflexivity).
    split; [rewrite I; demo_shaped|]. split; [rewrite O; demo_shaped|].
    assert (P : map params_of (layers s_net) = [PFC (fc_weights r_fc) (fc_bias r_fc)]) by (run_R; reflexivity).
    rewrite P. cbn [smooth layer_smooth fst]. split; [|intros; exact Logic.I].
    intros M n w b x Hw Hb Hx i Hi. pose proof (holds_shape _ _ _ _ _ _ Hw HW) as S. injection S as -> ->.
    assert (E : fc_pre 2 w b x i = fc_pre 2 (at_ (fc_weights r_fc)) (at_ (fc_bias r_fc)) (at_ s_x) i); [apply fc_pre_ext|rewrite E; clear E].
    + intros p Hp. apply (holds_fun Debug _ _ _ _ Hw HW). repeat split; cbn; lia.
    + apply (holds_fun Debug _ _ _ _ Hb HB). repeat split; cbn; lia.
    + intros p Hp. apply (holds_fun Debug _ _ _ _ Hx HX). repeat split; cbn; lia.
    + assert (D : i = 0%N \/ i = 1%N) by lia. destruct D as [-> | ->]; cbv - [Rplus Rmult IZR Ropp not]; lra.
  - eapply holds_ext; [|demo_rhold]. intros a b c (Ha & Hb & Hc). cbn [di dj dk] in *.
    assert (D : (a = 0%N \/ a = 1%N) /\ (b = 0%N \/ b = 1%N) /\ c = 0%N) by lia. destruct D as ([-> | ->] & [-> | ->] & ->); reflexivity.
  - eapply holds_ext; [|demo_rhold]. intros a b c (Ha & Hb & Hc). cbn [di dj dk] in *.
    assert (D : (a = 0%N \/ a = 1%N) /\ b = 0%N /\ c = 0%N) by lia. destruct D as ([-> | ->] & -> & ->); reflexivity.
  - assert (Relu : forall a b m1 m2 : R, 0 < a -> 0 < b -> relu_mask_loop [a; b] [m1; m2] = ([a; b], [1; 1])).
    { intros a b ? ? A B. cbn -[IZR]. destruct (Rlt_dec 0 b) as [_|N]; [|elim (N B)]. destruct (Rlt_dec 0 a) as [_|N]; [reflexivity|elim (N A)]. }
    eexists _, _. split.
    + cbn [train]. let t := eval cbv - [relu_mask_loop Rplus Rmult IZR] in (infer Debug s_net s_x) in change (infer Debug s_net s_x) with t.
      rewrite Relu by lra. run_R. reflexivity.
    + split; [reflexivity|]. split; cbv - [Rplus Rmult IZR]; ring.
Qed.
