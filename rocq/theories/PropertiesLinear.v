(** * C91: backward is linear in the gradient of the loss *)
From Coq Require Import Reals Lra Lia.
From Verif Require Import Base Arith Helper Tensor FullyConnected Network Bincode Serial Spec SpecLayer SpecNet SpecReal SpecTrain SpecLinear RealArith RealSums RealGrad NetFacts NetBack ProofsLinear Demo DemoReal DemoGrad DemoJoint.
Local Open Scope string_scope.
Local Open Scope R_scope.

(** In any state of training, three backward passes are started from the same network with the loss gradients [g1], [g2] and
    [a * g1 + b * g2]. All succeed. The gradients at every boundary between layers, what is added to the stored gradients of fully connected
    layers, and the kernel gradients of convolutions combine in the same way. Convolutions may have any stride. *)
Theorem C91_linear : forall low (BT : Bits R) bm (n : network R) a b G1 G2 G3 g1 g2,
  let AR := R_arith low in
  training_built bm n -> layers n <> [] -> Forall stays_inside (layers n) -> Forall backs (layers n) ->
  holds bm G1 (net_output_shape n) g1 -> holds bm G2 (net_output_shape n) g2 ->
  holds bm G3 (net_output_shape n) (fun i j k => a * g1 i j k + b * g2 i j k) ->
  exists n1 n2 n3, net_backward bm n G1 = Done (n1, Ok tt) /\ net_backward bm n G2 = Done (n2, Ok tt) /\ net_backward bm n G3 = Done (n3, Ok tt)
    /\ (forall i l, nth_error (layers n) i = Some l -> exists l1 l2 l3, nth_error (layers n1) i = Some l1 /\ nth_error (layers n2) i = Some l2
         /\ nth_error (layers n3) i = Some l3 /\ layer_combined low bm a b l l1 l2 l3)
    /\ (forall i, (i <= length (layers n))%nat -> exists t1 t2 t3, nth_error (intermediate_gradients n1) i = Some t1
         /\ nth_error (intermediate_gradients n2) i = Some t2 /\ nth_error (intermediate_gradients n3) i = Some t3 /\ combined low bm a b t1 t2 t3).
Proof. exact @backward_linear. Qed.
Print Assumptions C91_linear.

(** A loss gradient of zero leaves the stored gradients of fully connected layers as they are and gives zero at every boundary. *)
Theorem C91_zero : forall low (BT : Bits R) bm (n : network R) G,
  let AR := R_arith low in
  training_built bm n -> layers n <> [] -> Forall stays_inside (layers n) -> Forall backs (layers n) ->
  holds bm G (net_output_shape n) (fun _ _ _ => 0) ->
  exists n', net_backward bm n G = Done (n', Ok tt)
    /\ (forall i f, nth_error (layers n) i = Some (LFC f) -> exists f', nth_error (layers n') i = Some (LFC f')
         /\ fc_weights_gradients f' = fc_weights_gradients f /\ fc_bias_gradients f' = fc_bias_gradients f)
    /\ (forall i, (i <= length (layers n))%nat -> exists t s, nth_error (intermediate_gradients n') i = Some t /\ holds bm t s (fun _ _ _ => 0)).
Proof. exact @backward_zero. Qed.
Print Assumptions C91_zero.

(** The two fully connected layers of C88 after a forward pass at 3, with the loss gradients 1, 2 and 3 * 1 - 2 * 2. *)
Example C91_case : exists n,
  infer Debug j_start j_x = Done (n, Ok tt) /\ training_built Debug n /\ layers n <> [] /\ Forall stays_inside (layers n) /\ Forall backs (layers n)
  /\ net_output_shape n = mkShape 1 1 1
  /\ forall g, exists n' f1 f2, net_backward Debug n (rt (mkShape 1 1 1) [g]) = Done (n', Ok tt) /\ layers n' = [LFC f1; LFC f2]
     /\ fc_weights_gradients f1 = rt (mkShape 2 1 1) [g * 3; g * 6] /\ fc_bias_gradients f2 = rt (mkShape 1 1 1) [g]
     /\ nth_error (intermediate_gradients n') 0 = Some (rt (mkShape 1 1 1) [g * -1]).
Proof.
  assert (Relu2 : forall a b m1 m2 : R, 0 < a -> 0 < b -> relu_mask_loop [a; b] [m1; m2] = ([a; b], [1; 1])).
  { intros a b ? ? A B. cbn -[IZR]. destruct (Rlt_dec 0 b) as [_|N]; [|elim (N B)]. destruct (Rlt_dec 0 a) as [_|N]; [reflexivity|elim (N A)]. }
  assert (Relu1 : forall a m1 : R, 0 < a -> relu_mask_loop [a] [m1] = ([a], [1])).
  { intros a ? A. cbn -[IZR]. destruct (Rlt_dec 0 a) as [_|N]; [reflexivity|elim (N A)]. }
  assert (B0 : training_built Debug j_start) by apply j_built.
  eexists. match goal with |- ?A /\ _ => assert (E : A) end.
  { let t := eval cbv - [forward Rplus Rmult IZR] in (infer Debug j_start j_x) in change (infer Debug j_start j_x) with t.
    do 2 (let E := fresh in match goal with
      | |- context [@forward ?bm _ ?A ?l ?x ?y] => eassert (E : @forward bm _ A l x y = _)
      end;
      [cbv - [relu_mask_loop Rplus Rmult IZR]; try first [rewrite Relu2 by lra|rewrite Relu1 by lra]; cbv - [relu_mask_loop Rplus Rmult IZR]; reflexivity
      |rewrite E; clear E; cbv - [forward Rplus Rmult IZR]]).
    reflexivity. }
  split; [exact E|]. split.
  { eapply (SpecNet.train_step Debug j_start (OInfer j_x)); [exact B0|demo_wf|discriminate|exact E]. }
  split; [discriminate|]. split; [repeat constructor|]. split; [repeat constructor|]. split; [reflexivity|].
  intros g. eexists _, _, _. split.
  { match goal with |- ?l = _ => let t := eval cbv - [backward Rplus Rmult IZR] in l in change l with t end.
    do 2 (let E := fresh in match goal with
      | |- context [@backward ?bm _ ?A ?l ?x ?y ?g ?og] => eassert (E : @backward bm _ A l x y g og = _)
      end; [cbv - [Rplus Rmult IZR]; reflexivity|rewrite E; clear E; cbv - [backward Rplus Rmult IZR]]).
    reflexivity. }
  split; [reflexivity|]. cbn [fc_weights_gradients fc_bias_gradients intermediate_gradients nth_error].
  repeat split; unfold rt; cbn [di dj dk]; try apply (f_equal Some); f_equal; repeat (apply f_equal2; [ring|]); reflexivity.
Qed.
