(** * Properties: near a smooth point the gradient predicts changes exactly *)
From Coq Require Import Reals Lra ZifyBool ZifyNat ZifyN.
From Verif Require Import Base Arith Helper Tensor Convolution Network Bincode Serial Spec SpecLayer SpecNet SpecReal SpecTrain SpecChain SpecLocal RealArith ProofsChain ProofsLocal.
From Verif Require Import Demo DemoReal DemoTrain DemoGrad.
Local Open Scope R_scope.

(** ** C99 *)
Theorem C99_input : forall m (BT : Bits R) bm n (X : tensor R) x G g,
  let AR := R_arith m in
  training_built bm n -> layers n <> [] -> Forall backs_exactly (layers n) -> Forall piecewise (layers n) ->
  holds bm X (net_input_shape n) x -> holds bm G (net_output_shape n) g -> smooth m bm (map params_of (layers n)) X ->
  exists n1 n2 Y y D d r, infer bm n X = Done (n1, Ok tt) /\ get_output n1 = Done (Ok Y) /\ holds bm Y (net_output_shape n) y
    /\ net_backward bm n1 G = Done (n2, Ok tt)
    /\ nth_error (intermediate_gradients n2) 0 = Some D /\ holds bm D (net_input_shape n) d
    /\ 0 < r /\ forall X' x', holds bm X' (net_input_shape n) x' -> near (net_input_shape n) r x x' ->
         exists n' Y' y', infer bm n X' = Done (n', Ok tt) /\ get_output n' = Done (Ok Y') /\ holds bm Y' (net_output_shape n) y'
           /\ pairing (net_output_shape n) g y' - pairing (net_output_shape n) g y = pairing (net_input_shape n) d (change x x').
Proof. exact @predicts_input. Qed.
Print Assumptions C99_input.

Theorem C99_parameters : forall m (BT : Bits R) bm n (X : tensor R) x G g i f M k w b wg bg,
  let AR := R_arith m in
  training_built bm n -> Forall backs_exactly (layers n) -> Forall piecewise (layers n) ->
  holds bm X (net_input_shape n) x -> holds bm G (net_output_shape n) g -> smooth m bm (map params_of (layers n)) X ->
  nth_error (layers n) i = Some (LFC f) ->
  holds bm (fc_weights f) (mkShape M k 1) w -> holds bm (fc_bias f) (mkShape M 1 1) b ->
  holds bm (fc_weights_gradients f) (mkShape M k 1) wg -> holds bm (fc_bias_gradients f) (mkShape M 1 1) bg ->
  exists n1 n2 Y y f2 dw db r, infer bm n X = Done (n1, Ok tt) /\ get_output n1 = Done (Ok Y) /\ holds bm Y (net_output_shape n) y
    /\ net_backward bm n1 G = Done (n2, Ok tt) /\ nth_error (layers n2) i = Some (LFC f2)
    /\ holds bm (fc_weights_gradients f2) (mkShape M k 1) (fun a b c => wg a b c + dw a b c)
    /\ holds bm (fc_bias_gradients f2) (mkShape M 1 1) (fun a b c => bg a b c + db a b c)
    /\ 0 < r /\ forall nt W B w' b', well_built bm nt -> map params_of (layers nt) = list_set (map params_of (layers n)) i (PFC W B) ->
         holds bm W (mkShape M k 1) w' -> holds bm B (mkShape M 1 1) b' ->
         exists n' Y' y', infer bm nt X = Done (n', Ok tt) /\ get_output n' = Done (Ok Y') /\ holds bm Y' (net_output_shape n) y'
           /\ (near (mkShape M k 1) r w w' -> B = fc_bias f ->
                 pairing (net_output_shape n) g y' - pairing (net_output_shape n) g y = pairing (mkShape M k 1) dw (change w w'))
           /\ (near (mkShape M 1 1) r b b' -> W = fc_weights f ->
                 pairing (net_output_shape n) g y' - pairing (net_output_shape n) g y = pairing (mkShape M 1 1) db (change b b')).
Proof. exact @predicts_parameters. Qed.
Print Assumptions C99_parameters.

(** Pooling and a fully connected layer. *)
Definition l_net : network R := run_ops (network_new Training) [OAdd (LMaxPool r_mp); OAdd (LFC r_fc)].
Example C99_case : training_built Debug l_net /\ layers l_net <> [] /\ Forall backs_exactly (layers l_net) /\ Forall piecewise (layers l_net)
  /\ net_input_shape l_net = mkShape 4 1 1 /\ net_output_shape l_net = mkShape 2 1 1
  /\ shaped r_x (net_input_shape l_net) /\ smooth (-1000) Debug (map params_of (layers l_net)) r_x
  /\ near (mkShape 4 1 1) (1 / 4) (at_ r_x) (at_ (rt (mkShape 4 1 1) [1; 2; 4; 3.25]))
  /\ (exists f, nth_error (layers l_net) 1 = Some (LFC f) /\ shaped (fc_weights_gradients f) (mkShape 2 2 1)).
Proof.
  split. { apply run_ops_training; [apply train_new|]. constructor; [split; [exact r_mp_ok|discriminate]|]. constructor; [split; [exists 2%N, 2%N; exact r_fc_ok|discriminate]|constructor]. }
  split; [run_R; discriminate|]. split; [demo_layers|]. split; [demo_layers|]. split; [run_R; reflexivity|]. split; [run_R; reflexivity|]. split; [demo_shaped|].
  split.
  { assert (E : map params_of (layers l_net) = [PMaxPool (mkShape 4 1 1) (mkShape 2 1 1) (mkShape 2 1 1) 2; PFC (fc_weights r_fc) (fc_bias r_fc)]) by (run_R; reflexivity).
    rewrite E. pose proof r_net_smooth as S. rewrite r_net_params in S. cbn [smooth] in S |- *. destruct S as (S1 & S2). split; [exact S1|]. intros Z C.
    destruct (S2 Z C) as (S3 & _). split; [exact S3|]. intros; exact I. }
  split.
  { intros i j k (Hi & Hj & Hk). cbn [di dj dk] in *. assert (j = 0%N) by lia. assert (k = 0%N) by lia. subst.
    assert (D : i = 0%N \/ i = 1%N \/ i = 2%N \/ i = 3%N) by lia. destruct D as [->|[->|[->| ->]]]; cbv - [Rle Rabs Rminus IZR Rdiv]; apply Rabs_le; lra. }
  eexists. split; [run_R; reflexivity|]. demo_shaped.
Qed.
