(** * Properties: no direction of an image is special *)
From Coq Require Import Reals Lra ZifyBool ZifyNat ZifyN.
From Verif Require Import Base Arith Helper Tensor Convolution Network Bincode Serial Spec SpecLayer SpecNet SpecReal SpecTrain SpecChain SpecTurn RealArith ProofsChain ProofsTurn.
From Verif Require Import Demo DemoReal DemoGrad DemoTurn.
Local Open Scope R_scope.

(** ** C100 *)
Theorem C100_outputs : forall m (BT : Bits R) bm v n n' (X X' : tensor R) x x',
  let AR := R_arith m in
  well_built bm n -> well_built bm n' -> layers n <> [] -> Forall2 (turned_layer bm v) (map params_of (layers n)) (map params_of (layers n')) ->
  holds bm X (net_input_shape n) x -> holds bm X' (turn v (net_input_shape n)) x' -> turned v (net_input_shape n) x x' ->
  exists n1 n1' Y Y' y y', infer bm n X = Done (n1, Ok tt) /\ infer bm n' X' = Done (n1', Ok tt)
    /\ get_output n1 = Done (Ok Y) /\ get_output n1' = Done (Ok Y')
    /\ holds bm Y (net_output_shape n) y /\ holds bm Y' (turn v (net_output_shape n)) y' /\ turned v (net_output_shape n) y y'.
Proof. exact @turned_networks. Qed.
Print Assumptions C100_outputs.

Theorem C100_gradients : forall m (BT : Bits R) bm v n n' (X X' G G' : tensor R) x x' g g',
  let AR := R_arith m in
  training_built bm n -> training_built bm n' -> layers n <> [] -> Forall2 (turned_layer bm v) (map params_of (layers n)) (map params_of (layers n')) ->
  Forall backs_exactly (layers n) -> Forall backs_exactly (layers n') ->
  smooth m bm (map params_of (layers n)) X -> smooth m bm (map params_of (layers n')) X' ->
  holds bm X (net_input_shape n) x -> holds bm X' (turn v (net_input_shape n)) x' -> turned v (net_input_shape n) x x' ->
  holds bm G (net_output_shape n) g -> holds bm G' (turn v (net_output_shape n)) g' -> turned v (net_output_shape n) g g' ->
  exists n1 n1' n2 n2' D D' d d', infer bm n X = Done (n1, Ok tt) /\ infer bm n' X' = Done (n1', Ok tt)
    /\ net_backward bm n1 G = Done (n2, Ok tt) /\ net_backward bm n1' G' = Done (n2', Ok tt)
    /\ nth_error (intermediate_gradients n2) 0 = Some D /\ nth_error (intermediate_gradients n2') 0 = Some D'
    /\ holds bm D (net_input_shape n) d /\ holds bm D' (turn v (net_input_shape n)) d' /\ turned v (net_input_shape n) d d'.
Proof. exact @turned_gradients. Qed.
Print Assumptions C100_gradients.

(** The network and its transposition. *)
Example C100_case : training_built Debug (u_net u_k) /\ training_built Debug (u_net u_k')
  /\ Forall2 (turned_layer Debug Transpose) (map params_of (layers (u_net u_k))) (map params_of (layers (u_net u_k')))
  /\ Forall backs_exactly (layers (u_net u_k)) /\ Forall backs_exactly (layers (u_net u_k'))
  /\ smooth (-1000) Debug (map params_of (layers (u_net u_k))) u_x /\ smooth (-1000) Debug (map params_of (layers (u_net u_k'))) u_x'
  /\ net_input_shape (u_net u_k) = u_i /\ holds Debug u_x u_i (at_ u_x) /\ holds Debug u_x' u_i (at_ u_x') /\ turned Transpose u_i (at_ u_x) (at_ u_x')
  /\ at_ u_k 1 0 0 = 2 /\ at_ u_k' 1 0 0 = 3
  (* with pooling *)
  /\ well_built Debug (u_net2 u_k (mkShape 2 1 1) (mkShape 1 2 1)) /\ well_built Debug (u_net2 u_k' (mkShape 1 2 1) (mkShape 2 1 1))
  /\ Forall2 (turned_layer Debug Transpose) (map params_of (layers (u_net2 u_k (mkShape 2 1 1) (mkShape 1 2 1))))
       (map params_of (layers (u_net2 u_k' (mkShape 1 2 1) (mkShape 2 1 1)))).
Proof.
  assert (P : forall k, k = u_k \/ k = u_k' -> map params_of (layers (u_net k)) = [PConv [k] [u_b] 1 u_i u_s]) by (intros k [->| ->]; run_R; reflexivity).
  assert (P2 : map params_of (layers (u_net2 u_k (mkShape 2 1 1) (mkShape 1 2 1))) = [PConv [u_k] [u_b] 1 u_i u_s; PMaxPool u_s (mkShape 2 1 1) (mkShape 1 2 1) 1]) by (run_R; reflexivity).
  assert (P3 : map params_of (layers (u_net2 u_k' (mkShape 1 2 1) (mkShape 2 1 1))) = [PConv [u_k'] [u_b] 1 u_i u_s; PMaxPool u_s (mkShape 1 2 1) (mkShape 2 1 1) 1]) by (run_R; reflexivity).
  rewrite (P u_k), (P u_k'), P2, P3 by auto.
  assert (C : turned_layer Debug Transpose (PConv [u_k] [u_b] 1 u_i u_s) (PConv [u_k'] [u_b] 1 u_i u_s)) by (repeat (split; [reflexivity|]); constructor; [exact u_k_turned|constructor]).
  split; [apply u_net_built; demo_shaped|]. split; [apply u_net_built; demo_shaped|]. split; [constructor; [exact C|constructor]|].
  split; [demo_layers|]. split; [demo_layers|].
  assert (Q : forall l : list R, Forall (fun p => 0 <= p) l -> forall p, In p l -> 0 <= p) by (intros l H p; rewrite Forall_forall in H; apply H).
  split; [apply u_smooth; [demo_shaped|demo_shaped| |]; apply Q; repeat constructor; lra|].
  split; [apply u_smooth; [demo_shaped|demo_shaped| |]; apply Q; repeat constructor; lra|].
  split; [run_R; reflexivity|]. split; [demo_rhold|]. split; [demo_rhold|]. split; [exact u_x_turned|]. split; [reflexivity|]. split; [reflexivity|].
  split; [apply u_net2_built; [demo_shaped|repeat split; try reflexivity; try discriminate; repeat constructor]|].
  split; [apply u_net2_built; [demo_shaped|repeat split; try reflexivity; try discriminate; repeat constructor]|].
  constructor; [exact C|]. constructor; [repeat split; reflexivity|constructor].
Qed.
