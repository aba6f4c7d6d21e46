(** * C105: a network may be run and trained in two pieces *)
From Verif Require Import Base Arith Helper Tensor Network Bincode Serial Float32 Spec SpecLayer SpecNet SpecPlatform SpecPieces.
From Verif Require Import ProofsFloat ProofsPieces Demo DemoNet DemoPieces.
Local Open Scope N_scope.

(** [a] has the front layers; the layer [l] starts the second piece, in [n] it stands behind those of [a]. Any calls on [n], and the same
    calls on the two pieces, panic for the same reason or return the same results, and then the pieces together hold what [n] holds. *)
Theorem C105_pieces : forall e bm st ls (a n b : network f32) ra l ops, let AR := f32_arith e in
  history bm (network_new st) (map OAdd ls) = Done (a, ra) -> layers a <> [] -> Forall layer_ok (l :: ls) ->
  add_layer bm a l = Done (n, Ok tt) -> add_layer bm (network_new st) l = Done (b, Ok tt) -> Forall good_op ops ->
  outcome (fun x y => snd y = snd x /\ two_pieces (fst x) (fst (fst y)) (snd (fst y))) (history bm n ops) (pieces_history bm (a, b) ops).
Proof. exact (fun e bm st ls a n b ra l ops => @pieces_together f32 (f32_arith e) f32_bits bm st ls a n b ra l ops (f32_relu_agrees e)). Qed.
Print Assumptions C105_pieces.

(** Max pooling and a fully connected layer in one piece, another fully connected layer in the other. A layer that does not fit and an input
    of the wrong shape are rejected, and a backward pass after a switch to inference panics. *)
Example C105_case :
  let AR := f32_arith demo_env in
  (exists ra, history Debug (network_new Training) (map OAdd c_front) = Done (c_a, ra)) /\ layers c_a <> [] /\ Forall layer_ok (d_fc :: c_front)
  /\ add_layer Debug c_a d_fc = Done (c_n, Ok tt) /\ add_layer Debug (network_new Training) d_fc = Done (c_b, Ok tt) /\ Forall good_op c_calls
  /\ c_whole c_calls = inl ([true; true; false; true; true; false], [[]; [1107296256; 0; 1094713344; 0]; [1116733440; 0; 0; 0]])%Z
  /\ c_pieces c_calls = inl ([true; true; false; true; true; false], [[]; [1107296256; 0; 1094713344; 0]], [[1116733440; 0; 0; 0]])%Z
  /\ c_whole (c_calls ++ [OInference; OBackward (tn (mkShape 2 1 1) [1; 2]%Z)]) = inr PBounds
  /\ c_pieces (c_calls ++ [OInference; OBackward (tn (mkShape 2 1 1) [1; 2]%Z)]) = inr PBounds.
Proof.
  split; [exact c_a_built|]. split; [exact c_some|]. split; [exact c_ok|]. split; [exact c_n_built|]. split; [exact c_b_built|]. split; [exact c_good|].
  repeat split; vm_compute; reflexivity.
Qed.
