(** * C96: hidden units and channels may be renumbered and rescaled *)
From Coq Require Import Reals Lra Lia.
From Verif Require Import Base Arith Helper Tensor Network Bincode Serial Spec SpecLayer SpecNet SpecReal SpecRewire RealArith LayerFacts NetBack ProofsFloat ProofsPick ProofsRewire Float32 Demo DemoNet DemoReal DemoGrad DemoJoint.
Local Open Scope R_scope.

(** [rewired] renumbers the units between two fully connected layers, or the channels between two convolutions with any max pooling in
    between, and multiplies each by a positive factor that the second layer divides out. *)
Theorem C96_same_output : forall low bm (BT : Bits R) (n n' : network R) (X : tensor R) pre ps ps' post,
  let AR := R_arith low in
  well_built bm n -> well_built bm n' -> net_input_shape n' = net_input_shape n ->
  map params_of (layers n) = (pre ++ ps ++ post)%list -> map params_of (layers n') = (pre ++ ps' ++ post)%list -> rewired low bm ps ps' ->
  shaped X (net_input_shape n) ->
  exists n1 n1' Y, infer bm n X = Done (n1, Ok tt) /\ get_output n1 = Done (Ok Y) /\ infer bm n' X = Done (n1', Ok tt) /\ get_output n1' = Done (Ok Y).
Proof. exact network_rewired. Qed.
Print Assumptions C96_same_output.

(** Units of the last layer can also be left out or repeated, bit for bit. *)
Theorem C96_last_layer : forall e bm (n n' : network f32) (X : tensor f32) pre p p' s,
  let AR := f32_arith e in
  well_built bm n -> well_built bm n' -> net_input_shape n' = net_input_shape n ->
  map params_of (layers n) = (pre ++ [p])%list -> map params_of (layers n') = (pre ++ [p'])%list -> picked bm s p p' ->
  shaped X (net_input_shape n) ->
  exists n1 n1' Y Y' r r' y y', infer bm n X = Done (n1, Ok tt) /\ get_output n1 = Done (Ok Y) /\ infer bm n' X = Done (n1', Ok tt) /\ get_output n1' = Done (Ok Y')
    /\ holds bm Y r y /\ holds bm Y' r' y'
    /\ forall i j k, in_shape r' i j k -> match p with PFC _ _ => y' i j k = y (s i) j k | _ => y' i j k = y i j (s k) end.
Proof. exact (fun e bm n n' X pre p p' s => @network_picked f32 (f32_arith e) f32_bits bm n n' X pre p p' s (f32_relu_agrees e)). Qed.
Print Assumptions C96_last_layer.

(** relu (relu (x + 1) + 2 relu (5 - x) - 1) and relu (relu (10 - 2 x) + relu (x + 1) - 1). *)
Example C96_case : let n := j_net [1; -1] [1; 5] [1; 2] [-1] in let n' := j_net [-2; 1] [10; 1] [1; 1] [-1] in
  well_built Debug n /\ well_built Debug n' /\ net_input_shape n' = net_input_shape n
  /\ rewired (-1000) Debug (map params_of (layers n)) (map params_of (layers n')) /\ shaped j_x (net_input_shape n).
Proof.
  cbv zeta. destruct (j_layers [1; -1] [1; 5] [1; 2] [-1]) as (L & SI & _). destruct (j_layers [-2; 1] [10; 1] [1; 1] [-1]) as (L' & SI' & _).
  split; [apply training_built_well, j_built|]. split; [apply training_built_well, j_built|]. rewrite SI, SI', L, L'. split; [reflexivity|]. split; [|demo_shaped].
  cbn [map params_of j_fc1 j_fc2 fc_weights fc_bias].
  apply (RDense (-1000) Debug _ _ _ _ _ _ _ 1%N 2%N 1%N (at_ (rt (mkShape 2 1 1) [1; -1])) (at_ (rt (mkShape 2 1 1) [1; 5])) (at_ (rt (mkShape 1 2 1) [1; 2]))
    (at_ (rt (mkShape 2 1 1) [-2; 1])) (at_ (rt (mkShape 2 1 1) [10; 1])) (at_ (rt (mkShape 1 2 1) [1; 1])) (fun u => 1 - u)%N (fun u => if N.eqb u 0 then 2 else 1));
    try demo_rhold.
  - split; intros; lia.
  - intros u _. destruct (N.eqb u 0); lra.
  - intros u p Hu Hp. assert (p = 0%N) by lia. assert (D : u = 0%N \/ u = 1%N) by lia. subst p. destruct D as [-> | ->]; cbv - [Rmult IZR Ropp]; lra.
  - intros u Hu. assert (D : u = 0%N \/ u = 1%N) by lia. destruct D as [-> | ->]; cbv - [Rmult IZR Ropp]; lra.
  - intros i u Hi Hu. assert (i = 0%N) by lia. assert (D : u = 0%N \/ u = 1%N) by lia. subst i. destruct D as [-> | ->]; cbv - [Rdiv IZR Ropp]; lra.
Qed.

(** Two channels of a 1x1 convolution swapped in front of max pooling and another 1x1 convolution; the second is doubled. *)
Example C96_conv_case :
  let one v := rt (mkShape 1 1 1) [v] in let two v w := rt (mkShape 1 1 2) [v; w] in
  let pool := PMaxPool (mkShape 4 1 2) (mkShape 2 1 1) (mkShape 2 1 2) 2 in
  rewired (-1000) Debug
    [PConv [one 1; one 2] [one 3; one 4] 1 (mkShape 4 1 1) (mkShape 4 1 2); pool; PConv [two 5 6] [one 7] 1 (mkShape 2 1 2) (mkShape 2 1 1)]
    [PConv [one 4; one 1] [one 8; one 3] 1 (mkShape 4 1 1) (mkShape 4 1 2); pool; PConv [two 3 5] [one 7] 1 (mkShape 2 1 2) (mkShape 2 1 1)].
Proof.
  intros one two pool.
  apply (RConv (-1000) Debug [one 1; one 2] [one 3; one 4] 1 (mkShape 4 1 1) (mkShape 4 1 2) [pool] [two 5 6] [one 7] 1 (mkShape 2 1 2) (mkShape 2 1 1)
    [one 4; one 1] [one 8; one 3] [two 3 5] (mkShape 1 1 1) (mkShape 1 1 2)
    (fun u => if N.eqb u 0 then at_ (one 1) else at_ (one 2)) (fun u => if N.eqb u 0 then at_ (one 4) else at_ (one 1)) (fun u => if N.eqb u 0 then 3 else 4) (fun u => if N.eqb u 0 then 8 else 3)
    (fun _ => at_ (two 5 6)) (fun _ => at_ (two 3 5)) (fun u => 1 - u)%N (fun u => if N.eqb u 0 then 2 else 1)); cbn [dk].
  - split; intros; lia.
  - intros u _. destruct (N.eqb u 0); lra.
  - constructor; [split; reflexivity|constructor].
  - right. lra.
  - intros u t. destruct (N.eqb_spec u 0) as [->|]; [intros [= <-]; demo_rhold|]. destruct (N.to_nat u) as [|[|]] eqn:E; [lia|intros [= <-]; demo_rhold|destruct n0; discriminate].
  - intros u t. destruct (N.eqb_spec u 0) as [->|]; [intros [= <-]; demo_rhold|]. destruct (N.to_nat u) as [|[|]] eqn:E; [lia|intros [= <-]; demo_rhold|destruct n0; discriminate].
  - intros u t. destruct (N.to_nat u) as [|[|]]; [intros [= <-]; demo_rhold|discriminate|discriminate].
  - intros u t. destruct (N.to_nat u) as [|[|]]; [intros [= <-]; demo_rhold|discriminate|discriminate].
  - intros u t. destruct (N.eqb_spec u 0) as [->|]; [intros [= <-]; reflexivity|]. destruct (N.to_nat u) as [|[|]] eqn:E; [lia|intros [= <-]; reflexivity|destruct n0; discriminate].
  - intros u t. destruct (N.eqb_spec u 0) as [->|]; [intros [= <-]; reflexivity|]. destruct (N.to_nat u) as [|[|]] eqn:E; [lia|intros [= <-]; reflexivity|destruct n0; discriminate].
  - intros u i j l Hu (Hi & Hj & Hl). cbn [di dj dk] in *. assert (i = 0%N) by lia. assert (j = 0%N) by lia. assert (l = 0%N) by lia. assert (D : u = 0%N \/ u = 1%N) by lia.
    subst. destruct D as [-> | ->]; cbv - [Rmult IZR]; lra.
  - intros u Hu. assert (D : u = 0%N \/ u = 1%N) by lia. destruct D as [-> | ->]; cbv - [Rmult IZR]; lra.
  - intros k i j u Hk (Hi & Hj & Hu). cbn [di dj dk] in *. assert (i = 0%N) by lia. assert (j = 0%N) by lia. assert (D : u = 0%N \/ u = 1%N) by lia.
    subst. destruct D as [-> | ->]; cbv - [Rdiv IZR]; lra.
Qed.

(** Rows 1, 0, 1 of a 2x2 layer. *)
Example C96_last_case :
  let W := tn (mkShape 2 2 1) [1;-2;3;4]%Z in let B := tn (mkShape 2 1 1) [1;-1]%Z in
  let W' := tn (mkShape 3 2 1) [-2;1;-2;4;3;4]%Z in let B' := tn (mkShape 3 1 1) [-1;1;-1]%Z in
  picked Debug (fun u => if N.eqb u 1 then 0 else 1)%N (PFC W B) (PFC W' B').
Proof.
  cbv zeta. eapply (PickDense Debug _ _ _ _ _ 2%N 3%N 2%N).
  - intros u _. destruct (N.eqb u 1); lia.
  - apply shaped_holds. demo_shaped.
  - apply shaped_holds. demo_shaped.
  - apply shaped_holds. demo_shaped.
  - apply shaped_holds. demo_shaped.
  - intros u p Hu Hp. assert (D : u = 0%N \/ u = 1%N \/ u = 2%N) by lia. assert (D' : p = 0%N \/ p = 1%N) by lia.
    destruct D as [-> |[-> | ->]], D' as [-> | ->]; reflexivity.
  - intros u Hu. assert (D : u = 0%N \/ u = 1%N \/ u = 2%N) by lia. destruct D as [-> |[-> | ->]]; reflexivity.
Qed.
