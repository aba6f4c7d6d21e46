(** * C88: the gradient in all parameters at once *)
From Coq Require Import Reals Lra Lia.
From Verif Require Import Base Arith Helper Tensor Network Bincode Serial Spec SpecLayer SpecNet SpecReal SpecTrain SpecModes SpecChain SpecBatch SpecGridBack SpecJoint RealArith RealSums RealGrad NetFacts NetBack ProofsJoint Demo DemoReal DemoGrad DemoJoint.
Local Open Scope string_scope.
Local Open Scope R_scope.

(** Gradients start at zero, a batch is trained. The weights and biases of all layers then move along any differentiable curves, all at the
    same time. The loss of the moving network has a derivative at time 0. It is the sum over all layers of the pairings of the accumulated
    gradients with the velocities. *)
Theorem C88_joint_gradient : forall low (BT : Bits R) bm batch n ms,
  let AR := R_arith low in
  training_built bm n -> layers n <> [] -> Forall backs_exactly (layers n) -> Forall (sample_ok low bm n) batch -> no_gradients bm n ->
  Forall2 (moves low bm) (map params_of (layers n)) ms ->
  exists n' loss r, train bm n batch = Done (n', Ok tt)
    /\ (forall t nt, well_built bm nt -> map params_of (layers nt) = map (fun q => fst q t) ms -> batch_loss low bm nt batch (loss t))
    /\ slope_sum low bm (layers n') (map snd ms) r /\ derivable_pt_lim loss 0 r.
Proof. exact @joint_gradient. Qed.
Print Assumptions C88_joint_gradient.

(** Unless all accumulated gradients are zero, a short enough step against them in all layers at once lowers the loss of the batch. *)
Theorem C88_step : forall low (BT : Bits R) bm batch n,
  let AR := R_arith low in
  training_built bm n -> layers n <> [] -> Forall backs_exactly (layers n) -> Forall (sample_ok low bm n) batch -> no_gradients bm n ->
  exists n', train bm n batch = Done (n', Ok tt) /\ (some_gradient low bm (layers n') ->
    exists eta0, 0 < eta0 /\ forall eta nt, 0 < eta < eta0 -> well_built bm nt -> stepped low bm eta (layers n') (layers nt) ->
      exists l l', batch_loss low bm n batch l /\ batch_loss low bm nt batch l' /\ l' < l).
Proof. exact @joint_step. Qed.
Print Assumptions C88_step.

(** Two fully connected layers, relu (relu (x + 1) + 2 relu (5 - x) - 1) at 3. One weight of each layer and a bias move, one of them not
    along a line. The slopes are 3 * 1 - 2 + 4 * 2 = 9. The stepped networks exist. *)
Definition j_path (t : R) : network R := j_net [1 + t; -1] [1; 5 - t] [t * t + 2 * t + 1; 2] [-1].
Definition j_moves : list ((R -> params R) * velocity) :=
  [(fun t => PFC (rt (mkShape 2 1 1) [1 + t; -1]) (rt (mkShape 2 1 1) [1; 5 - t]),
    (fun i _ _ => if N.eqb i 0 then 1 else 0, fun i _ _ => if N.eqb i 0 then 0 else -1));
   (fun t => PFC (rt (mkShape 1 2 1) [t * t + 2 * t + 1; 2]) (rt (mkShape 1 1 1) [-1]),
    (fun _ j _ => if N.eqb j 0 then 2 else 0, fun _ _ _ => 0))].
Definition j_step (eta : R) : network R :=
  j_net [1 - eta * 3; -1 - eta * 6] [1 - eta * 1; 5 - eta * 2] [1 - eta * 4; 2 - eta * 2] [-1 - eta * 1].

Example C88_case :
  training_built Debug j_start /\ layers j_start <> [] /\ Forall backs_exactly (layers j_start)
  /\ Forall (sample_ok (-1000) Debug j_start) [(j_x, j_g)] /\ no_gradients Debug j_start
  /\ Forall2 (moves (-1000) Debug) (map params_of (layers j_start)) j_moves
  /\ (forall t, well_built Debug (j_path t) /\ map params_of (layers (j_path t)) = map (fun q => fst q t) j_moves)
  /\ exists n', train Debug j_start [(j_x, j_g)] = Done (n', Ok tt)
     /\ slope_sum (-1000) Debug (layers n') (map snd j_moves) 9 /\ some_gradient (-1000) Debug (layers n')
     /\ (forall eta, well_built Debug (j_step eta) /\ stepped (-1000) Debug eta (layers n') (layers (j_step eta))).
Proof.
  split; [apply j_built|]. split; [unfold j_start; rewrite (proj1 (j_layers _ _ _ _)); discriminate|].
  split; [unfold j_start; rewrite (proj1 (j_layers _ _ _ _)); repeat constructor|]. split; [exact j_smooth|]. split; [apply j_zero|].
  assert (D1 : forall i, (i < 2)%N -> i = 0%N \/ i = 1%N) by (intros; lia).
  split; [|split].
  - unfold j_start. rewrite (proj1 (j_layers _ _ _ _)). unfold j_moves. constructor; [|constructor; [|constructor]].
    + refine (MoveFC (-1000) Debug _ _ 2 1 _ _ (fun t => at_ (rt (mkShape 2 1 1) [1 + t; -1])) (fun t => at_ (rt (mkShape 2 1 1) [1; 5 - t])) _ _ _ _ _ _ _ _); [demo_rhold|demo_rhold| | |].
      * intros i j k (Hi & Hj & Hk). cbn [di dj dk] in *. assert (j = 0%N) by lia. assert (k = 0%N) by lia. subst.
        destruct (D1 i Hi) as [-> | ->]; cbv - [Rplus Rmult IZR Ropp derivable_pt_lim]; (split; [lra|]).
        -- eapply deriv_eq; [|exact (deriv_plus _ _ _ _ _ (deriv_const 1 0) (derivable_pt_lim_id 0))]. lra.
        -- apply deriv_const.
      * intros i j k (Hi & Hj & Hk). cbn [di dj dk] in *. assert (j = 0%N) by lia. assert (k = 0%N) by lia. subst.
        destruct (D1 i Hi) as [-> | ->]; cbv - [Rplus Rminus Rmult IZR Ropp derivable_pt_lim]; (split; [lra|]).
        -- apply deriv_const.
        -- eapply deriv_ext; [|eapply deriv_eq; [|exact (deriv_plus _ _ _ _ _ (deriv_const 5 0) (deriv_scale (-1) _ _ _ (derivable_pt_lim_id 0)))]]; [intros t; unfold id; ring|lra].
      * intros t. eexists _, _. split; [reflexivity|]. split; demo_rhold.
    + refine (MoveFC (-1000) Debug _ _ 1 2 _ _ (fun t => at_ (rt (mkShape 1 2 1) [t * t + 2 * t + 1; 2])) (fun t => at_ (rt (mkShape 1 1 1) [-1])) _ _ _ _ _ _ _ _); [demo_rhold|demo_rhold| | |].
      * intros i j k (Hi & Hj & Hk). cbn [di dj dk] in *. assert (i = 0%N) by lia. assert (k = 0%N) by lia. subst.
        destruct (D1 j Hj) as [-> | ->]; cbv - [Rplus Rmult IZR Ropp derivable_pt_lim]; (split; [lra|]).
        -- eapply deriv_ext; [|eapply deriv_eq; [|exact (deriv_plus _ _ _ _ _ (deriv_plus _ _ _ _ _ (derivable_pt_lim_mult _ _ _ _ _ (derivable_pt_lim_id 0) (derivable_pt_lim_id 0))
             (deriv_scale 2 _ _ _ (derivable_pt_lim_id 0))) (deriv_const 1 0))]]; [intros t; unfold id, mult_fct; ring|unfold id; lra].
        -- apply deriv_const.
      * intros i j k (Hi & Hj & Hk). cbn [di dj dk] in *. assert (i = 0%N) by lia. assert (j = 0%N) by lia. assert (k = 0%N) by lia. subst.
        split; [reflexivity|]. apply deriv_const.
      * intros t. eexists _, _. split; [reflexivity|]. split; demo_rhold.
  - intros t. unfold j_path. split; [exact (training_built_well Debug _ (j_built _ _ _ _ _ _ _))|]. rewrite (proj1 (j_layers _ _ _ _)). reflexivity.
  - destruct j_trained as (n' & f1 & f2 & E & L & W1 & B1 & W2 & B2 & G1 & H1 & G2 & H2). exists n'. split; [exact E|]. rewrite L.
    assert (HG1 : holds Debug (fc_weights_gradients f1) (mkShape 2 1 1) (at_ (fc_weights_gradients f1))) by (rewrite G1; demo_rhold).
    assert (HH1 : holds Debug (fc_bias_gradients f1) (mkShape 2 1 1) (at_ (fc_bias_gradients f1))) by (rewrite H1; demo_rhold).
    assert (HG2 : holds Debug (fc_weights_gradients f2) (mkShape 1 2 1) (at_ (fc_weights_gradients f2))) by (rewrite G2; demo_rhold).
    assert (HH2 : holds Debug (fc_bias_gradients f2) (mkShape 1 1 1) (at_ (fc_bias_gradients f2))) by (rewrite H2; demo_rhold).
    split; [|split].
    + replace 9 with (pairing (mkShape 2 1 1) (at_ (fc_weights_gradients f1)) (fst (snd (nth 0 j_moves (fun _ => PFC zero1 zero1, (fun _ _ _ => 0, fun _ _ _ => 0)))))
        + pairing (mkShape 2 1 1) (at_ (fc_bias_gradients f1)) (snd (snd (nth 0 j_moves (fun _ => PFC zero1 zero1, (fun _ _ _ => 0, fun _ _ _ => 0)))))
        + (pairing (mkShape 1 2 1) (at_ (fc_weights_gradients f2)) (fst (snd (nth 1 j_moves (fun _ => PFC zero1 zero1, (fun _ _ _ => 0, fun _ _ _ => 0)))))
           + pairing (mkShape 1 1 1) (at_ (fc_bias_gradients f2)) (snd (snd (nth 1 j_moves (fun _ => PFC zero1 zero1, (fun _ _ _ => 0, fun _ _ _ => 0))))) + 0)).
      * apply (slope_fc (-1000) Debug f1 [LFC f2] _ _ _ 2 1 _ _ _ HG1 HH1). apply (slope_fc (-1000) Debug f2 [] _ _ _ 1 2 _ _ _ HG2 HH2). constructor.
      * rewrite G1, H1, G2, H2. cbv - [Rplus Rmult IZR Ropp]. lra.
    + exists 0%nat, f1, 2%N, 1%N, (at_ (fc_weights_gradients f1)), (at_ (fc_bias_gradients f1)). split; [reflexivity|]. split; [exact HG1|]. split; [exact HH1|]. left. exists 0%N, 0%N, 0%N.
      split; [repeat split; reflexivity|]. rewrite G1. cbv - [Rplus Rmult IZR Ropp not]. lra.
    + intros eta. unfold j_step. split; [exact (training_built_well Debug _ (j_built _ _ _ _ _ _ _))|]. rewrite (proj1 (j_layers _ _ _ _)).
      assert (Q : forall s (t d t' : tensor R), holds Debug t s (at_ t) -> holds Debug d s (at_ d) -> holds Debug t' s (at_ t') ->
        (forall i j k, in_shape s i j k -> at_ t' i j k = at_ t i j k - eta * at_ d i j k) -> holds Debug t' s (fun i j k => at_ t i j k - eta * at_ d i j k)).
      { intros s t d t' _ _ H Q. eapply LayerFacts.holds_ext; [|exact H]. intros i j k Hin. exact (Q i j k Hin). }
      apply (step_fc (-1000) Debug eta f1 _ [LFC f2] _ 2 1 (at_ (fc_weights f1)) (at_ (fc_bias f1)) (at_ (fc_weights_gradients f1)) (at_ (fc_bias_gradients f1))).
      * rewrite W1. demo_rhold.
      * rewrite B1. demo_rhold.
      * exact HG1.
      * exact HH1.
      * apply Q; [rewrite W1; demo_rhold|exact HG1|demo_rhold|]. rewrite W1, G1. intros i j k (Hi & Hj & Hk). cbn [di dj dk] in *. assert (j = 0%N) by lia. assert (k = 0%N) by lia. subst.
        destruct (D1 i Hi) as [-> | ->]; reflexivity.
      * apply Q; [rewrite B1; demo_rhold|exact HH1|demo_rhold|]. rewrite B1, H1. intros i j k (Hi & Hj & Hk). cbn [di dj dk] in *. assert (j = 0%N) by lia. assert (k = 0%N) by lia. subst.
        destruct (D1 i Hi) as [-> | ->]; reflexivity.
      * apply (step_fc (-1000) Debug eta f2 _ [] [] 1 2 (at_ (fc_weights f2)) (at_ (fc_bias f2)) (at_ (fc_weights_gradients f2)) (at_ (fc_bias_gradients f2))); [rewrite W2; demo_rhold|rewrite B2; demo_rhold|exact HG2|exact HH2| | |constructor].
        -- apply Q; [rewrite W2; demo_rhold|exact HG2|demo_rhold|]. rewrite W2, G2. intros i j k (Hi & Hj & Hk). cbn [di dj dk] in *. assert (i = 0%N) by lia. assert (k = 0%N) by lia. subst.
           destruct (D1 j Hj) as [-> | ->]; reflexivity.
        -- apply Q; [rewrite B2; demo_rhold|exact HH2|demo_rhold|]. rewrite B2, H2. intros i j k (Hi & Hj & Hk). cbn [di dj dk] in *. assert (i = 0%N) by lia. assert (j = 0%N) by lia. assert (k = 0%N) by lia. subst. reflexivity.
Qed.
