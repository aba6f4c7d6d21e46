(** * C31-C36, C54, C55: histories of a network *)
From Verif Require Import Base Arith Helper Tensor Network Bincode Serial Float32 Spec SpecLayer SpecNet NetFacts NetRun ProofsNet Demo DemoNet.
Local Open Scope string_scope.
Local Open Scope N_scope.

(** ** C31: any layers at all, well-formed or not, and any files *)
Theorem C31_structure_invariant : forall F (AR : Arith F) (BT : Bits F) bm (n : network F), reachable bm n -> structured n.
Proof. exact @reachable_structured. Qed.
Print Assumptions C31_structure_invariant.

(** The fourth layer (convolution after a column of two) is refused, the history goes on. *)
Example C31_case :
  exists n, run_all Debug (network_new Training) d_ops = Some n /\ reachable Debug n
    /\ (map get_name (layers n) = ["pool"; "dense"; "soft"]
        /\ map tshape (intermediate_states n) = [mkShape 4 2 1; mkShape 2 1 1; mkShape 2 1 1; mkShape 2 1 1]).
Proof. apply computed; [intros n E; exact (run_all_reachable _ _ _ _ (reach_new _ _) E)|vm_compute; auto]. Qed.

(** ** C32 *)
Theorem C32_accepts_exactly : forall F (AR : Arith F) (BT : Bits F) bm (n : network F) l n' r,
  reachable bm n -> layers n <> [] -> add_layer bm n l = Done (n', r) ->
  (r = Ok tt <-> get_input_shape l = net_output_shape n)
  /\ (r <> Ok tt -> n' = n)
  /\ (r = Ok tt -> exists l', layers n' = (layers n ++ [l'])%list /\ params_of l' = params_of l /\ get_name l' = get_name l
        /\ get_run_mode l' = get_run_state n /\ net_output_shape n' = get_output_shape l).
Proof. exact (fun F AR BT bm n l n' r H => add_layer_exact bm n l n' r (reachable_structured bm n H)). Qed.
Print Assumptions C32_accepts_exactly.

Theorem C32_no_panic : forall e bm (n : network f32) l,
  @well_built f32 (f32_arith e) f32_bits bm n -> layer_ok l -> exists n' r, @add_layer bm f32 (f32_arith e) n l = Done (n', r).
Proof. exact built_add. Qed.
Print Assumptions C32_no_panic.

Example C32_case :
  exists n, run_all Debug (network_new Inference) [OAdd d_mp] = Some n /\ reachable Debug n
    /\ (match layers n with [] => False | _ => True end
        /\ answered (add_layer Debug n d_fc) = Some true /\ answered (add_layer Debug n d_cv) = Some false).
Proof. apply computed; [intros n E; exact (run_all_reachable _ _ _ _ (reach_new _ _) E)|vm_compute; auto]. Qed.

(** ** C33 *)
Theorem C33_composition : forall e bm (n : network f32) X n',
  @well_built f32 (f32_arith e) f32_bits bm n -> wf X -> @infer bm f32 (f32_arith e) n X = Done (n', Ok tt) ->
  exists Y, get_output n' = Done (Ok Y) /\ @composes f32 (f32_arith e) bm (map params_of (layers n)) X Y.
Proof. exact built_composes. Qed.
Print Assumptions C33_composition.

(** Whatever happened to two networks with the same parameters, in whatever modes they are. *)
Theorem C33_history_independent : forall e bm (n1 n2 : network f32) X n1' n2',
  @well_built f32 (f32_arith e) f32_bits bm n1 -> @well_built f32 (f32_arith e) f32_bits bm n2 -> wf X ->
  map params_of (layers n1) = map params_of (layers n2) ->
  @infer bm f32 (f32_arith e) n1 X = Done (n1', Ok tt) -> @infer bm f32 (f32_arith e) n2 X = Done (n2', Ok tt) ->
  get_output n1' = get_output n2'.
Proof. exact built_same. Qed.
Print Assumptions C33_history_independent.

Definition d_output (n : network f32) (X : tensor f32) : option (list Z) :=
  match infer Debug n X with
  | Done (n', Ok _) => match get_output n' with Done (Ok Y) => Some (tbits Y) | _ => None end
  | _ => None
  end.

(** A fresh network in inference mode, and one in training mode after a history. *)
Example C33_case :
  exists n1, run_all Debug (network_new Inference) [OAdd d_mp; OAdd d_fc] = Some n1
    /\ well_built Debug n1
    /\ exists n2, run_all Debug n1 [OTrain; OInfer (tn (mkShape 4 2 1) [9;9;9;9;9;9;9;9]%Z); OBackward (tn (mkShape 2 1 1) [3;4]%Z); OInference] = Some n2
    /\ (well_built Debug n2 /\ map params_of (layers n2) = map params_of (layers n1))
    /\ (d_output n1 d_image = Some (ints [18;0]%Z) /\ d_output n2 d_image = Some (ints [18;0]%Z)).
Proof.
  assert (C : match run_all Debug (network_new Inference) [OAdd d_mp; OAdd d_fc] with
    | Some n1 => match run_all Debug n1 [OTrain; OInfer (tn (mkShape 4 2 1) [9;9;9;9;9;9;9;9]%Z); OBackward (tn (mkShape 2 1 1) [3;4]%Z); OInference] with
      | Some n2 => d_output n1 d_image = Some (ints [18;0]%Z) /\ d_output n2 d_image = Some (ints [18;0]%Z) | None => False end
    | None => False end) by (vm_compute; auto).
  destruct (run_all Debug (network_new Inference) [OAdd d_mp; OAdd d_fc]) as [n1|] eqn:E1; [|destruct C].
  assert (W : well_built Debug n1).
  { refine (run_all_built _ _ _ _ (built_new _ _) _ E1). constructor; [exact d_mp_ok|constructor; [exact d_fc_ok|constructor]]. }
  exists n1. split; [reflexivity|]. split; [exact W|]. apply computed; [|exact C]. intros n2 E2. split.
  - refine (run_all_built _ _ _ _ W _ E2). constructor; [exact I|]. constructor; [demo_wf|]. constructor; [demo_wf|]. constructor; [exact I|constructor].
  - refine (run_all_params _ _ _ _ _ E2). repeat constructor.
Qed.

(** ** C34 *)
Theorem C34_rejects : forall F (AR : Arith F) (BT : Bits F) bm (n : network F) X,
  reachable bm n -> tshape X <> net_input_shape n \/ layers n = [] -> exists e, infer bm n X = Done (n, Err e).
Proof. exact (fun F AR BT bm n X H => infer_cases bm n X (reachable_structured bm n H)). Qed.
Print Assumptions C34_rejects.

Theorem C34_exactly : forall e bm (n : network f32) X,
  @well_built f32 (f32_arith e) f32_bits bm n -> wf X ->
  exists n' r, @infer bm f32 (f32_arith e) n X = Done (n', r)
    /\ (r = Ok tt <-> tshape X = net_input_shape n /\ layers n <> []) /\ (r <> Ok tt -> n' = n).
Proof. exact built_infer. Qed.
Print Assumptions C34_exactly.

Example C34_case :
  exists n, run_all Release (network_new Training) [OAdd d_cv] = Some n /\ well_built Release n
    /\ (answered (infer Release n (tn (mkShape 3 3 1) [1;2;3;4;5;6;7;8;9]%Z)) = Some true
        /\ answered (infer Release n (tn (mkShape 9 1 1) [1;2;3;4;5;6;7;8;9]%Z)) = Some false).
Proof.
  apply computed; [|vm_compute; auto]. intros n E.
  refine (run_all_built _ _ _ _ (built_new _ _) _ E). constructor; [exact d_cv_ok|constructor].
Qed.

(** ** C35 *)
Theorem C35_training : forall F (AR : Arith F) (BT : Bits F) bm (n n1 n2 : network F),
  net_switch_to_training bm n = Done n1 -> ran bm n1 n2 ->
  get_run_state n2 = Training /\ Forall (fun l => get_run_mode l = Training) (layers n2).
Proof. exact @modes_training. Qed.
Print Assumptions C35_training.

Theorem C35_created : forall F (AR : Arith F) (BT : Bits F) bm st (n : network F),
  ran bm (network_new st) n -> get_run_state n = st /\ Forall (fun l => get_run_mode l = st) (layers n).
Proof. exact @modes_created. Qed.
Print Assumptions C35_created.

(** Missing for [switch_to_inference]: the network's own state and the layers added later. *)
Theorem C35_inference_partial : forall F (AR : Arith F) bm (n n1 : network F),
  net_switch_to_inference bm n = Done n1 -> Forall (fun l => get_run_mode l = Inference) (layers n1).
Proof. exact @modes_inference. Qed.
Print Assumptions C35_inference_partial.

(** After [switch_to_inference] the network reports training mode, and a layer added then is in training mode. *)
Theorem C35_inference_refuted :
  exists n, run_all Debug (network_new Inference) [OAdd d_mp] = Some n /\ well_built Debug n
    /\ match net_switch_to_inference Debug n with
       | Done n1 => get_run_state n1 = Training
           /\ match add_layer Debug n1 d_fc with Done (n2, Ok _) => map get_run_mode (layers n2) = [Inference; Training] | _ => False end
       | Panic _ => False
       end.
Proof.
  apply computed; [|vm_compute; auto]. intros n E.
  refine (run_all_built _ _ _ _ (built_new _ _) _ E). constructor; [exact d_mp_ok|constructor].
Qed.
Print Assumptions C35_inference_refuted.

Example C35_case :
  match run_all Debug (network_new Inference) [OAdd d_mp; OTrain; OAdd d_fc; OInfer d_image] with
  | Some n => get_run_state n = Training /\ map get_run_mode (layers n) = [Training; Training]
  | None => False
  end.
Proof. vm_compute. auto. Qed.

(** ** C36 *)
Theorem C36_inference_rejected : forall F (AR : Arith F) bm (n : network F) g,
  get_run_state n = Inference -> exists e, net_backward bm n g = Done (n, Err e).
Proof. exact @backward_inference. Qed.
Print Assumptions C36_inference_rejected.

(** In training mode backward does not panic, and it succeeds when every layer can. Missing: convolutional layers whose outgoing gradient
    indexes outside its tensors (see [C36_conv_refuted]) and networks switched back to inference mode ([C36_switched_refuted]). *)
Theorem C36_no_panic_partial : forall e bm (n : network f32) g,
  @training_built f32 (f32_arith e) f32_bits bm n -> Forall stays_inside (layers n) -> wf g ->
  exists n' r, @net_backward bm f32 (f32_arith e) n g = Done (n', r)
    /\ (layers n <> [] -> tshape g = net_output_shape n -> Forall backs (layers n) -> r = Ok tt).
Proof. exact built_backward. Qed.
Print Assumptions C36_no_panic_partial.

(** A network switched to inference mode panics in backward. *)
Theorem C36_switched_refuted :
  exists n, run_all Debug (network_new Training) [OAdd d_fc; OInference] = Some n /\ well_built Debug n
    /\ panics (net_backward Debug n (tn (mkShape 2 1 1) [1;1]%Z)) = true.
Proof.
  apply computed; [|vm_compute; reflexivity]. intros n E.
  refine (run_all_built _ _ _ _ (built_new _ _) _ E). constructor; [exact d_fc_ok|constructor; [exact I|constructor]].
Qed.
Print Assumptions C36_switched_refuted.

(** So does a network in training mode with a 3x3 convolution of a 4x4 image. *)
Theorem C36_conv_refuted :
  exists n, run_all Debug (network_new Training) [OAdd d_cv4; OInfer (tn (mkShape 4 4 1) [1;2;3;4;5;6;7;8;1;2;3;4;5;6;7;8]%Z)] = Some n
    /\ training_built Debug n /\ panics (net_backward Debug n (tn (mkShape 2 2 1) [1;1;1;1]%Z)) = true.
Proof.
  apply computed; [|vm_compute; reflexivity]. intros n E.
  refine (run_all_training _ _ _ _ (train_new _) _ E).
  constructor; [split; [exact d_cv4_ok|discriminate]|]. constructor; [split; [demo_wf|discriminate]|constructor].
Qed.
Print Assumptions C36_conv_refuted.

(** [insideb] decides [stays_inside] ([insideb_inside]). *)
Example C36_case :
  exists n, run_all Debug (network_new Training) d_ops = Some n /\ training_built Debug n
    /\ (forallb insideb (layers n) = true /\ fold_right and True (map backs (layers n))
        /\ answered (net_backward Debug n (tn (mkShape 2 1 1) [1;2]%Z)) = Some true
        /\ answered (net_backward Debug n (tn (mkShape 3 1 1) [1;2;3]%Z)) = Some false).
Proof.
  apply computed; [intros n E; exact (run_all_training _ _ _ _ (train_new _) d_ops_good E)|vm_compute; auto 20].
Qed.

(** A 2x2 convolution of a 3x3 image into two channels, then pooling. *)
Example C36_conv_case :
  exists n, run_all Debug (network_new Training) d_cops = Some n /\ training_built Debug n
    /\ (forallb insideb (layers n) = true /\ fold_right and True (map backs (layers n))
        /\ answered (net_backward Debug n (tn (mkShape 1 1 2) [1;2]%Z)) = Some true).
Proof.
  apply computed; [intros n E; exact (run_all_training _ _ _ _ (train_new _) d_cops_good E)|vm_compute; auto 10].
Qed.

(** ** C54 *)
Theorem C54_parameters_kept : forall F (AR : Arith F) (BT : Bits F) bm (n : network F) op n' r,
  run_op bm n op = Done (n', r) -> runs_only op ->
  map params_of (layers n') = map params_of (layers n) /\ map get_name (layers n') = map get_name (layers n).
Proof. exact @run_op_params. Qed.
Print Assumptions C54_parameters_kept.

Theorem C54_same_file : forall F (AR : Arith F) (BT : Bits F) bm h (n : network F) op n' r,
  run_op bm n op = Done (n', r) -> runs_only op ->
  to_byte_array h (new_from_network n') = to_byte_array h (new_from_network n).
Proof. exact @saved_the_same. Qed.
Print Assumptions C54_same_file.

Example C54_case :
  @runs_only f32 (OBackward (tn (mkShape 2 1 1) [3;4]%Z))
  /\ match run_all Debug (network_new Training) [OAdd d_mp; OAdd d_fc; OInfer d_image] with
     | Some n => answered (run_op Debug n (OBackward (tn (mkShape 2 1 1) [3;4]%Z))) = Some true
     | None => False
     end.
Proof. split; [exact I|]. vm_compute; reflexivity. Qed.

(** ** C55 *)
Theorem C55_intermediate_states : forall F (AR : Arith F) (BT : Bits F) bm (n : network F) id, reachable bm n ->
  (id <= len (layers n) /\ layers n <> [] ->
     exists t, get_intermediate_state n id = Done (Ok t) /\ nth_error (boundaries (layers n)) (N.to_nat id) = Some (tshape t))
  /\ (~ (id <= len (layers n) /\ layers n <> []) -> exists e, get_intermediate_state n id = Done (Err e)).
Proof. exact (fun F AR BT bm n id H => state_exposed n id (reachable_structured bm n H)). Qed.
Print Assumptions C55_intermediate_states.

Theorem C55_output_is_last : forall F (AR : Arith F) (BT : Bits F) bm (n : network F), reachable bm n ->
  (layers n <> [] -> get_output n = get_intermediate_state n (len (layers n))) /\ (layers n = [] -> exists e, get_output n = Done (Err e)).
Proof. exact (fun F AR BT bm n H => output_is_last n (reachable_structured bm n H)). Qed.
Print Assumptions C55_output_is_last.

Example C55_case :
  exists n, run_all Debug (network_new Training) d_ops = Some n /\ reachable Debug n
    /\ (len (layers n) = 3
        /\ match get_intermediate_state n 1 with Done (Ok t) => tbits t = ints [8;3]%Z | _ => False end
        /\ match get_intermediate_state n 4 with Done (Err _) => True | _ => False end).
Proof. apply computed; [intros n E; exact (run_all_reachable _ _ _ _ (reach_new _ _) E)|vm_compute; auto]. Qed.
