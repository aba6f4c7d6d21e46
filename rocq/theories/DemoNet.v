(** * Concrete layers and networks for the examples beside the theorems *)
From Verif Require Import Base Arith Helper Tensor Network Bincode Serial Float32 Spec SpecLayer SpecNet Loops TensorFacts LayerFacts NetFacts Demo.
Local Open Scope string_scope.
Local Open Scope N_scope.

Definition dot : tensor f32 := tn (mkShape 1 1 1) [0]%Z.

(** A 2x2 fully connected layer, 2x2 max pooling of a 4x2 image, softmax of two values, and a 2x2 convolution of a 3x3 image. *)
Definition d_fc : layer f32 := LFC (mkFC (tn (mkShape 2 2 1) [1;-2;3;4]%Z) dot dot (tn (mkShape 2 1 1) [1;-1]%Z) dot dot "dense" Inference).
Definition d_fc3 : layer f32 := LFC (mkFC (tn (mkShape 1 3 1) [1;2;3]%Z) dot dot (tn (mkShape 1 1 1) [5]%Z) dot dot "dense3" Inference).
Definition d_mp : layer f32 := LMaxPool (mkMP (mkShape 4 2 1) (mkShape 2 2 1) (mkShape 2 1 1) 2 "pool" Inference []).
Definition d_sm : layer f32 := LSoftmax (mkSM (mkShape 2 1 1) "soft" dot dot Inference).
Definition d_cv : layer f32 :=
  LConv (mkConv [tn (mkShape 2 2 1) [1;0;0;1]%Z; tn (mkShape 2 2 1) [-1;0;0;0]%Z] [tn (mkShape 1 1 1) [1]%Z; tn (mkShape 1 1 1) [0]%Z] [] []
    1 dot (mkShape 3 3 1) (mkShape 2 2 2) "conv" Inference).
Definition d_cv4 : layer f32 :=
  LConv (mkConv [tn (mkShape 3 3 1) [1;0;0;0;1;0;0;0;1]%Z] [tn (mkShape 1 1 1) [1]%Z] [] [] 1 dot (mkShape 4 4 1) (mkShape 2 2 1) "conv4" Inference).

Lemma d_fc_ok : layer_ok d_fc.
Proof. exists 2, 2. split; [split; [demo_wf|reflexivity]|]. split; [split; [demo_wf|reflexivity]|discriminate]. Qed.
Lemma d_mp_ok : layer_ok d_mp.
Proof. repeat split; try reflexivity; try discriminate. Qed.
Lemma d_sm_ok : layer_ok d_sm.
Proof. repeat split; try reflexivity; try discriminate. Qed.
Lemma d_cv_ok : layer_ok d_cv.
Proof.
  exists (mkShape 2 2 1). split; [repeat split; reflexivity|]. split.
  { repeat constructor; try reflexivity; apply wfb_wf; vm_compute; reflexivity. }
  split; [reflexivity|]. split; [vm_compute; discriminate|]. split.
  { repeat constructor; try reflexivity; try (vm_compute; discriminate); apply wfb_wf; vm_compute; reflexivity. }
  split; [repeat split; reflexivity|]. split; [repeat split; reflexivity|].
  split; [|discriminate]. intros ch H. cbn in H. repeat split; try reflexivity; try discriminate. exact H.
Qed.
Lemma d_cv4_ok : layer_ok d_cv4.
Proof.
  exists (mkShape 3 3 1). split; [repeat split; reflexivity|]. split.
  { repeat constructor; try reflexivity; apply wfb_wf; vm_compute; reflexivity. }
  split; [reflexivity|]. split; [vm_compute; discriminate|]. split.
  { repeat constructor; try reflexivity; try (vm_compute; discriminate); apply wfb_wf; vm_compute; reflexivity. }
  split; [repeat split; reflexivity|]. split; [repeat split; reflexivity|].
  split; [|discriminate]. intros ch H. cbn in H. repeat split; try reflexivity; try discriminate. exact H.
Qed.

(** A history of operations; [None] after a panic. *)
Fixpoint run_all (bm : build) (n : network f32) (ops : list (net_op f32)) : option (network f32) :=
  match ops with
  | [] => Some n
  | op :: ops' => match run_op bm n op with Done (n', _) => run_all bm n' ops' | Panic _ => None end
  end.

Lemma run_all_reachable bm ops n n' : reachable bm n -> run_all bm n ops = Some n' -> reachable bm n'.
Proof.
  revert n; induction ops as [|op ops IH]; intros n R E; cbn [run_all] in E; [congruence|].
  destruct (run_op bm n op) as [(n1 & r)|] eqn:E1; [|discriminate]. eapply IH; [|exact E]. eapply reach_step; eassumption.
Qed.

Lemma run_all_built bm ops n n' : well_built bm n -> Forall good_op ops -> run_all bm n ops = Some n' -> well_built bm n'.
Proof.
  revert n; induction ops as [|op ops IH]; intros n R G E; cbn [run_all] in E; [congruence|]. inversion G; subst.
  destruct (run_op bm n op) as [(n1 & r)|] eqn:E1; [|discriminate]. eapply IH; [|assumption|exact E]. eapply built_step; eassumption.
Qed.

Lemma run_all_training bm ops n n' : training_built bm n -> Forall (fun op => good_op op /\ op <> OInference) ops -> run_all bm n ops = Some n' ->
  training_built bm n'.
Proof.
  revert n; induction ops as [|op ops IH]; intros n R G E; cbn [run_all] in E; [congruence|]. inversion G; subst.
  destruct (run_op bm n op) as [(n1 & r)|] eqn:E1; [|discriminate]. eapply IH; [|assumption|exact E].
  eapply train_step; try eassumption; tauto.
Qed.

Lemma run_all_params bm ops n n' : Forall runs_only ops -> run_all bm n ops = Some n' -> map params_of (layers n') = map params_of (layers n).
Proof.
  revert n; induction ops as [|op ops IH]; intros n G E; cbn [run_all] in E; [congruence|]. inversion G; subst.
  destruct (run_op bm n op) as [(n1 & r)|] eqn:E1; [|discriminate]. rewrite (IH _ H2 E). exact (proj1 (run_op_params _ _ _ _ _ E1 H1)).
Qed.

(** Examples run the history inside a [match], so that only the small facts about the network are computed. *)
Lemma computed {A} (o : option A) (P Q : A -> Prop) : (forall a, o = Some a -> P a) ->
  match o with Some a => Q a | None => False end -> exists a, o = Some a /\ P a /\ Q a.
Proof. destruct o as [a|]; [|tauto]. intros H Hq. exists a. auto. Qed.

(** Pooling, a fully connected layer and softmax, built in training mode and run once. *)
Definition d_image : tensor f32 := tn (mkShape 4 2 1) [1;8;3;-4; 5;2;-7;-6]%Z.
Definition d_ops : list (net_op f32) :=
  [OAdd d_mp; OAdd d_fc; OAdd d_cv; OAdd d_sm; OInfer d_image; OBackward (tn (mkShape 2 1 1) [1;2]%Z)].

Lemma d_ops_good : Forall (fun op => good_op op /\ op <> OInference) d_ops.
Proof.
  repeat (constructor; [split; [|discriminate]|]); [exact d_mp_ok|exact d_fc_ok|exact d_cv_ok|exact d_sm_ok|demo_wf|demo_wf|constructor].
Qed.

(** The two results of a network operation. *)
Definition panics {A} (r : res A) : bool := match r with Panic _ => true | Done _ => false end.
Definition answered {A} (r : res (A * result unit)) : option bool :=
  match r with Done (_, Ok _) => Some true | Done (_, Err _) => Some false | Panic _ => None end.

(** A decidable form of [stays_inside]. *)
Definition insideb (l : layer f32) : bool :=
  match l with
  | LConv l => forallb (fun k => (cv_stride l <? 2147483648) && (di (cv_input_shape l) <? 2147483648) && (dj (cv_input_shape l) <? 2147483648)
      && (di (tshape k) <? 2147483648) && (dj (tshape k) <? 2147483648)
      && (di (tshape k) <=? di (cv_output_shape l)) && (dj (tshape k) <=? dj (cv_output_shape l))) (cv_kernels l)
  | _ => true
  end.
Lemma insideb_inside ls : forallb insideb ls = true -> Forall stays_inside ls.
Proof.
  intros H. apply Forall_forall. intros l Hl. rewrite forallb_forall in H. specialize (H l Hl). destruct l; try exact I.
  cbn [insideb stays_inside] in *. apply Forall_forall. intros k Hk. rewrite forallb_forall in H. specialize (H k Hk).
  rewrite !andb_true_iff, !N.ltb_lt, !N.leb_le in H. unfold outgoing_fits. tauto.
Qed.

(** A 2x2 convolution of a 3x3 image into two channels, then pooling. *)
Definition d_pool2 : layer f32 := LMaxPool (mkMP (mkShape 2 2 2) (mkShape 2 2 1) (mkShape 1 1 2) 2 "pool" Inference []).
Lemma d_pool2_ok : layer_ok d_pool2.
Proof. repeat split; try reflexivity; try discriminate. Qed.
Definition d_cops : list (net_op f32) := [OAdd d_cv; OAdd d_pool2; OInfer (tn (mkShape 3 3 1) [1;2;3;4;5;6;7;8;9]%Z)].

Lemma d_cops_good : Forall (fun op => good_op op /\ op <> OInference) d_cops.
Proof.
  constructor; [split; [exact d_cv_ok|discriminate]|]. constructor; [split; [exact d_pool2_ok|discriminate]|].
  constructor; [split; [demo_wf|discriminate]|constructor].
Qed.
