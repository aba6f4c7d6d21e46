(** * A network with non-negative weights *)
From Coq Require Import Reals Lra ZifyBool ZifyNat ZifyN.
From Flocq Require Import Core IEEE754.Binary.
From Verif Require Import Base Arith Helper Tensor Network Bincode Serial Spec SpecLayer SpecNet Float32 SpecError Loops NetFacts TensorFacts ProofsTensor SpecMono ProofsMono Demo DemoNet.
Local Open Scope N_scope.

Definition positive_b (x : f32) : bool := fin x && negb (Bsign 24 128 x).

Lemma positive_bits x : positive_b x = true -> positive x.
Proof.
  intros H. apply andb_true_iff in H. destruct H as (F & S). split; [exact F|]. pose proof (sign_real x) as R.
  destruct (Bsign 24 128 x); [discriminate|exact R].
Qed.

Definition m_fc : layer f32 := LFC (mkFC (tn (mkShape 2 2 1) [1;2;0;4]%Z) dot dot (tn (mkShape 2 1 1) [1;-90]%Z) dot dot "dense" Inference).
Lemma m_fc_ok : layer_ok m_fc.
Proof. exists 2, 2. split; [split; [demo_wf|reflexivity]|]. split; [split; [demo_wf|reflexivity]|discriminate]. Qed.

Definition m_cv : layer f32 :=
  LConv (mkConv [tn (mkShape 3 3 1) [1;0;0;0;1;0;0;0;1]%Z] [tn (mkShape 1 1 1) [-2]%Z] [] [] 1 dot (mkShape 6 4 1) (mkShape 4 2 1) "conv" Inference).
Lemma m_cv_ok : layer_ok m_cv.
Proof.
  exists (mkShape 3 3 1). split; [repeat split; reflexivity|]. split.
  { repeat constructor; try reflexivity; apply wfb_wf; vm_compute; reflexivity. }
  split; [reflexivity|]. split; [vm_compute; discriminate|]. split.
  { repeat constructor; try reflexivity; try (vm_compute; discriminate); apply wfb_wf; vm_compute; reflexivity. }
  split; [repeat split; reflexivity|]. split; [repeat split; reflexivity|].
  split; [|discriminate]. intros ch H. cbn in H. repeat split; try reflexivity; try discriminate. exact H.
Qed.

(** Convolution, pooling and a fully connected layer. *)
Definition m_layers : list (layer f32) := [m_cv; d_mp; m_fc].

(** Weights 2^127 followed by a weight 0. *)
Definition m_huge : layer f32 := LFC (mkFC (tn (mkShape 1 1 1) [2 ^ 127]%Z) dot dot (tn (mkShape 1 1 1) [0]%Z) dot dot "huge" Inference).
Definition m_zero : layer f32 := LFC (mkFC (tn (mkShape 1 1 1) [0]%Z) dot dot (tn (mkShape 1 1 1) [5]%Z) dot dot "zero" Inference).
Lemma m_huge_ok : layer_ok m_huge.
Proof. exists 1, 1. split; [split; [demo_wf|reflexivity]|]. split; [split; [demo_wf|reflexivity]|discriminate]. Qed.
Lemma m_zero_ok : layer_ok m_zero.
Proof. exists 1, 1. split; [split; [demo_wf|reflexivity]|]. split; [split; [demo_wf|reflexivity]|discriminate]. Qed.

(** Layers added without a refusal keep their parameters. *)
Lemma added_params bm ls : forall n n' : network f32, run_all bm n (map OAdd ls) = Some n' ->
  length (layers n') = (length (layers n) + length ls)%nat -> map params_of (layers n') = (map params_of (layers n) ++ map params_of ls)%list.
Proof.
  assert (G : forall l (n n' : network f32) r, run_op bm n (OAdd l) = Done (n', r) ->
    map params_of (layers n') = (map params_of (layers n) ++ [params_of l])%list \/ n' = n).
  { intros l n n' r E. cbn [run_op] in E. apply add_layer_done in E. destruct E as [(_ & _ & l1 & ss & L & I & _)|(_ & -> & _)]; [left|right; reflexivity].
    rewrite L, map_app. cbn [map]. apply (f_equal (fun x => fst (fst x))) in I. cbn in I. congruence. }
  assert (Up : forall ls (n n' : network f32), run_all bm n (map OAdd ls) = Some n' -> (length (layers n') <= length (layers n) + length ls)%nat).
  { induction ls0 as [|l ls0 IH]; intros n n' E; cbn [map run_all length] in *; [injection E as <-; lia|].
    destruct (run_op bm n (OAdd l)) as [(n1 & r)|] eqn:E1; [|discriminate E]. apply IH in E. destruct (G _ _ _ _ E1) as [P| ->]; [|lia].
    apply (f_equal (@length _)) in P. rewrite app_length, !map_length in P. cbn [length] in P. lia. }
  induction ls as [|l ls IH]; intros n n' E L; cbn [map run_all length] in *; [injection E as <-; rewrite app_nil_r; reflexivity|].
  destruct (run_op bm n (OAdd l)) as [(n1 & r)|] eqn:E1; [|discriminate E]. pose proof (Up _ _ _ E) as U.
  destruct (G _ _ _ _ E1) as [P| ->]; [|lia].
  pose proof (f_equal (@length _) P) as PL. rewrite app_length, !map_length in PL. cbn [length] in PL.
  rewrite (IH n1 n' E) by lia. rewrite P, <- app_assoc. reflexivity.
Qed.

Lemma in_list_positive e (t : tensor f32) : wfb t = true -> forallb positive_b (data t) = true ->
  forall i j k, in_shape (tshape t) i j k -> positive (@at_ f32 (f32_arith e) t i j k).
Proof.
  intros W H i j k Hin. rewrite forallb_forall in H. apply positive_bits, H. unfold at_. apply nth_In.
  apply wfb_wf in W. destruct W as (_ & _ & L). pose proof (flat_lt _ _ _ _ Hin). unfold len in L. lia.
Qed.

Lemma fin_at e (t : tensor f32) : wfb t = true -> forallb (Binary.is_finite 24 128) (data t) = true ->
  forall i j k, in_shape (tshape t) i j k -> fin (@at_ f32 (f32_arith e) t i j k) = true.
Proof.
  intros W H i j k Hin. rewrite forallb_forall in H. apply H. unfold at_. apply nth_In.
  apply wfb_wf in W. destruct W as (_ & _ & L). pose proof (flat_lt _ _ _ _ Hin). unfold len in L. lia.
Qed.

Lemma dense_positive bm (l : fc_layer f32) m n : wfb (fc_weights l) = true -> tshape (fc_weights l) = mkShape m n 1 ->
  wfb (fc_bias l) = true -> tshape (fc_bias l) = mkShape m 1 1 ->
  forallb positive_b (data (fc_weights l)) = true -> forallb (Binary.is_finite 24 128) (data (fc_bias l)) = true ->
  positive_layer demo_env bm (params_of (LFC l)).
Proof.
  intros W1 S1 W2 S2 P1 P2. cbn [params_of]. pose proof (demo_holds bm _ W1) as H1. pose proof (demo_holds bm _ W2) as H2. rewrite S1 in H1. rewrite S2 in H2.
  refine (PosFC demo_env bm _ _ m n _ _ H1 H2 _ _).
  - intros i p Hi Hp. apply in_list_positive; [exact W1|exact P1|]. rewrite S1. repeat split; cbn [di dj dk]; lia.
  - intros i Hi. apply fin_at; [exact W2|exact P2|]. rewrite S2. repeat split; cbn [di dj dk]; lia.
Qed.

Lemma m_layers_positive bm : Forall (positive_layer demo_env bm) (map params_of m_layers).
Proof.
  constructor; [|constructor; [|constructor; [|constructor]]].
  - pose (t := tn (mkShape 3 3 1) [1;0;0;0;1;0;0;0;1]%Z). assert (H : holds bm t (mkShape 3 3 1) (at_ t)) by (apply (demo_holds bm t); vm_compute; reflexivity).
    refine (PosConv demo_env bm _ _ _ _ _ (mkShape 3 3 1) (fun _ => at_ t) (fun _ => at_ (tn (mkShape 1 1 1) [-2]%Z) 0 0 0) _ _ _ _).
    + intros n u E. assert (Z : n = 0). { destruct (N.to_nat n) as [|[|]] eqn:En; cbn in E; try discriminate E. lia. }
      subst n. injection E as <-. exact H.
    + intros n b E. assert (Z : n = 0). { destruct (N.to_nat n) as [|[|]] eqn:En; cbn in E; try discriminate E. lia. }
      subst n. injection E as <-. destruct bm; reflexivity.
    + intros k i j c _ Hin. apply in_list_positive; [vm_compute; reflexivity|vm_compute; reflexivity|exact Hin].
    + intros k _. reflexivity.
  - constructor; reflexivity.
  - apply dense_positive with (m := 2) (n := 2); vm_compute; reflexivity.
Qed.

Lemma m_overflow_positive bm : Forall (positive_layer demo_env bm) (map params_of [m_huge; m_zero]).
Proof. constructor; [|constructor; [|constructor]]; apply dense_positive with (m := 1) (n := 1); vm_compute; reflexivity. Qed.

Definition m_small : tensor f32 := tn (mkShape 6 4 1) [1;2;3;4;5;6; 0;1;2;3;4;5; 7;0;1;9;2;3; 4;8;1;2;0;5]%Z.
Definition m_large : tensor f32 := tn (mkShape 6 4 1) [1;9;3;4;5;8; 0;1;5;3;4;5; 7;0;2;9;9;3; 4;8;1;2;0;6]%Z.
