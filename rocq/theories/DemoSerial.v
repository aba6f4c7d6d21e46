(** * Concrete files for the examples beside the theorems *)
From Coq Require Import Permutation.
From Coq.Strings Require Import Byte.
From Verif Require Import Base Arith Helper Tensor Network Bincode Serial Float32 Spec SpecLayer SpecNet SpecSerial Loops TensorFacts LayerFacts NetFacts.
From Verif Require Import ProofsSerial Demo DemoNet.
Local Open Scope string_scope.
Local Open Scope N_scope.

Definition no_files : filesystem := fun _ => None.

(** Quiet NaNs with payloads and either sign, a signalling NaN, both zeros, an infinity and the least subnormal. *)
Definition d_odd : tensor f32 :=
  mkTensor (mkStride 1 7 7) (mkShape 7 1 1) (map fof_bits [2143289345; 4290772993; 2139095041; 2147483648; 0; 4286578688; 1]).

(** Shape 2x2x1, one element. *)
Definition d_short : tensor f32 := mkTensor (mkStride 1 2 4) (mkShape 2 2 1) (map fof_bits [0]).

Definition backwards : hash_order := {| order := fun _ _ l => rev l |}.
Lemma backwards_valid : valid_order backwards.
Proof. intros n K l. cbn. symmetry. apply Permutation_rev. Qed.

(** A 4x4 image, convolved to 2x2, pooled to a column of two, then fully connected and softmax. *)
Definition d_cv5 : layer f32 :=
  LConv (mkConv [tn (mkShape 2 2 1) [1;0;0;1]%Z] [tn (mkShape 1 1 1) [1]%Z] [] [] 2 dot (mkShape 4 4 1) (mkShape 2 2 1) "conv" Inference).
Definition d_mp1 : layer f32 := LMaxPool (mkMP (mkShape 2 2 1) (mkShape 1 2 1) (mkShape 2 1 1) 1 "pool1" Inference []).
Definition d_four : list (net_op f32) := [OAdd d_cv5; OAdd d_mp1; OAdd d_fc; OAdd d_sm].

Lemma d_cv5_ok : layer_ok d_cv5.
Proof.
  exists (mkShape 2 2 1). split; [repeat split; reflexivity|]. split.
  { repeat constructor; try reflexivity; apply wfb_wf; vm_compute; reflexivity. }
  split; [reflexivity|]. split; [vm_compute; discriminate|]. split.
  { repeat constructor; try reflexivity; try (vm_compute; discriminate); apply wfb_wf; vm_compute; reflexivity. }
  split; [repeat split; reflexivity|]. split; [repeat split; reflexivity|].
  split; [|discriminate]. intros ch H. cbn in H. repeat split; try reflexivity; try discriminate. exact H.
Qed.
Lemma d_mp1_ok : layer_ok d_mp1.
Proof. repeat split; try reflexivity; try discriminate. Qed.

Lemma storable_demo (l : layer f32) : layer_ok l -> typed_layer l -> match l with LConv l => cv_kernels l <> [] | _ => True end -> storable l.
Proof. intros H1 H2 H3. split; [exact H1|split; [exact H2|exact H3]]. Qed.

Lemma d_storable : storable d_cv /\ storable d_fc /\ storable d_mp /\ storable d_sm.
Proof.
  split; [apply storable_demo; [exact d_cv_ok|repeat split; reflexivity|discriminate]|].
  split; [apply storable_demo; [exact d_fc_ok|repeat split; reflexivity|exact I]|].
  split; [apply storable_demo; [exact d_mp_ok|repeat split; reflexivity|exact I]|].
  apply storable_demo; [exact d_sm_ok|repeat split; reflexivity|exact I].
Qed.
Lemma d_cv5_storable : storable d_cv5.
Proof. apply storable_demo; [exact d_cv5_ok|repeat split; reflexivity|discriminate]. Qed.
Lemma d_mp1_storable : storable d_mp1.
Proof. apply storable_demo; [exact d_mp1_ok|repeat split; reflexivity|exact I]. Qed.

Lemma storable_same (l l' : layer f32) : params_of l' = params_of l -> get_name l' = get_name l -> layer_ok l' -> storable l -> storable l'.
Proof.
  intros P N O (_ & (U & L & Ty) & NE). split; [exact O|]. unfold typed_layer. rewrite N.
  destruct l, l'; cbn in P; try discriminate; injection P; intros; split; try (split; [exact U|split; [exact L|]]); try exact I; subst; try congruence; try (destruct l, l0; cbn in *; subst; exact Ty).
Qed.

Lemma adds_storable ls n n' : well_built Debug n -> Forall storable (layers n) -> Forall storable ls ->
  run_all Debug n (map OAdd ls) = Some n' -> well_built Debug n' /\ Forall storable (layers n').
Proof.
  revert n; induction ls as [|l ls IH]; intros n B S H E; cbn [map run_all] in E; [injection E as <-; auto|]. inversion H as [|? ? Hl Hls]; subst.
  destruct (run_op Debug n (OAdd l)) as [(n1 & r)|] eqn:E1; [|discriminate].
  assert (B1 : well_built Debug n1) by (apply (built_step Debug n (OAdd l) n1 r B); [exact (proj1 Hl)|exact E1]).
  apply (IH n1); try assumption. pose proof (NetRun.built_ok _ _ (ProofsFloat.f32_relu_agrees demo_env) B1) as (_ & O & _).
  cbn [run_op] in E1. apply add_layer_done in E1. destruct E1 as [E1|(_ & -> & _)]; [|exact S].
  destruct E1 as (_ & _ & l1 & ss & L & I & _). rewrite L in *. apply Forall_app. split; [exact S|]. constructor; [|constructor].
  apply Forall_app in O. destruct O as (_ & O). inversion O; subst. injection I as P N _. eapply storable_same; eassumption.
Qed.

Lemma d_four_stored n : run_all Debug (network_new Inference) d_four = Some n -> well_built Debug n /\ Forall storable (layers n).
Proof.
  apply (adds_storable [d_cv5; d_mp1; d_fc; d_sm]); [apply built_new|constructor|]. destruct d_storable as (_ & Hf & _ & Hs).
  constructor; [exact d_cv5_storable|]. constructor; [exact d_mp1_storable|]. constructor; [exact Hf|]. constructor; [exact Hs|constructor].
Qed.

(** Two layers that do not fit together, in one file. *)
Definition d_mismatch : serialized_network := [get_serialized d_fc; get_serialized d_fc3].
Lemma d_half_loaded : exists fs name (n : network f32) n' m,
  network_load Debug n fs name = Done (n', Err m) /\ layers n = [] /\ layers n' <> [].
Proof.
  exists (fs_set no_files "net" (enc_network d_mismatch)), "net", (network_new Inference).
  assert (C : match network_load Debug (network_new Inference) (fs_set no_files "net" (enc_network d_mismatch)) "net" with
              | Done (n', Err _) => match layers n' with [] => False | _ => True end | _ => False end) by (vm_compute; exact I).
  destruct (network_load _ _ _ _) as [(n' & [u|m])|]; try contradiction. exists n', m. split; [reflexivity|]. split; [reflexivity|].
  intros E. rewrite E in C. exact C.
Qed.

(** A fully connected layer whose three entries are empty. *)
Definition d_corrupt : serialized_network := [SerialFullyConnectedLayer [(FKWeights, []); (FKBias, []); (FKName, [])]].

(** A fully connected layer without its bias entry, after a good one. *)
Definition d_incomplete : serialized_network :=
  [get_serialized d_fc; SerialFullyConnectedLayer [(FKWeights, enc_tensor (tn (mkShape 1 2 1) [1;2]%Z)); (FKName, enc_string "short")]].
Lemma d_incomplete_loadable : Forall (loadable (F := f32)) d_incomplete.
Proof.
  assert (A : allocatable (mkShape 2 2 1) /\ allocatable (mkShape 2 1 1) /\ allocatable (mkShape 1 2 1)) by (repeat split; reflexivity).
  destruct A as (A1 & A2 & A3).
  constructor; [|constructor; [|constructor]]; (split; [|split]); intros b E; vm_compute in E; try discriminate E; injection E as <-;
    eexists; (split; [vm_compute; reflexivity|]); assumption || exact I.
Qed.

(** [ConvolutionalLayer::empty()] *)
Definition d_no_kernels : layer f32 :=
  LConv (mkConv [] [] [] [] 1 (mkTensor (mkStride 1 1 1) (mkShape 1 1 1) [fzero]) (mkShape 1 1 1) (mkShape 1 1 1) "Empty convolutional layer" Inference).
