(** * Serialized layers and networks: what loading gives back *)
From Coq Require Import ZifyBool ZifyNat ZifyN Permutation.
From Coq.Strings Require Import Byte.
From Verif Require Import Base Arith Helper Tensor Convolution Network Bincode Serial Spec SpecLayer SpecNet SpecSerial.
From Verif Require Import Loops TensorFacts OpsFacts ProofsTensor ProofsConv LayerFacts NetFacts NetRun SerialFacts.
Ltac Zify.zify_post_hook ::= Z.div_mod_to_equations.
Local Open Scope list_scope.

(** ** The four key types *)
Lemma cv_keqb a b : reflect (a = b) (cv_key_eqb a b). Proof. destruct a, b; constructor; congruence. Qed.
Lemma fc_keqb a b : reflect (a = b) (fc_key_eqb a b). Proof. destruct a, b; constructor; congruence. Qed.
Lemma mp_keqb a b : reflect (a = b) (mp_key_eqb a b). Proof. destruct a, b; constructor; congruence. Qed.
Lemma sm_keqb a b : reflect (a = b) (sm_key_eqb a b). Proof. destruct a, b; constructor; congruence. Qed.
Lemma cv_kof k : cv_key_of (cv_key_tag k) = Some k. Proof. destruct k; reflexivity. Qed.
Lemma fc_kof k : fc_key_of (fc_key_tag k) = Some k. Proof. destruct k; reflexivity. Qed.
Lemma mp_kof k : mp_key_of (mp_key_tag k) = Some k. Proof. destruct k; reflexivity. Qed.
Lemma sm_kof k : sm_key_of (sm_key_tag k) = Some k. Proof. destruct k; reflexivity. Qed.
Lemma cv_ktag k : cv_key_tag k < W32. Proof. destruct k; reflexivity. Qed.
Lemma fc_ktag k : fc_key_tag k < W32. Proof. destruct k; reflexivity. Qed.
Lemma mp_ktag k : mp_key_tag k < W32. Proof. destruct k; reflexivity. Qed.
Lemma sm_ktag k : sm_key_tag k < W32. Proof. destruct k; reflexivity. Qed.

Lemma contains_get {K} (keqb : K -> K -> bool) m k v : hm_get keqb m k = Some v -> hm_contains keqb m k = true.
Proof. unfold hm_contains. intros ->. reflexivity. Qed.

Lemma get_expect_some {K} (keqb : K -> K -> bool) m k v : hm_get keqb m k = Some v -> get_expect keqb m k = Done v.
Proof. unfold get_expect. intros ->. reflexivity. Qed.

Lemma expect_codec {A} (p : parser A) b a : codec p b a -> deserialize_expect p b = Done a.
Proof. intros H. unfold deserialize_expect. rewrite (codec_deserialize_nil _ _ _ H). reflexivity. Qed.

Ltac fetch P keqb_spec :=
  erewrite (hm_get_perm _ keqb_spec _ _ _ _ P); [reflexivity|repeat constructor; cbn; intuition discriminate|cbn; tauto].

Section Scalars.
Context {F : Type} {AR : Arith F} {BT : Bits F}.
Notation T := (tensor F).
Hypothesis BO : bits_ok (F := F).

Lemma wf_typed (t : T) : wf t -> typed_tensor t.
Proof.
  intros (A & S & L). pose proof A as (A1 & A2 & A3 & A4 & A5). unfold typed_tensor. rewrite S. cbn [si sj sk].
  repeat split; try assumption; try reflexivity. rewrite L. unfold W32, W64 in *. lia.
Qed.

Lemma shaped_typed (t : T) s : shaped t s -> typed_tensor t.
Proof. intros (H & _). apply wf_typed, H. Qed.

(** ** Loading what [get_serialized] stored *)
Lemma fc_load_perm bm l0 l m :
  typed_tensor (fc_weights l) -> typed_tensor (fc_bias l) -> rust_string (fc_name l) -> len (list_byte_of_string (fc_name l)) < W64 ->
  Permutation m [(FKWeights, enc_tensor (fc_weights l)); (FKBias, enc_tensor (fc_bias l)); (FKName, enc_string (fc_name l))] ->
  fc_load_data bm l0 m = fc_fill_from_state bm l0 (fc_weights l) (fc_bias l) (fc_name l).
Proof.
  intros Tw Tb U L P. unfold fc_load_data.
  assert (G1 : hm_get fc_key_eqb m FKWeights = Some (enc_tensor (fc_weights l))) by fetch P fc_keqb.
  assert (G2 : hm_get fc_key_eqb m FKBias = Some (enc_tensor (fc_bias l))) by fetch P fc_keqb.
  assert (G3 : hm_get fc_key_eqb m FKName = Some (enc_string (fc_name l))) by fetch P fc_keqb.
  rewrite !(contains_get _ _ _ _ G1), !(contains_get _ _ _ _ G2), !(contains_get _ _ _ _ G3). cbn [negb].
  rewrite !(get_expect_some _ _ _ _ G1), !(get_expect_some _ _ _ _ G2), !(get_expect_some _ _ _ _ G3). cbn [bind].
  rewrite (expect_codec _ _ _ (codec_tensor BO _ Tw)). cbn [bind]. rewrite (expect_codec _ _ _ (codec_tensor BO _ Tb)). cbn [bind].
  rewrite (expect_codec _ _ _ (codec_string _ U L)). reflexivity.
Qed.

Lemma cv_load_perm bm l0 (l : conv_layer F) m :
  len (cv_kernels l) < W64 -> Forall typed_tensor (cv_kernels l) -> len (cv_biases l) < W64 -> Forall typed_tensor (cv_biases l) ->
  u32_shape (cv_input_shape l) -> cv_stride l < W32 -> rust_string (cv_name l) -> len (list_byte_of_string (cv_name l)) < W64 ->
  Permutation m [(KKernels, enc_tensors (cv_kernels l)); (KBiases, enc_tensors (cv_biases l)); (KInputShape, enc_shape (cv_input_shape l));
                 (KStride, enc_u32 (cv_stride l)); (KName, enc_string (cv_name l))] ->
  cv_load_data bm l0 m = cv_fill_from_state bm l0 (cv_kernels l) (cv_biases l) (cv_input_shape l) (cv_stride l) (cv_name l).
Proof.
  intros Lk Tk Lb Tb I S U L P. unfold cv_load_data.
  assert (G1 : hm_get cv_key_eqb m KKernels = Some (enc_tensors (cv_kernels l))) by fetch P cv_keqb.
  assert (G2 : hm_get cv_key_eqb m KBiases = Some (enc_tensors (cv_biases l))) by fetch P cv_keqb.
  assert (G3 : hm_get cv_key_eqb m KInputShape = Some (enc_shape (cv_input_shape l))) by fetch P cv_keqb.
  assert (G4 : hm_get cv_key_eqb m KStride = Some (enc_u32 (cv_stride l))) by fetch P cv_keqb.
  assert (G5 : hm_get cv_key_eqb m KName = Some (enc_string (cv_name l))) by fetch P cv_keqb.
  rewrite !(contains_get _ _ _ _ G1), !(contains_get _ _ _ _ G2), !(contains_get _ _ _ _ G3), !(contains_get _ _ _ _ G4), !(contains_get _ _ _ _ G5).
  cbn [negb].
  rewrite !(get_expect_some _ _ _ _ G1), !(get_expect_some _ _ _ _ G2), !(get_expect_some _ _ _ _ G3), !(get_expect_some _ _ _ _ G4),
    !(get_expect_some _ _ _ _ G5). cbn [bind].
  rewrite (expect_codec _ _ _ (codec_tensors BO _ Lk Tk)). cbn [bind]. rewrite (expect_codec _ _ _ (codec_tensors BO _ Lb Tb)). cbn [bind].
  rewrite (expect_codec _ _ _ (codec_shape _ I)). cbn [bind]. rewrite (expect_codec _ _ _ (codec_u32 _ S)). cbn [bind].
  rewrite (expect_codec _ _ _ (codec_string _ U L)). reflexivity.
Qed.

Lemma mp_load_perm bm l0 l m :
  u32_shape (mp_input_shape l) -> u32_shape (mp_mask_shape l) -> mp_stride l < W32 -> rust_string (mp_name l) -> len (list_byte_of_string (mp_name l)) < W64 ->
  Permutation m [(MKMaskShape, enc_shape (mp_mask_shape l)); (MKInputShape, enc_shape (mp_input_shape l)); (MKStride, enc_u32 (mp_stride l));
                 (MKName, enc_string (mp_name l))] ->
  mp_load_data bm l0 m = mp_fill_from_state bm l0 (mp_input_shape l) (mp_mask_shape l) (mp_stride l) (mp_name l).
Proof.
  intros I M S U L P. unfold mp_load_data.
  assert (G1 : hm_get mp_key_eqb m MKMaskShape = Some (enc_shape (mp_mask_shape l))) by fetch P mp_keqb.
  assert (G2 : hm_get mp_key_eqb m MKInputShape = Some (enc_shape (mp_input_shape l))) by fetch P mp_keqb.
  assert (G3 : hm_get mp_key_eqb m MKStride = Some (enc_u32 (mp_stride l))) by fetch P mp_keqb.
  assert (G4 : hm_get mp_key_eqb m MKName = Some (enc_string (mp_name l))) by fetch P mp_keqb.
  rewrite !(contains_get _ _ _ _ G1), !(contains_get _ _ _ _ G2), !(contains_get _ _ _ _ G3), !(contains_get _ _ _ _ G4).
  cbn [negb].
  rewrite !(get_expect_some _ _ _ _ G1), !(get_expect_some _ _ _ _ G2), !(get_expect_some _ _ _ _ G3), !(get_expect_some _ _ _ _ G4). cbn [bind].
  rewrite (expect_codec _ _ _ (codec_shape _ M)). cbn [bind]. rewrite (expect_codec _ _ _ (codec_shape _ I)). cbn [bind].
  rewrite (expect_codec _ _ _ (codec_u32 _ S)). cbn [bind].
  rewrite (expect_codec _ _ _ (codec_string _ U L)). reflexivity.
Qed.

Lemma sm_load_perm (l0 l : sm_layer F) m :
  u32_shape (sm_shape l) -> rust_string (sm_name l) -> len (list_byte_of_string (sm_name l)) < W64 ->
  Permutation m [(SKShape, enc_shape (sm_shape l)); (SKName, enc_string (sm_name l))] ->
  sm_load_data l0 m = Done (mkSM (sm_shape l) (sm_name l) (sm_intermediate1 l0) (sm_intermediate2 l0) (sm_run_state l0), Ok tt).
Proof.
  intros I U L P. unfold sm_load_data.
  assert (G1 : hm_get sm_key_eqb m SKShape = Some (enc_shape (sm_shape l))) by fetch P sm_keqb.
  assert (G2 : hm_get sm_key_eqb m SKName = Some (enc_string (sm_name l))) by fetch P sm_keqb.
  rewrite !(contains_get _ _ _ _ G1), !(contains_get _ _ _ _ G2). cbn [negb].
  rewrite !(get_expect_some _ _ _ _ G1), !(get_expect_some _ _ _ _ G2). cbn [bind].
  rewrite (expect_codec _ _ _ (codec_shape _ I)). cbn [bind].
  rewrite (expect_codec _ _ _ (codec_string _ U L)). reflexivity.
Qed.

(** ** The shape test and the output extents *)
Lemma fits_tiles bm im ks stride n0 n1 :
  tiles (di im) (di ks) stride n0 -> tiles (dj im) (dj ks) stride n1 -> n0 < W32 -> n1 < W32 ->
  does_kernel_stride_fit_image bm im ks stride = Done true /\ get_convolution_dim_fit bm im ks stride = Done (n0, n1).
Proof.
  intros (S & E0 & M0 & ->) (_ & E1 & M1 & ->) B0 B1. unfold does_kernel_stride_fit_image, get_convolution_dim_fit.
  assert (forall a, u32_rem a stride = Done (a mod stride)) as Er by (intros; unfold u32_rem; destruct (N.eqb_spec stride 0); [contradiction|reflexivity]).
  assert (forall a, u32_div a stride = Done (a / stride)) as Ed by (intros; unfold u32_div; destruct (N.eqb_spec stride 0); [contradiction|reflexivity]).
  repeat first [rewrite u32_sub_done by assumption | rewrite u32_add_done by assumption | rewrite Er | rewrite Ed
               | rewrite M0 | rewrite M1 | progress cbn [bind negb N.eqb]].
  split; reflexivity.
Qed.

(** ** C52 *)
Lemma load_layer bm h n (l : layer F) : valid_order h -> storable l ->
  exists e l', empty_like bm l = Done e /\ load_from_serialized bm e (order_layer h n (get_serialized l)) = Done (l', Ok tt)
    /\ params_of l' = params_of l /\ get_name l' = get_name l /\ get_run_mode l' = Inference /\ layer_ok l'.
Proof.
  intros V (Ok & (U & L & Ty) & Ne). destruct l as [l|l|l|l]; cbn [layer_ok get_name empty_like] in *.
  - destruct Ok as (ks & A & Hk & Ek & Lb & Hb & Ai & Ao & C & _). destruct Ty as (Ts & Tb).
    unfold cv_empty. rewrite tensor_empty_done. cbn [bind]. do 2 eexists. split; [reflexivity|].
    cbn [load_from_serialized cv_load get_serialized order_layer]. unfold cv_get_serialized. cbn [hm_insert order_layer cv_load].
    pose proof Ao as (O1 & O2 & O3 & _).
    rewrite (cv_load_perm bm _ l); [| | | |eapply Forall_impl; [|exact Hb]; intros b (Wb & _); apply wf_typed, Wb| | | | |apply V];
      [|rewrite <- Ek; unfold W32, W64 in *; lia|eapply Forall_impl; [|exact Hk]; intros k Hk'; eapply shaped_typed, Hk'|assumption
       |apply u32_shape_alloc; assumption|assumption|assumption|assumption].
    assert (D0 : 0 < dk (cv_output_shape l)) by (rewrite Ek; destruct (cv_kernels l); [congruence|unfold len; cbn [length]; lia]).
    destruct (C 0 D0) as (K & T0 & T1 & _).
    destruct (fits_tiles bm _ _ _ _ _ T0 T1 O1 O2) as (F1 & F2). unfold cv_fill_from_state.
    destruct (cv_kernels l) as [|k0 kr] eqn:E; [congruence|]. rewrite <- E in *.
    assert (S0 : get_shape k0 = ks) by (rewrite E in Hk; inversion Hk as [|? ? (_ & S0) _]; exact S0).
    rewrite S0. replace (forallb _ (cv_kernels l)) with true.
    2:{ symmetry. apply forallb_forall. intros x Hx. rewrite Forall_forall in Hk. destruct (Hk x Hx) as (_ & Sx).
        unfold get_shape. rewrite Sx. apply shape_eqb_refl. }
    cbn [negb]. rewrite F1. cbn [bind negb]. rewrite F2. cbn [bind]. unfold lift_load. cbn [bind].
    assert (Eo : mkShape (di (cv_output_shape l)) (dj (cv_output_shape l)) (as_u32 (len (cv_kernels l))) = cv_output_shape l).
    { rewrite <- Ek. unfold as_u32. rewrite N.mod_small by exact O3. destruct (cv_output_shape l); reflexivity. }
    rewrite Eo. split; [reflexivity|]. cbn [params_of get_name get_run_mode cv_kernels cv_biases cv_stride cv_input_shape cv_output_shape cv_name cv_run_state].
    do 3 (split; [reflexivity|]). exists ks. split; [exact A|]. unfold conv_layer_ok. cbn [cv_kernels cv_biases cv_stride cv_input_shape cv_output_shape cv_run_state].
    do 7 (split; [assumption|]). discriminate.
  - destruct Ok as (m & k & Hw & Hb & _).
    assert (Ee : exists e : fc_layer F, fc_empty bm = Done e /\ fc_run_state e = Inference)
      by (unfold fc_empty; rewrite tensor_empty_done; cbn [bind]; eexists; split; reflexivity).
    destruct Ee as (e & Ee & Re). rewrite Ee. cbn [bind]. exists (LFC e).
    destruct (fc_update_ok bm (mkFC (fc_weights l) (fc_weights_gradients e) (fc_weights_gradients_intermediate e)
      (fc_bias l) (fc_bias_gradients e) (fc_relu_mask e) (fc_name l) (fc_run_state e)) m k) as (l1 & E1 & H1 & W1 & B1 & N1 & R1); [exact Hw|exact Hb|].
    cbn [fc_weights fc_bias fc_name fc_run_state] in W1, B1, N1, R1. exists (LFC l1). split; [reflexivity|].
    cbn [load_from_serialized fc_load get_serialized order_layer]. unfold fc_get_serialized. cbn [hm_insert order_layer fc_load].
    rewrite (fc_load_perm bm _ l); [|eapply shaped_typed, Hw|eapply shaped_typed, Hb|assumption|assumption|apply V].
    unfold fc_fill_from_state, get_shape. rewrite (proj2 Hw), (proj2 Hb). cbn [di dj dk]. rewrite !N.eqb_refl. cbn [negb].
    rewrite E1. cbn [bind]. unfold lift_load. cbn [bind]. split; [reflexivity|]. cbn [params_of get_name get_run_mode]. rewrite W1, B1, N1, R1.
    do 3 (split; [first [reflexivity|exact Re]|]). exists m, k. exact H1.
  - destruct Ok as (Ai & Ao & (K & T0 & T1) & _). destruct Ty as (Ts & Tm). pose proof Ao as (O1 & O2 & O3 & _).
    do 2 eexists. split; [reflexivity|].
    cbn [load_from_serialized mp_load get_serialized order_layer]. unfold mp_get_serialized. cbn [hm_insert order_layer mp_load].
    rewrite (mp_load_perm bm _ l); [|apply u32_shape_alloc; assumption|assumption|assumption|assumption|assumption|apply V].
    destruct (fits_tiles bm _ _ _ _ _ T0 T1 O1 O2) as (F1 & F2). unfold mp_fill_from_state. rewrite F1. cbn [bind negb]. rewrite F2. cbn [bind].
    unfold lift_load. cbn [bind]. split; [reflexivity|].
    assert (Eo : mkShape (di (mp_output_shape l)) (dj (mp_output_shape l)) (dk (mp_input_shape l)) = mp_output_shape l)
      by (rewrite <- K; destruct (mp_output_shape l); reflexivity).
    rewrite Eo. cbn [params_of get_name get_run_mode mp_empty mp_input_shape mp_mask_shape mp_output_shape mp_stride mp_name mp_run_state].
    do 3 (split; [reflexivity|]). unfold layer_ok, mp_ok. cbn [mp_input_shape mp_mask_shape mp_output_shape mp_stride mp_run_state].
    split; [assumption|]. split; [assumption|]. split; [exact (conj K (conj T0 T1))|discriminate].
  - destruct Ok as (A & _).
    unfold sm_empty. rewrite tensor_empty_done. cbn [bind]. do 2 eexists. split; [reflexivity|].
    cbn [load_from_serialized sm_load get_serialized order_layer]. unfold sm_get_serialized. cbn [hm_insert order_layer sm_load].
    rewrite (sm_load_perm _ l); [|apply u32_shape_alloc; assumption|assumption|assumption|apply V].
    unfold lift_load. cbn [bind]. split; [reflexivity|]. cbn. do 3 (split; [reflexivity|]). split; [exact A|discriminate].
Qed.
End Scalars.
