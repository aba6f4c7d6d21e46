(** * Proofs for C92: files not written by this program *)
From Coq Require Import ZifyBool ZifyNat ZifyN Permutation.
From Coq.Strings Require Import Byte.
From Verif Require Import Base Arith Helper Tensor Convolution Network Bincode Serial Float32 Spec SpecLayer SpecNet SpecSerial.
From Verif Require Import Loops TensorFacts OpsFacts ProofsTensor LayerFacts NetFacts NetRun SerialFacts SerialLayer ProofsSerial.
Ltac Zify.zify_post_hook ::= Z.div_mod_to_equations.
Local Open Scope list_scope.

(** ** What a decoder returns fits its types *)
Lemma dec_u64_bound b n rest : dec_u64 b = Some (n, rest) -> n < W64.
Proof.
  unfold dec_u64, pbind. destruct (take 8 b) as [(x & r)|] eqn:E; [|discriminate]. intros H. injection H as <- <-.
  apply take_inv in E. destruct E as (_ & L). pose proof (le_value_bound x) as B. rewrite L in B. exact B.
Qed.

Lemma dec_times_all {A} (p : parser A) (P : A -> Prop) n : (forall b x r, p b = Some (x, r) -> P x) ->
  forall b l rest, dec_times n p b = Some (l, rest) -> Forall P l /\ length l = n.
Proof.
  intros H. induction n as [|n IH]; intros b l rest E; cbn [dec_times] in E.
  - injection E as <- <-. auto.
  - unfold pbind in E. destruct (p b) as [(x & r)|] eqn:Ex; [|discriminate]. destruct (dec_times n p r) as [(t & r')|] eqn:Et; [|discriminate].
    injection E as <- <-. destruct (IH _ _ _ Et) as (Q & L). split; [constructor; [exact (H _ _ _ Ex)|exact Q]|cbn; congruence].
Qed.

Lemma dec_seq_all {A} (p : parser A) (P : A -> Prop) b l rest : (forall b x r, p b = Some (x, r) -> P x) ->
  dec_seq p b = Some (l, rest) -> Forall P l /\ len l < W64.
Proof.
  intros H E. unfold dec_seq, pbind in E. destruct (dec_u64 b) as [(n & r)|] eqn:En; [|discriminate]. apply dec_u64_bound in En.
  destruct (_ <? _); [discriminate|]. apply (dec_times_all p P _ H) in E. destruct E as (Q & L). split; [exact Q|]. unfold len. lia.
Qed.

Lemma dec_shape_typed b s rest : dec_shape b = Some (s, rest) -> u32_shape s.
Proof.
  unfold dec_shape, pbind. destruct (dec_u32 b) as [(x & r)|] eqn:E1; [|discriminate]. destruct (dec_u32 r) as [(y & r1)|] eqn:E2; [|discriminate].
  destruct (dec_u32 r1) as [(z & r2)|] eqn:E3; [|discriminate]. intros H. injection H as <- <-.
  apply dec_u32_inv in E1, E2, E3. repeat split; cbn [di dj dk]; tauto.
Qed.

Lemma dec_string_typed b s rest : dec_string b = Some (s, rest) -> rust_string s /\ len (list_byte_of_string s) < W64.
Proof.
  unfold dec_string, pbind. destruct (dec_vec_u8 b) as [(v & r)|] eqn:E; [|discriminate]. destruct (utf8_valid v) eqn:U; [|discriminate].
  intros H. injection H as <- <-. unfold rust_string. rewrite list_byte_of_string_of_list_byte. split; [exact U|].
  apply (dec_seq_all dec_u8 (fun _ => True)) in E; [apply E|auto].
Qed.

Section Scalars.
Context {F : Type} {AR : Arith F} {BT : Bits F}.
Notation T := (tensor F).
Hypothesis BO : bits_ok (F := F).

Lemma dec_tensor_typed b (t : T) rest : dec_tensor b = Some (t, rest) -> typed_tensor t.
Proof.
  unfold dec_tensor, dec_stride, pbind. destruct (dec_u32 b) as [(x & r)|] eqn:E1; [|discriminate]. destruct (dec_u32 r) as [(y & r1)|] eqn:E2; [|discriminate].
  destruct (dec_u32 r1) as [(z & r2)|] eqn:E3; [|discriminate]. cbv beta iota delta [pret]. destruct (dec_shape r2) as [(s & r3)|] eqn:E4; [|discriminate].
  destruct (dec_seq dec_f32 r3) as [(d & r4)|] eqn:E5; [|discriminate]. intros H. injection H as <- <-.
  apply dec_u32_inv in E1, E2, E3. apply dec_shape_typed in E4. apply (dec_seq_all dec_f32 (fun _ => True)) in E5; [|auto].
  unfold typed_tensor. cbn [strides tshape data si sj sk]. tauto.
Qed.

Lemma expect_tensor b (t : T) : deserialize_expect dec_tensor b = Done t -> typed_tensor t.
Proof.
  unfold deserialize_expect, deserialize. destruct (dec_tensor b) as [(x & r)|] eqn:E; [|discriminate]. intros H. injection H as ->. exact (dec_tensor_typed _ _ _ E).
Qed.

Lemma expect_tensors b (l : list T) : deserialize_expect dec_tensors b = Done l -> Forall typed_tensor l /\ len l < W64.
Proof.
  unfold deserialize_expect, deserialize. destruct (dec_tensors b) as [(x & r)|] eqn:E; [|discriminate]. intros H. injection H as ->.
  apply (dec_seq_all dec_tensor typed_tensor) in E; [exact E|exact dec_tensor_typed].
Qed.

Lemma expect_shape b s : deserialize_expect dec_shape b = Done s -> u32_shape s.
Proof.
  unfold deserialize_expect, deserialize. destruct (dec_shape b) as [(x & r)|] eqn:E; [|discriminate]. intros H. injection H as ->. exact (dec_shape_typed _ _ _ E).
Qed.

Lemma expect_u32 b n : deserialize_expect dec_u32 b = Done n -> n < W32.
Proof.
  unfold deserialize_expect, deserialize. destruct (dec_u32 b) as [(x & r)|] eqn:E; [|discriminate]. intros H. injection H as ->. apply (dec_u32_inv _ _ _ E).
Qed.

Lemma expect_string b s : deserialize_expect dec_string b = Done s -> rust_string s /\ len (list_byte_of_string s) < W64.
Proof.
  unfold deserialize_expect, deserialize. destruct (dec_string b) as [(x & r)|] eqn:E; [|discriminate]. intros H. injection H as ->. exact (dec_string_typed _ _ _ E).
Qed.

(** ** One layer: what was loaded is stored so that loading does the same again *)
Ltac keyed H := match type of H with
  | (if negb ?c then _ else _) = _ => destruct c; cbn [negb] in H; [|discriminate H]
  end.
Ltac fetched H x E := apply bind_done in H; destruct H as (x & E & H).

Lemma cv_reload bm em m (l l1 : conv_layer F) m' : cv_load_data bm em m = Done (l, Ok tt) ->
  params_of (LConv l1) = params_of (LConv l) -> cv_name l1 = cv_name l ->
  Permutation m' [(KKernels, enc_tensors (cv_kernels l1)); (KBiases, enc_tensors (cv_biases l1)); (KInputShape, enc_shape (cv_input_shape l1));
                  (KStride, enc_u32 (cv_stride l1)); (KName, enc_string (cv_name l1))] ->
  cv_load_data bm em m' = cv_load_data bm em m.
Proof.
  intros E P Nm Pm. rewrite E. pose proof E as E'. unfold cv_load_data in E'. do 5 keyed E'. fetched E' kd Ekd. fetched E' ks Eks. fetched E' bd Ebd. fetched E' bs Ebs.
  fetched E' ind Eid. fetched E' ins Eins. fetched E' sd Esd. fetched E' sr Esr. fetched E' nd End_. fetched E' nm Enm.
  apply expect_tensors in Eks, Ebs. apply expect_shape in Eins. apply expect_u32 in Esr. apply expect_string in Enm.
  assert (Q : cv_kernels l = ks /\ cv_biases l = bs /\ cv_input_shape l = ins /\ cv_stride l = sr /\ cv_name l = nm).
  { unfold cv_fill_from_state in E'. destruct ks as [|k0 kr]; [discriminate|]. keyed E'. fetched E' ft Eft. keyed E'. fetched E' dm Edm. destruct dm as (d0 & d1).
    injection E' as <-. repeat split; reflexivity. }
  destruct Q as (Q1 & Q2 & Q3 & Q4 & Q5). injection P as P1 P2 P3 P4 _. rewrite Q1 in P1. rewrite Q2 in P2. rewrite Q3 in P4. rewrite Q4 in P3. rewrite Q5 in Nm.
  rewrite (cv_load_perm BO bm em l1 m'); [rewrite P1, P2, P3, P4, Nm; exact E'| | | | | | | | |exact Pm]; rewrite ?P1, ?P2, ?P3, ?P4, ?Nm; tauto.
Qed.

Lemma fc_reload bm em m (l l1 : fc_layer F) m' : fc_load_data bm em m = Done (l, Ok tt) ->
  params_of (LFC l1) = params_of (LFC l) -> fc_name l1 = fc_name l ->
  Permutation m' [(FKWeights, enc_tensor (fc_weights l1)); (FKBias, enc_tensor (fc_bias l1)); (FKName, enc_string (fc_name l1))] ->
  fc_load_data bm em m' = fc_load_data bm em m.
Proof.
  intros E P Nm Pm. rewrite E. pose proof E as E'. unfold fc_load_data in E'. do 3 keyed E'. fetched E' wd Ewd. fetched E' ws Ews. fetched E' bd Ebd. fetched E' bs Ebs.
  fetched E' nd End_. fetched E' nm Enm. apply expect_tensor in Ews, Ebs. apply expect_string in Enm.
  assert (Q : fc_weights l = ws /\ fc_bias l = bs /\ fc_name l = nm).
  { unfold fc_fill_from_state in E'. do 3 keyed E'. fetched E' l' El. injection E' as <-. unfold fc_update in El. cbn [fc_run_state] in El.
    destruct (fc_run_state em); repeat (let t := fresh in let Et := fresh in apply bind_done in El; destruct El as (t & Et & El)); injection El as <-; repeat split; reflexivity. }
  destruct Q as (Q1 & Q2 & Q3). injection P as P1 P2. rewrite Q1 in P1. rewrite Q2 in P2. rewrite Q3 in Nm.
  rewrite (fc_load_perm BO bm em l1 m'); [rewrite P1, P2, Nm; exact E'| | | | |exact Pm]; rewrite ?P1, ?P2, ?Nm; tauto.
Qed.

Lemma mp_reload bm em m (l l1 : mp_layer) m' : mp_load_data bm em m = Done (l, Ok tt) ->
  params_of (F := F) (LMaxPool l1) = params_of (LMaxPool l) -> mp_name l1 = mp_name l ->
  Permutation m' [(MKMaskShape, enc_shape (mp_mask_shape l1)); (MKInputShape, enc_shape (mp_input_shape l1)); (MKStride, enc_u32 (mp_stride l1));
                  (MKName, enc_string (mp_name l1))] ->
  mp_load_data bm em m' = mp_load_data bm em m.
Proof.
  intros E P Nm Pm. rewrite E. pose proof E as E'. unfold mp_load_data in E'. do 4 keyed E'. fetched E' wd Ewd. fetched E' ms Ems. fetched E' ind Eid. fetched E' ins Eins.
  fetched E' sd Esd. fetched E' sr Esr. fetched E' nd End_. fetched E' nm Enm. apply expect_shape in Ems, Eins. apply expect_u32 in Esr. apply expect_string in Enm.
  assert (Q : mp_input_shape l = ins /\ mp_mask_shape l = ms /\ mp_stride l = sr /\ mp_name l = nm).
  { unfold mp_fill_from_state in E'. fetched E' ft Eft. keyed E'. fetched E' dm Edm. destruct dm as (d0 & d1). injection E' as <-. repeat split; reflexivity. }
  destruct Q as (Q1 & Q2 & Q3 & Q4). injection P as P1 P2 _ P3. rewrite Q1 in P1. rewrite Q2 in P2. rewrite Q3 in P3. rewrite Q4 in Nm.
  rewrite (mp_load_perm bm em l1 m'); [rewrite P1, P2, P3, Nm; exact E'| | | | | |exact Pm]; rewrite ?P1, ?P2, ?P3, ?Nm; tauto.
Qed.

Lemma sm_reload (em : sm_layer F) m (l l1 : sm_layer F) m' : sm_load_data em m = Done (l, Ok tt) ->
  params_of (LSoftmax l1) = params_of (LSoftmax l) -> sm_name l1 = sm_name l ->
  Permutation m' [(SKShape, enc_shape (sm_shape l1)); (SKName, enc_string (sm_name l1))] ->
  sm_load_data em m' = sm_load_data em m.
Proof.
  intros E P Nm Pm. rewrite E. pose proof E as E'. unfold sm_load_data in E'. do 2 keyed E'. fetched E' wd Ewd. fetched E' sh Esh.
  fetched E' nd End_. fetched E' nm Enm. apply expect_shape in Esh. apply expect_string in Enm. injection E' as <-. cbn [params_of sm_shape sm_name] in P, Nm. injection P as P.
  rewrite (sm_load_perm em l1 m'); [rewrite P, Nm; reflexivity| | | |exact Pm]; rewrite ?P, ?Nm; tauto.
Qed.

Lemma reload_layer bm s (n n' : network F) : add_to_network bm s n = Done (n', Ok tt) ->
  exists l, layers n' = layers n ++ [l]
    /\ forall h k n0, valid_order h -> add_to_network bm (order_layer h k (get_serialized l)) n0 = add_to_network bm s n0.
Proof.
  intros A. unfold add_to_network, load_and_add in A.
  destruct s as [m|m|m|m]; apply bind_done in A; destruct A as ((l & e) & E & A); (destruct e as [[]|]; [|discriminate]);
    apply add_layer_done in A; (destruct A as [A|((x & X) & _)]; [|discriminate]); destruct A as (_ & _ & l1 & ss & L & I & _);
    exists l1; (split; [exact L|]); intros h k n0 V;
    assert (IP : params_of l1 = fst (fst (ident l1))) by reflexivity; assert (IN : get_name l1 = snd (fst (ident l1))) by reflexivity;
    rewrite I in IP, IN; cbn [fst snd] in IP, IN; (destruct l1 as [l1|l1|l1|l1]; try discriminate IP); cbn [get_name] in IN; cbn [get_serialized].
  - fetched E em Em. cbn [cv_load] in E. unfold cv_get_serialized. cbn [hm_insert order_layer]. unfold add_to_network. f_equal. rewrite Em. cbn [bind cv_load].
    eapply cv_reload; [exact E|exact IP|exact IN|apply V].
  - fetched E em Em. cbn [fc_load] in E. unfold fc_get_serialized. cbn [hm_insert order_layer]. unfold add_to_network. f_equal. rewrite Em. cbn [bind fc_load].
    eapply fc_reload; [exact E|exact IP|exact IN|apply V].
  - cbn [mp_load] in E. unfold mp_get_serialized. cbn [hm_insert order_layer]. unfold add_to_network. f_equal. cbn [mp_load].
    eapply mp_reload; [exact E|exact IP|exact IN|apply V].
  - fetched E em Em. cbn [sm_load] in E. unfold sm_get_serialized. cbn [hm_insert order_layer]. unfold add_to_network. f_equal. rewrite Em. cbn [bind sm_load].
    eapply sm_reload; [exact E|exact IP|exact IN|apply V].
Qed.

(** ** Networks *)
Lemma reload_all bm sn : forall n n' : network F, populate_network bm sn n = Done (n', Ok tt) ->
  exists ls, layers n' = layers n ++ ls
    /\ forall h k n0, valid_order h -> populate_network bm (order_from h k ls) n0 = populate_network bm sn n0.
Proof.
  induction sn as [|s sn IH]; intros n n' E; unfold populate_network in E; cbn [tryM] in E.
  - injection E as <-. exists []. rewrite app_nil_r. split; [reflexivity|]. intros; reflexivity.
  - apply bind_done in E. destruct E as ((n1 & r) & E1 & E). destruct r as [[]|]; [|discriminate].
    destruct (reload_layer bm s n n1 E1) as (l & L & Q). destruct (IH n1 n' E) as (ls & L' & Q'). exists (l :: ls).
    split; [rewrite L', L, <- app_assoc; reflexivity|]. intros h k n0 V. unfold populate_network, order_from in *. cbn [length seq map combine tryM].
    rewrite (Q h k n0 V). destruct (add_to_network bm s n0) as [(n2 & r2)|p]; [|reflexivity]. cbn [bind]. destruct r2 as [[]|]; [|reflexivity]. apply (Q' h (S k) n2 V).
Qed.

Lemma resaved bm h st (n : network F) fs name fs' name' :
  network_load bm (network_new st) fs name = Done (n, Ok tt) -> valid_order h -> len (to_byte_array h (new_from_network n)) < W64 ->
  forall n0, network_load bm n0 (fst (network_save h n fs' name' WriteOk)) name' = network_load bm n0 fs name.
Proof.
  intros E V L n0. unfold network_load in E. unfold network_load, network_save, fs_write. cbn [fst]. rewrite fs_set_same.
  rewrite (codec_deserialize_nil _ _ _ (codec_saved h n V L)).
  destruct (fs name) as [b|]; [|discriminate]. destruct (deserialize dec_network b) as [sn|]; [|discriminate].
  destruct (reload_all bm sn _ _ E) as (ls & Q & R). cbn [network_new layers app] in Q. rewrite <- (R h 0%nat n0 V). f_equal.
  unfold order_network, order_from, new_from_network. rewrite map_length, Q. reflexivity.
Qed.

Lemma from_file_iff fs name (t : T) : tensor_from_file fs name = Ok t <-> typed_tensor t /\ exists rest, fs name = Some (enc_tensor t ++ rest).
Proof.
  split.
  - intros E. split; [|exact (from_file_only BO fs name t E)]. unfold tensor_from_file in E. destruct (fs name) as [b|]; [|discriminate]. unfold deserialize in E.
    destruct (dec_tensor b) as [(t' & r)|] eqn:D; [|discriminate]. injection E as ->. exact (dec_tensor_typed _ _ _ D).
  - intros (Ty & rest & E). exact (tensor_round_trip BO fs name t rest Ty E).
Qed.

End Scalars.
