(** * Proofs for C38-C44, C52 *)
From Coq Require Import ZifyBool ZifyNat ZifyN Permutation.
From Coq.Strings Require Import Byte.
From Flocq Require Import Binary Bits.
From Verif Require Import Base Arith Helper Tensor Convolution Network Bincode Serial Float32 Spec SpecLayer SpecNet SpecSerial.
From Verif Require Import Loops TensorFacts OpsFacts ProofsTensor ProofsConv ProofsFloat LayerFacts NetFacts NetRun ProofsNet SerialFacts SerialLayer.
Ltac Zify.zify_post_hook ::= Z.div_mod_to_equations.
Local Open Scope list_scope.

Lemma f32_bits_ok : @bits_ok f32 f32_bits.
Proof.
  split.
  - intros x. cbn [fto_bits fof_bits f32_bits].
    assert (B : (0 <= bits_of_b32 x < 4294967296)%Z) by apply (bits_of_binary_float_range 23 8 eq_refl eq_refl).
    split; [unfold W32; lia|]. rewrite Z2N.id by lia. apply (binary_float_of_bits_of_binary_float 23 8 eq_refl eq_refl eq_refl).
  - intros n H. cbn [fto_bits fof_bits f32_bits]. unfold bits_of_b32, b32_of_bits.
    rewrite (bits_of_binary_float_of_bits 23 8 eq_refl eq_refl eq_refl); [apply N2Z.id|]. unfold W32 in H. cbn. lia.
Qed.

(** ** Bytes of a network *)
Definition distinct_keys (s : serialized_layer) : Prop :=
  match s with
  | SerialConvolutionalLayer m => NoDup (map fst m)
  | SerialFullyConnectedLayer m => NoDup (map fst m)
  | SerialMaxPoolLayer m => NoDup (map fst m)
  | SerialSoftMaxLayer m => NoDup (map fst m)
  end.

Lemma flat_map_in_length {A} (e : A -> bytes) l x : In x l -> (length (e x) <= length (flat_map e l))%nat.
Proof.
  induction l as [|y l IH]; intros H; [destruct H|]. cbn [flat_map]. rewrite app_length. destruct H as [->|H]; [lia|]. specialize (IH H). lia.
Qed.

Lemma map_bounds {K} (ktag : K -> N) (m : list (K * bytes)) : len (enc_map ktag m) < W64 -> len m < W64 /\ Forall (fun e => len (snd e) < W64) m.
Proof.
  intros H. unfold enc_map, enc_seq, len in H. rewrite app_length in H. split.
  - assert (length m <= length (flat_map (enc_entry ktag) m))%nat; [|unfold len; lia].
    apply flat_map_length_ge. intros e _. unfold enc_entry, enc_u32. cbn [le_bytes app]. discriminate.
  - rewrite Forall_forall. intros e He. pose proof (flat_map_in_length (enc_entry ktag) m e He) as L.
    assert (E : length (enc_entry ktag e) = (4 + (8 + length (snd e)))%nat)
      by (unfold enc_entry, enc_u32; rewrite app_length, length_le_bytes, length_vec_u8; reflexivity).
    unfold len. lia.
Qed.

Lemma codec_layer s : distinct_keys s -> len (enc_layer s) < W64 -> codec dec_layer (enc_layer s) s.
Proof.
  intros D L. unfold dec_layer.
  assert (G : forall K (ktag : K -> N) n m, len (enc_u32 n ++ enc_map ktag m) < W64 -> len m < W64 /\ Forall (fun e => len (snd e) < W64) m).
  { intros K ktag n m H. apply (map_bounds ktag). unfold len in *. rewrite app_length in H. lia. }
  destruct s as [m|m|m|m]; cbn [enc_layer distinct_keys] in *; apply G in L; destruct L as (L & H);
    (eapply codec_bind; [apply codec_u32; reflexivity|cbv beta iota]).
  - apply (codec_map _ SerialConvolutionalLayer). apply codec_map_entries; auto using cv_keqb, cv_kof, cv_ktag.
  - apply (codec_map _ SerialFullyConnectedLayer). apply codec_map_entries; auto using fc_keqb, fc_kof, fc_ktag.
  - apply (codec_map _ SerialMaxPoolLayer). apply codec_map_entries; auto using mp_keqb, mp_kof, mp_ktag.
  - apply (codec_map _ SerialSoftMaxLayer). apply codec_map_entries; auto using sm_keqb, sm_kof, sm_ktag.
Qed.

Lemma enc_layer_nonempty s : enc_layer s <> [].
Proof. destruct s; cbn [enc_layer]; unfold enc_u32; cbn [le_bytes app]; discriminate. Qed.

Lemma codec_network sn : Forall distinct_keys sn -> len (enc_network sn) < W64 -> codec dec_network (enc_network sn) sn.
Proof.
  intros D L. unfold enc_network, enc_seq, len in L. rewrite app_length in L. apply codec_seq.
  - assert (length sn <= length (flat_map enc_layer sn))%nat; [|unfold len; lia].
    apply flat_map_length_ge. intros; apply enc_layer_nonempty.
  - intros s Hs. apply codec_layer; [rewrite Forall_forall in D; apply D; exact Hs|].
    pose proof (flat_map_in_length enc_layer sn s Hs). unfold len. lia.
  - intros; apply enc_layer_nonempty.
Qed.

Section Scalars.
Context {F : Type} {AR : Arith F} {BT : Bits F}.
Notation T := (tensor F).
Hypothesis BO : bits_ok (F := F).

Lemma distinct_serialized h n (l : layer F) : valid_order h -> distinct_keys (order_layer h n (get_serialized l)).
Proof.
  intros V. destruct l as [l|l|l|l];
    (eapply Permutation_NoDup; [apply Permutation_map; symmetry; apply V|]).
  - change (NoDup [KKernels; KBiases; KInputShape; KStride; KName]). repeat constructor; cbn; intuition discriminate.
  - change (NoDup [FKWeights; FKBias; FKName]). repeat constructor; cbn; intuition discriminate.
  - change (NoDup [MKMaskShape; MKInputShape; MKStride; MKName]). repeat constructor; cbn; intuition discriminate.
  - change (NoDup [SKShape; SKName]). repeat constructor; cbn; intuition discriminate.
Qed.

Lemma order_network_in h (n : network F) s : In s (order_network h (new_from_network n)) ->
  exists k (l : layer F), s = order_layer h k (get_serialized l).
Proof.
  unfold order_network, new_from_network. rewrite in_map_iff. intros ((k & s') & <- & H). apply in_combine_r in H.
  apply in_map_iff in H. destruct H as (l & <- & _). eauto.
Qed.

Lemma codec_saved h (n : network F) : valid_order h -> len (to_byte_array h (new_from_network n)) < W64 ->
  codec dec_network (to_byte_array h (new_from_network n)) (order_network h (new_from_network n)).
Proof.
  intros V L. apply codec_network; [|exact L]. rewrite Forall_forall. intros s H.
  apply order_network_in in H. destruct H as (k & l & ->). apply distinct_serialized. exact V.
Qed.

(** ** Tensor files *)
Lemma fs_set_same fs name b : fs_set fs name b name = Some b.
Proof. unfold fs_set. rewrite String.eqb_refl. reflexivity. Qed.

Lemma tensor_round_trip fs name (t : T) rest : typed_tensor t -> fs name = Some (enc_tensor t ++ rest) -> tensor_from_file fs name = Ok t.
Proof. intros Ty E. unfold tensor_from_file. rewrite E, (codec_deserialize _ _ _ _ (codec_tensor BO t Ty)). reflexivity. Qed.

Lemma tensor_cut fs name (t : T) b : typed_tensor t -> cut b (enc_tensor t) -> fs name = Some b -> exists e, tensor_from_file fs name = Err e.
Proof.
  intros Ty C E. unfold tensor_from_file. rewrite E, (codec_cut _ _ _ _ (codec_tensor BO t Ty) C). eauto.
Qed.

Lemma firstn_cut (b : bytes) k : (k < length b)%nat -> cut (firstn k b) b.
Proof.
  intros H. unfold cut. destruct (skipn k b) as [|x t] eqn:E.
  - assert (L := skipn_length k b). rewrite E in L. cbn in L. lia.
  - exists x, t. rewrite <- E. symmetry. apply firstn_skipn.
Qed.

Lemma from_file_only fs name (t : T) : tensor_from_file fs name = Ok t -> exists rest, fs name = Some (enc_tensor t ++ rest).
Proof.
  unfold tensor_from_file. destruct (fs name) as [b|]; [|discriminate]. unfold deserialize.
  destruct (dec_tensor b) as [(t' & rest)|] eqn:E; [|discriminate]. intros [= ->]. apply (dec_tensor_inv BO) in E. subst b. eauto.
Qed.

(** ** Network files *)
Lemma network_cut bm h (n n0 : network F) fs name b : valid_order h -> len (to_byte_array h (new_from_network n)) < W64 ->
  cut b (to_byte_array h (new_from_network n)) -> fs name = Some b -> exists e, network_load bm n0 fs name = Done (n0, Err e).
Proof.
  intros V L C E. unfold network_load. rewrite E, (codec_cut _ _ _ _ (codec_saved h n V L) C). eauto.
Qed.

Lemma add_serialized bm h k (l : layer F) n : valid_order h -> storable l ->
  exists l', add_to_network bm (order_layer h k (get_serialized l)) n = add_layer bm n l'
    /\ params_of l' = params_of l /\ get_name l' = get_name l /\ layer_ok l'.
Proof.
  intros V S. destruct (load_layer BO bm h k l V S) as (e & l' & Ee & El & P & Nm & _ & O). exists l'. split; [|auto].
  destruct l as [l|l|l|l]; cbn [empty_like get_serialized] in *;
    unfold cv_get_serialized, fc_get_serialized, mp_get_serialized, sm_get_serialized in *; cbn [hm_insert order_layer add_to_network] in *;
    unfold load_and_add; try (apply bind_done in Ee; destruct Ee as (e0 & Ee & Ee'); rewrite Ee; cbn [bind]; injection Ee' as <-);
    try injection Ee as <-; cbn [load_from_serialized] in El; unfold lift_load in El; apply bind_done in El; destruct El as ((l1 & r1) & El & E');
    rewrite El; cbn [bind]; injection E' as <- ->; reflexivity.
Qed.

Definition order_from (h : hash_order) (k : nat) (ls : list (layer F)) : serialized_network :=
  map (fun '(n, l) => order_layer h n l) (combine (seq k (length ls)) (map get_serialized ls)).

Lemma load_loop bm h ls : valid_order h -> Forall storable ls -> forall k n,
  net_ok n -> linked (match layers n, ls with [], l :: _ => get_input_shape l | _, _ => net_output_shape n end) ls ->
  exists n', populate_network bm (order_from h k ls) n = Done (n', Ok tt) /\ net_ok n' /\ net_run_state n' = net_run_state n
    /\ map ident (layers n') = map ident (layers n) ++ map (fun l => (params_of l, get_name l, net_run_state n)) ls.
Proof.
  intros V. induction ls as [|l ls IH]; intros St k n Ok Lk.
  - exists n. cbn. rewrite app_nil_r. auto.
  - inversion St as [|? ? Sl Sls]; subst. destruct (add_serialized bm h k l n V Sl) as (l' & Ea & P & Nm & O).
    destruct (params_shapes _ _ P) as (Pi & Po). destruct Lk as (Li & Lk).
    destruct (add_layer_ok bm n l' Ok O) as (n1 & r & E1 & Ok1 & _). pose proof E1 as D. apply add_layer_done in D. destruct D as [D|D].
    + destruct D as (-> & _ & l1 & ss & L & I & _ & _ & _ & _ & _ & Os & R & _).
      destruct (IH Sls (S k) n1 Ok1) as (n2 & E2 & Ok2 & R2 & M2).
      { rewrite L. replace (match layers n ++ [l1] with [] => match ls with [] => net_output_shape n1 | l0 :: _ => get_input_shape l0 end
          | _ => net_output_shape n1 end) with (net_output_shape n1) by (destruct (layers n); reflexivity).
        rewrite Os, Po. exact Lk. }
      exists n2. split; [|split; [exact Ok2|split; [congruence|]]].
      * unfold populate_network, order_from in *. cbn [length seq map combine tryM]. rewrite Ea, E1. cbn [bind]. exact E2.
      * rewrite M2, L, R, map_app. cbn [map]. rewrite I, P, Nm, <- app_assoc. reflexivity.
    + exfalso. destruct D as (_ & -> & ls0 & last & L & NE). apply NE. rewrite Pi, Li.
      rewrite (output_of_last _ _ _ (proj1 Ok) L). rewrite L. destruct ls0; reflexivity.
Qed.

Lemma network_round_trip bm h st n fs name : valid_order h -> structured n -> Forall storable (layers n) ->
  len (to_byte_array h (new_from_network n)) < W64 -> fs name = Some (to_byte_array h (new_from_network n)) ->
  exists n', network_load bm (network_new st) fs name = Done (n', Ok tt) /\ net_ok n' /\ net_run_state n' = st
    /\ map ident (layers n') = map (fun l => (params_of l, get_name l, st)) (layers n).
Proof.
  intros V Sn St L E. unfold network_load. rewrite E, (codec_deserialize_nil _ _ _ (codec_saved h n V L)).
  destruct (load_loop bm h (layers n) V St 0 (network_new st)) as (n' & E' & Ok' & R' & M').
  - apply net_ok_new.
  - cbn [network_new layers]. destruct Sn as (Lk & Hd & _). destruct (layers n) as [|l ls]; [exact I|]. cbn [boundaries hd] in Hd. rewrite Hd in Lk. exact Lk.
  - exists n'. split; [|auto]. rewrite <- E'. f_equal. unfold order_network, order_from, new_from_network. rewrite map_length. reflexivity.
Qed.

Lemma infer_agree bm n1 n2 (X : T) : relu_agrees F -> net_ok n1 -> net_ok n2 -> wf X -> map params_of (layers n1) = map params_of (layers n2) ->
  exists n1' n2' r, infer bm n1 X = Done (n1', r) /\ infer bm n2 X = Done (n2', r)
    /\ (r = Ok tt <-> tshape X = net_input_shape n1 /\ layers n1 <> []) /\ (r = Ok tt -> get_output n1' = get_output n2').
Proof.
  intros RA H1 H2 W P. destruct (infer_exact bm n1 X RA H1 W) as (n1' & r1 & E1 & I1 & K1).
  destruct (infer_exact bm n2 X RA H2 W) as (n2' & r2 & E2 & I2 & K2). exists n1', n2', r1.
  assert (B : boundaries (layers n1) = boundaries (layers n2)) by (apply boundaries_params; exact P).
  assert (S : net_input_shape n1 = net_input_shape n2).
  { destruct H1 as ((_ & -> & _) & _), H2 as ((_ & -> & _) & _). rewrite B. reflexivity. }
  assert (N : len (layers n1) = len (layers n2)) by (unfold len; rewrite <- (map_length params_of (layers n1)), P, map_length; reflexivity).
  assert (R : r1 = r2).
  { pose proof (states_length n1 (proj1 H1)) as L1. pose proof (states_length n2 (proj1 H2)) as L2.
    destruct (shape_eqb_spec (tshape X) (net_input_shape n1)) as [Sx|Sx].
    - destruct (layers n1) as [|a la] eqn:La, (layers n2) as [|b lb] eqn:Lb; try (unfold len in N; cbn [length] in N; lia).
      + unfold infer, get_shape in E1, E2. rewrite <- S in E2. rewrite Sx, shape_eqb_refl in E1, E2. rewrite L1 in E1. rewrite L2 in E2.
        change (0 <? 2) with true in E1, E2. cbn [negb] in E1, E2. congruence.
      + rewrite (proj2 I1), (proj2 I2); [reflexivity|split; [congruence|discriminate]|split; [congruence|discriminate]].
    - unfold infer, get_shape in E1, E2. rewrite <- S in E2. apply shape_eqb_neq in Sx. rewrite Sx in E1, E2. cbn [negb] in E1, E2. congruence. }
  split; [exact E1|]. split; [rewrite R; exact E2|]. split; [exact I1|]. intros Q. rewrite Q in E1. rewrite <- R, Q in E2. exact (infer_same bm n1 n2 X n1' n2' RA H1 H2 W P E1 E2).
Qed.

(** ** C43, C44 *)
Lemma load_keeps bm n fs name n' r : network_load bm n fs name = Done (n', r) ->
  exists ls ss, layers n' = layers n ++ ls /\ intermediate_states n' = intermediate_states n ++ ss /\ net_run_state n' = net_run_state n
    /\ (layers n <> [] -> net_input_shape n' = net_input_shape n).
Proof.
  unfold network_load. intros H. destruct (fs name) as [b|]; [|injection H as <- <-; exists [], []; rewrite !app_nil_r; auto].
  destruct (deserialize _ _) as [sn|]; [|injection H as <- <-; exists [], []; rewrite !app_nil_r; auto]. unfold populate_network in H.
  set (K := fun m : network F => exists ls ss, layers m = layers n ++ ls /\ intermediate_states m = intermediate_states n ++ ss
    /\ net_run_state m = net_run_state n /\ (layers n <> [] -> net_input_shape m = net_input_shape n)).
  refine (tryM_done_inv K _ _ _ _ _ _ _ H); [exists [], []; rewrite !app_nil_r; auto|]. clear. intros s m m' r _ M H.
  assert (A : m' = m \/ exists l, add_layer bm m l = Done (m', r)).
  { unfold add_to_network, load_and_add in H.
    destruct s; apply bind_done in H; destruct H as ((l & e) & E & H); destruct e; first [injection H as <- <-; auto|eauto]. }
  destruct A as [->|(l & A)]; [exact M|]. apply add_layer_done in A. destruct A as [A|(_ & -> & _)]; [|exact M].
  destruct M as (ls & ss & ML & MS & MR & MI). destruct A as (_ & _ & l1 & s1 & L & _ & _ & S & _ & _ & I & _ & R & _).
  exists (ls ++ [l1]), (ss ++ s1). rewrite L, S, R, ML, MS, !app_assoc. do 3 (split; [first [reflexivity|assumption]|]).
  intros NE. rewrite I, ML. destruct (layers n); [congruence|]. apply MI. discriminate.
Qed.

(** A file written by [save_to_file] is loaded completely or not at all. *)
Lemma saved_load_atomic bm h n n0 fs name : valid_order h -> structured n -> Forall storable (layers n) -> net_ok n0 ->
  len (to_byte_array h (new_from_network n)) < W64 -> fs name = Some (to_byte_array h (new_from_network n)) ->
  exists n' r, network_load bm n0 fs name = Done (n', r) /\ (r <> Ok tt -> n' = n0)
    /\ (r = Ok tt <-> layers n0 = [] \/ layers n = [] \/ net_output_shape n0 = net_input_shape n).
Proof.
  intros V (Lk & Hd & _) St Ok0 L E. unfold network_load. rewrite E, (codec_deserialize_nil _ _ _ (codec_saved h n V L)).
  assert (Eo : order_network h (new_from_network n) = order_from h 0 (layers n))
    by (unfold order_network, order_from, new_from_network; rewrite map_length; reflexivity).
  rewrite Eo. clear Eo E L. destruct (layers n) as [|l ls] eqn:Ln.
  - exists n0, (Ok tt). split; [reflexivity|]. split; [congruence|]. tauto.
  - cbn [boundaries hd] in Hd.
    assert (D : layers n0 = [] \/ net_output_shape n0 = net_input_shape n \/ layers n0 <> [] /\ net_output_shape n0 <> net_input_shape n).
    { destruct (shape_eqb_spec (net_output_shape n0) (net_input_shape n)); [auto|]. destruct (layers n0); [auto|]. right. right. split; [discriminate|assumption]. }
    destruct D as [D|[D|(D & NE)]].
    + destruct (load_loop bm h (l :: ls) V St 0 n0 Ok0) as (n' & E' & _). { rewrite D, <- Hd. exact Lk. }
      exists n', (Ok tt). split; [exact E'|]. split; [congruence|]. tauto.
    + destruct (load_loop bm h (l :: ls) V St 0 n0 Ok0) as (n' & E' & _).
      { rewrite D. destruct (layers n0); [rewrite <- Hd|]; exact Lk. }
      exists n', (Ok tt). split; [exact E'|]. split; [congruence|]. tauto.
    + inversion St as [|? ? Sl Sls]; subst. destruct (add_serialized bm h 0 l n0 V Sl) as (l' & Ea & P & Nm & O).
      destruct (params_shapes _ _ P) as (Pi & Po). destruct (add_layer_ok bm n0 l' Ok0 O) as (n1 & r & E1 & Ok1 & _).
      destruct (add_layer_exact bm n0 l' n1 r (proj1 Ok0) D E1) as (I & K & _). exists n1, r.
      assert (Rr : r <> Ok tt) by (intros R; apply I in R; congruence).
      split; [|split; [exact K|split; [contradiction|intros [?|[?|?]]; [contradiction|discriminate|contradiction]]]].
      unfold populate_network, order_from. cbn [length seq map combine tryM]. rewrite Ea, E1. cbn [bind].
      destruct r as [[]|]; [congruence|reflexivity].
Qed.

(** ** Loading without a panic *)
Lemma switch_total bm st (l : layer F) : allocatable (get_input_shape l) -> allocatable (get_output_shape l) ->
  (match l with
   | LFC l => allocatable (tshape (fc_weights l))
   | LConv l => Forall (fun k => allocatable (tshape k)) (cv_kernels l)
   | _ => True
   end) -> exists l', match st with Training => switch_to_training bm l | Inference => switch_to_inference bm l end = Done l'.
Proof.
  intros Ai Ao A. destruct l as [l|l|l|l]; cbn [get_input_shape get_output_shape] in *.
  - assert (K : forall ks acc, Forall (fun k : T => allocatable (tshape k)) ks ->
      exists g, forM ks (fun k acc => g <- tensor_new bm (get_shape k) ;; Done (acc ++ [g])) acc = Done g).
    { induction ks as [|k ks IH]; intros acc H; cbn [forM]; [eauto|]. inversion H; subst.
      unfold get_shape. rewrite tensor_new_done by assumption. cbn [bind]. apply IH. assumption. }
    destruct st; cbn [switch_to_training switch_to_inference]; unfold cv_switch_to_training, cv_switch_to_inference, cv_update; cbn.
    + rewrite tensor_empty_done. cbn [bind]. eexists; reflexivity.
    + destruct (K (cv_kernels l) [] A) as (g & ->). cbn [bind]. rewrite tensor_new_done by (repeat split; reflexivity). cbn [bind].
      rewrite tensor_new_done by exact Ao. cbn [bind]. eexists; reflexivity.
  - destruct st; cbn [switch_to_training switch_to_inference]; unfold fc_switch_to_training, fc_switch_to_inference, fc_update; cbn.
    + rewrite tensor_empty_done. cbn [bind]. eexists; reflexivity.
    + unfold get_shape, fc_output_shape in *. cbn. rewrite !tensor_new_done by assumption. cbn [bind].
      cbn [bind]. eexists; reflexivity.
  - destruct st; cbn [switch_to_training switch_to_inference]; unfold mp_switch_to_training, mp_switch_to_inference, mp_update; cbn; [eexists; reflexivity|].
    rewrite total_size_done by exact Ao. cbn [bind]. eexists; reflexivity.
  - destruct st; cbn [switch_to_training switch_to_inference]; unfold sm_switch_to_training, sm_switch_to_inference, sm_update; cbn.
    + rewrite tensor_empty_done. cbn [bind]. eexists; reflexivity.
    + rewrite !tensor_new_done by (first [exact Ao|repeat split; reflexivity]). cbn [bind]. rewrite ?tensor_new_done by (first [exact Ao|repeat split; reflexivity]).
      cbn [bind]. eexists; reflexivity.
Qed.

Lemma add_layer_total bm n (l : layer F) : allocatable (get_input_shape l) -> allocatable (get_output_shape l) ->
  (match l with
   | LFC l => allocatable (tshape (fc_weights l))
   | LConv l => Forall (fun k => allocatable (tshape k)) (cv_kernels l)
   | _ => True
   end) -> exists n' r, add_layer bm n l = Done (n', r).
Proof.
  intros Ai Ao A. destruct (switch_total bm (net_run_state n) l Ai Ao A) as (l' & E). unfold add_layer. rewrite E. cbn [bind].
  apply switch_kept in E. assert (P : params_of l' = params_of l) by exact (f_equal (fun x => fst (fst x)) E).
  destruct (params_shapes _ _ P) as (Pi & Po). rewrite Pi, Po. destruct (rev (layers n)).
  - rewrite !tensor_new_done by assumption. cbn [bind]. destruct (run_state_eqb _ _); cbn [bind]; eauto.
  - destruct (negb _); [eauto|]. rewrite !tensor_new_done by assumption. cbn [bind]. destruct (run_state_eqb _ _); cbn [bind]; eauto.
Qed.

Ltac has_key G := match goal with |- context [negb (hm_contains ?q ?m ?k)] =>
  let b := fresh "b" in unfold hm_contains at 1; destruct (hm_get q m k) as [b|] eqn:G; cbn [negb bind]; [|eauto] end.

Lemma window_dims bm ins ks stride depth : window_sound ins ks stride depth ->
  (exists b, does_kernel_stride_fit_image bm ins ks stride = Done b)
  /\ get_convolution_dim_fit bm ins ks stride = Done ((di ins - di ks) / stride + 1, (dj ins - dj ks) / stride + 1).
Proof.
  intros (S & (K0 & K1) & (A0 & A1 & _)). cbn [di dj dk] in *. unfold does_kernel_stride_fit_image, get_convolution_dim_fit.
  assert (forall a, u32_rem a stride = Done (a mod stride)) as Er by (intros; unfold u32_rem; destruct (N.eqb_spec stride 0); [contradiction|reflexivity]).
  assert (forall a, u32_div a stride = Done (a / stride)) as Ed by (intros; unfold u32_div; destruct (N.eqb_spec stride 0); [contradiction|reflexivity]).
  repeat first [rewrite u32_sub_done by assumption | rewrite u32_add_done by assumption | rewrite Er | rewrite Ed | progress cbn [bind]].
  split; [|reflexivity]. destruct (negb _); [eauto|]. destruct (negb _); eauto.
Qed.

Lemma add_to_network_total bm n s : loadable (F := F) s -> exists n' r, add_to_network bm s n = Done (n', r).
Proof.
  intros H. destruct s as [m|m|m|m]; cbn [loadable add_to_network] in *; unfold load_and_add.
  - unfold cv_empty. rewrite tensor_empty_done. cbn [bind cv_load]. unfold cv_load_data.
    has_key G1. has_key G2. has_key G3. has_key G4. has_key G5. unfold get_expect. rewrite ?G1, ?G2, ?G3, ?G4, ?G5. cbn [bind].
    destruct H as (Hk & Hb & Hn). destruct (Hk _ G2) as (ks & Ek & Ak & Hi). destruct (Hi _ G4) as (ins & Ei & Ai & Hs).
    destruct (Hs _ G5) as (st & Es & Hw). destruct (Hb _ G3) as (bs & Eb & _). destruct (Hn _ G1) as (nm & En & _).
    unfold deserialize_expect. rewrite Ek. cbn [bind]. rewrite Eb. cbn [bind]. rewrite Ei. cbn [bind]. rewrite Es. cbn [bind]. rewrite En. cbn [bind].
    unfold cv_fill_from_state. destruct ks as [|k0 kr] eqn:E; [cbn [bind]; eauto|]. rewrite <- E in *.
    assert (In k0 ks) as I0 by (rewrite E; left; reflexivity). destruct (negb (forallb _ _)); [cbn [bind]; eauto|].
    destruct (window_dims bm ins (tshape k0) st (len ks) (Hw k0 I0)) as ((fit & F1) & F2). unfold get_shape. rewrite F1. cbn [bind].
    destruct (negb fit); [cbn [bind]; eauto|]. rewrite F2. cbn [bind].
    destruct (Hw k0 I0) as (_ & _ & Ao). pose proof Ao as (_ & _ & A3 & _). cbn [dk] in A3.
    apply add_layer_total; cbn [get_input_shape get_output_shape cv_input_shape cv_output_shape cv_kernels]; [exact Ai| |exact Ak].
    unfold as_u32. rewrite N.mod_small by exact A3. exact Ao.
  - unfold fc_empty. rewrite tensor_empty_done. cbn [bind fc_load]. unfold fc_load_data.
    has_key G1. has_key G2. has_key G3. unfold get_expect. rewrite ?G1, ?G2, ?G3. cbn [bind].
    destruct H as (Hw & Hb & Hn). destruct (Hw _ G2) as (w & Ew & Aw). destruct (Hb _ G3) as (bs & Eb & Ab). destruct (Hn _ G1) as (nm & En & _).
    unfold deserialize_expect. rewrite Ew. cbn [bind]. rewrite Eb. cbn [bind]. rewrite En. cbn [bind]. unfold fc_fill_from_state.
    destruct (negb _); [cbn [bind]; eauto|]. destruct (negb _); [cbn [bind]; eauto|]. destruct (negb _); [cbn [bind]; eauto|].
    unfold fc_update. cbn [fc_run_state]. rewrite tensor_empty_done. cbn [bind].
    apply add_layer_total; cbn [get_input_shape get_output_shape]; unfold fc_input_shape, fc_output_shape, get_shape; cbn [fc_weights fc_bias];
      [|exact Ab|exact Aw]. destruct Aw as (_ & A2 & _). repeat split; cbn; unfold W32 in *; lia.
  - cbn [mp_load]. unfold mp_load_data.
    has_key G1. has_key G2. has_key G3. has_key G4. unfold get_expect. rewrite ?G1, ?G2, ?G3, ?G4. cbn [bind].
    destruct H as (Hi & Hn). destruct (Hi _ G3) as (ins & Ei & Ai & Hm). destruct (Hm _ G2) as (mask & Em & Hs). destruct (Hs _ G4) as (st & Es & Hw).
    destruct (Hn _ G1) as (nm & En & _). unfold deserialize_expect. rewrite Em. cbn [bind]. rewrite Ei. cbn [bind]. rewrite Es. cbn [bind]. rewrite En. cbn [bind].
    unfold mp_fill_from_state. destruct (window_dims bm _ _ _ _ Hw) as ((fit & F1) & F2). rewrite F1. cbn [bind].
    destruct (negb fit); [cbn [bind]; eauto|]. rewrite F2. cbn [bind].
    destruct Hw as (_ & _ & Ao). apply add_layer_total; cbn [get_input_shape get_output_shape mp_input_shape mp_output_shape]; auto.
  - unfold sm_empty. rewrite tensor_empty_done. cbn [bind sm_load]. unfold sm_load_data.
    has_key G1. has_key G2. unfold get_expect. rewrite ?G1, ?G2. cbn [bind].
    destruct H as (Hs & Hn). destruct (Hs _ G2) as (sh & Es & A). destruct (Hn _ G1) as (nm & En & _).
    unfold deserialize_expect. rewrite Es. cbn [bind]. rewrite En. cbn [bind]. apply add_layer_total; cbn; auto.
Qed.

Lemma load_total bm n fs name : (forall b sn, fs name = Some b -> deserialize dec_network b = Some sn -> Forall (loadable (F := F)) sn) ->
  exists n' r, network_load bm n fs name = Done (n', r).
Proof.
  intros H. unfold network_load. destruct (fs name) as [b|] eqn:E; [|eauto]. destruct (deserialize _ _) as [sn|] eqn:D; [|eauto].
  specialize (H b sn eq_refl D). unfold populate_network. clear - H. revert n. induction H as [|s sn Hs _ IH]; intros n; cbn [tryM]; [eauto|].
  destruct (add_to_network_total bm n s Hs) as (n1 & r & ->). cbn [bind]. destruct r; [apply IH|eauto].
Qed.

(** ** C52 *)
Lemma other_kind bm (l : layer F) s : ~ same_kind l s -> exists e, load_from_serialized bm l s = Done (l, Err e).
Proof.
  intros H. destruct l as [l|l|l|l], s as [m|m|m|m]; cbn [same_kind] in H; try tauto; eexists; reflexivity.
Qed.

End Scalars.

(** ** f32 *)
Section F32.
Context (e : env).
Let AR : Arith f32 := f32_arith e.
Local Existing Instance AR.

Lemma file_round_trip (t : tensor f32) fs name : typed_tensor t ->
  snd (tensor_save t fs name WriteOk) = Ok tt /\ tensor_from_file (fst (tensor_save t fs name WriteOk)) name = Ok t.
Proof.
  intros Ty. split; [reflexivity|]. apply (tensor_round_trip f32_bits_ok _ _ _ []); [exact Ty|]. cbn. rewrite app_nil_r. apply fs_set_same.
Qed.

Lemma file_truncated (t : tensor f32) fs name k : typed_tensor t -> (k < length (enc_tensor t))%nat ->
  exists m, @tensor_from_file f32 f32_bits (fst (tensor_save t fs name (WriteStops k))) name = Err m.
Proof.
  intros Ty L. eapply (tensor_cut f32_bits_ok); [exact Ty|apply firstn_cut; exact L|]. apply fs_set_same.
Qed.

Lemma file_extended (t : tensor f32) fs name rest : typed_tensor t -> fs name = Some (enc_tensor t ++ rest) -> tensor_from_file fs name = Ok t.
Proof. exact (tensor_round_trip f32_bits_ok fs name t rest). Qed.

Lemma file_well_formed fs name :
  (exists t : tensor f32, tensor_from_file fs name = Ok t /\ wf t) <->
  (exists (t : tensor f32) rest, wf t /\ fs name = Some (enc_tensor t ++ rest)).
Proof.
  split.
  - intros (t & E & W). apply (from_file_only f32_bits_ok) in E. destruct E as (rest & E). eauto.
  - intros (t & rest & W & E). exists t. split; [|exact W]. apply (file_extended t fs name rest); [apply wf_typed; exact W|exact E].
Qed.

Lemma network_file bm h st (n : network f32) fs name :
  well_built bm n -> Forall storable (layers n) -> valid_order h -> len (to_byte_array h (new_from_network n)) < W64 ->
  exists n', network_load bm (network_new st) (fst (network_save h n fs name WriteOk)) name = Done (n', Ok tt)
    /\ map params_of (layers n') = map params_of (layers n) /\ map get_name (layers n') = map get_name (layers n)
    /\ Forall (fun l => get_run_mode l = st) (layers n')
    /\ forall X, wf X -> exists n1 n2 r, infer bm n X = Done (n1, r) /\ infer bm n' X = Done (n2, r)
         /\ (r = Ok tt <-> tshape X = net_input_shape n /\ layers n <> []) /\ (r = Ok tt -> get_output n1 = get_output n2).
Proof.
  intros B St V L. pose proof (built_ok bm n (f32_relu_agrees e) B) as Ok.
  destruct (network_round_trip f32_bits_ok bm h st n (fst (network_save h n fs name WriteOk)) name V (proj1 Ok) St L) as (n' & E & Ok' & R & M).
  { apply fs_set_same. }
  exists n'. split; [exact E|].
  assert (P : map params_of (layers n') = map params_of (layers n)).
  { apply (f_equal (map (fun x => fst (fst x)))) in M. rewrite !map_map in M. exact M. }
  split; [exact P|]. split. { apply (f_equal (map (fun x => snd (fst x)))) in M. rewrite !map_map in M. exact M. }
  split; [eapply modes_set; exact M|]. intros X W.
  apply (infer_agree bm n n' X (f32_relu_agrees e) Ok Ok' W). symmetry. exact P.
Qed.

Lemma network_truncated bm h (n n0 : network f32) fs name k : valid_order h -> len (to_byte_array h (new_from_network n)) < W64 ->
  (k < length (to_byte_array h (new_from_network n)))%nat ->
  exists m, network_load bm n0 (fst (network_save h n fs name (WriteStops k))) name = Done (n0, Err m).
Proof. intros V L K. eapply network_cut; [exact V|exact L|apply firstn_cut; exact K|]. apply fs_set_same. Qed.

Lemma network_saved_load bm h (n n0 : network f32) fs name :
  well_built bm n -> Forall storable (layers n) -> well_built bm n0 -> valid_order h -> len (to_byte_array h (new_from_network n)) < W64 ->
  exists n' r, network_load bm n0 (fst (network_save h n fs name WriteOk)) name = Done (n', r) /\ (r <> Ok tt -> n' = n0)
    /\ (r = Ok tt <-> layers n0 = [] \/ layers n = [] \/ net_output_shape n0 = net_input_shape n).
Proof.
  intros B St B0 V L. apply (saved_load_atomic f32_bits_ok bm h n n0); try assumption.
  - exact (proj1 (built_ok bm n (f32_relu_agrees e) B)).
  - exact (built_ok bm n0 (f32_relu_agrees e) B0).
  - apply fs_set_same.
Qed.

Lemma network_undecodable bm (n : network f32) fs name : (forall b, fs name = Some b -> deserialize dec_network b = None) ->
  exists m, network_load bm n fs name = Done (n, Err m).
Proof. intros H. unfold network_load. destruct (fs name) as [b|]; [|eauto]. rewrite (H b eq_refl). eauto. Qed.

Lemma layer_round_trip bm h k (l : layer f32) : storable l -> valid_order h ->
  exists em l', empty_like bm l = Done em /\ load_from_serialized bm em (order_layer h k (get_serialized l)) = Done (l', Ok tt)
    /\ params_of l' = params_of l /\ get_name l' = get_name l /\ get_run_mode l' = Inference.
Proof.
  intros S V. destruct (load_layer f32_bits_ok bm h k l V S) as (em & l' & H1 & H2 & H3 & H4 & H5 & _). exists em, l'. auto.
Qed.
End F32.
