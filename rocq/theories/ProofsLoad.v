(** * Exact outcome of loading a file (C43, C44) *)
From Coq Require Import ZifyBool ZifyNat ZifyN Lia.
From Verif Require Import Base Arith Helper Tensor Bincode Network Serial Float32 Spec SpecLayer SpecSerial SpecLoad.
From Verif Require Import Convolution Convolutional Loops ProofsLayer TensorFacts ProofsTensor LayerFacts ProofsBuild.
Ltac Zify.zify_post_hook ::= Z.div_mod_to_equations.

Section Scalars.
Context {F : Type} {AR : Arith F} {BT : Bits F}.
Notation T := (tensor F).

Definition total {A} (r : res A) : Prop := exists a, r = Done a.

Lemma total_bind {A B} (r : res A) (f : A -> res B) : total r -> (forall a, total (f a)) -> total (bind r f).
Proof. intros (a & ->) H. cbn [bind]. apply H. Qed.
Lemma total_done {A} (a : A) : total (Done a).
Proof. exists a. reflexivity. Qed.

Lemma new_total s : total (tensor_new (F := F) Release s).
Proof. unfold tensor_new. rewrite total_size_release, stride_of_shape_release. apply total_done. Qed.
Lemma empty_total : total (tensor_empty (F := F) Release).
Proof. apply new_total. Qed.

Lemma size_total s : total (total_size Release s).
Proof. rewrite total_size_release. apply total_done. Qed.

Lemma forM_total {A S} (f : A -> S -> res S) l : (forall a s, total (f a s)) -> forall s, total (forM l f s).
Proof. intros H. induction l as [|a l IH]; intros s; cbn [forM]; [apply total_done|]. apply total_bind; [apply H|exact IH]. Qed.

Ltac tot := repeat first
  [ apply total_done | apply new_total | apply empty_total | apply size_total
  | apply total_bind; [|intros] | apply forM_total; intros
  | match goal with |- total (match ?x with _ => _ end) => destruct x end
  | match goal with |- total (let _ := _ in _) => cbv zeta end ].

Lemma switch_training_total (l : layer F) : total (switch_to_training Release l).
Proof.
  destruct l as [l|l|l|l]; cbn [switch_to_training];
    unfold cv_switch_to_training, fc_switch_to_training, mp_switch_to_training, sm_switch_to_training, cv_update, fc_update, mp_update, sm_update; cbn; tot.
Qed.
Lemma switch_inference_total (l : layer F) : total (switch_to_inference Release l).
Proof.
  destruct l as [l|l|l|l]; cbn [switch_to_inference];
    unfold cv_switch_to_inference, fc_switch_to_inference, mp_switch_to_inference, sm_switch_to_inference, cv_update, fc_update, mp_update, sm_update; cbn; tot.
Qed.

Lemma add_layer_release n (l : layer F) : total (add_layer Release n l).
Proof.
  unfold add_layer. apply total_bind; [destruct (net_run_state n); [apply switch_inference_total|apply switch_training_total]|intros]. tot.
Qed.

Lemma load_and_add_total {X} (c : X -> layer F) r n : total r -> total (load_and_add Release c r n).
Proof. intros H. unfold load_and_add. apply total_bind; [exact H|]. intros [l []]; [apply add_layer_release|apply total_done]. Qed.

Lemma sub_total a b : total (u32_sub Release a b).
Proof. unfold u32_sub. tot. Qed.
Lemma add_total a b : total (u32_add Release a b).
Proof. rewrite u32_add_release. tot. Qed.
Lemma rem_total a b : b <> 0 -> total (u32_rem a b).
Proof. intros H. unfold u32_rem. destruct (N.eqb_spec b 0); [contradiction|tot]. Qed.
Lemma div_total a b : b <> 0 -> total (u32_div a b).
Proof. intros H. unfold u32_div. destruct (N.eqb_spec b 0); [contradiction|tot]. Qed.

Lemma fits_total a b s : s <> 0 -> total (does_kernel_stride_fit_image Release a b s).
Proof. intros H. unfold does_kernel_stride_fit_image. repeat first [apply sub_total | apply rem_total; exact H | progress tot]. Qed.
Lemma dims_total a b s : s <> 0 -> total (get_convolution_dim_fit Release a b s).
Proof. intros H. unfold get_convolution_dim_fit. repeat first [apply sub_total | apply add_total | apply div_total; exact H | progress tot]. Qed.

Lemma fits_zero a b : exists p, does_kernel_stride_fit_image Release a b 0 = Panic p.
Proof. unfold does_kernel_stride_fit_image. destruct (sub_total (di a) (di b)) as (x & ->). cbn [bind]. unfold u32_rem. cbn. eexists. reflexivity. Qed.

Lemma mp_fill_total (l : mp_layer) a b s nm : s <> 0 -> total (mp_fill_from_state Release l a b s nm).
Proof.
  intros H. unfold mp_fill_from_state. apply total_bind; [apply fits_total; exact H|]. intros []; cbn [negb]; [|apply total_done].
  apply total_bind; [apply dims_total; exact H|]. intros []. apply total_done.
Qed.
Lemma cv_fill_total (l : conv_layer F) k b i s nm : s <> 0 -> total (cv_fill_from_state Release l k b i s nm).
Proof.
  intros H. unfold cv_fill_from_state. destruct k; [apply total_done|]. destruct (negb _); [apply total_done|].
  apply total_bind; [apply fits_total; exact H|]. intros []; cbn [negb]; [|apply total_done].
  apply total_bind; [apply dims_total; exact H|]. intros []. apply total_done.
Qed.
Lemma fc_fill_total (l : fc_layer F) w b nm : total (fc_fill_from_state Release l w b nm).
Proof. unfold fc_fill_from_state, fc_update. tot. Qed.

Lemma total_no_panic {A} (r : res A) : total r -> ~ exists p, r = Panic p.
Proof. intros (a & ->) (p & E). discriminate. Qed.

(** One entry: absent, undecodable or decoded. *)
Lemma entry_cases {K A} keqb (m : @hmap K) k (p : parser A) :
  hm_get keqb m k = None \/ undecodable keqb m k p \/ exists a, stored keqb m k p a.
Proof.
  destruct (hm_get keqb m k) as [b|] eqn:G; [|auto]. destruct (deserialize p b) as [a|] eqn:D; [right; right; exists a|right; left]; exists b; auto.
Qed.

Lemma stored_fun {K A} keqb (m : @hmap K) k (p : parser A) a a' : stored keqb m k p a -> stored keqb m k p a' -> a = a'.
Proof. intros (b & G & D) (b' & G' & D'). congruence. Qed.
Lemma stored_undecodable {K A} keqb (m : @hmap K) k (p : parser A) a : stored keqb m k p a -> ~ undecodable keqb m k p.
Proof. intros (b & G & D) (b' & G' & D'). congruence. Qed.

Lemma load_and_add_panic {X} (c : X -> layer F) r n : (exists p, load_and_add Release c r n = Panic p) <-> exists p, r = Panic p.
Proof.
  split; [|intros (p & ->); exists p; reflexivity]. intros H. destruct r as [a|p]; [|eauto]. exfalso. revert H. apply total_no_panic, load_and_add_total, total_done.
Qed.

Lemma read_entry {K A B} keqb (m : @hmap K) k (p : parser A) (f : A -> res B) a : stored keqb m k p a ->
  (d <- get_expect keqb m k ;; x <- deserialize_expect p d ;; f x) = f a.
Proof. intros (b & G & D). unfold get_expect. rewrite G. cbn [bind]. unfold deserialize_expect. rewrite D. reflexivity. Qed.
Lemma read_bad {K A B} keqb (m : @hmap K) k (p : parser A) (f : A -> res B) : undecodable keqb m k p ->
  (d <- get_expect keqb m k ;; x <- deserialize_expect p d ;; f x) = Panic PUnwrap.
Proof. intros (b & G & D). unfold get_expect. rewrite G. cbn [bind]. unfold deserialize_expect. rewrite D. reflexivity. Qed.

Lemma has_stored {K A} keqb (m : @hmap K) k (p : parser A) a : stored keqb m k p a -> hm_get keqb m k <> None.
Proof. intros (b & G & _). congruence. Qed.
Lemma has_undecodable {K A} keqb (m : @hmap K) k (p : parser A) : undecodable keqb m k p -> hm_get keqb m k <> None.
Proof. intros (b & G & _). congruence. Qed.
Lemma contains_get {K} keqb (m : @hmap K) k : hm_contains keqb m k = true <-> hm_get keqb m k <> None.
Proof. unfold hm_contains. destruct (hm_get keqb m k); split; congruence. Qed.

(** All entries there, or one of them missing. *)
Lemma keys_cases {K} keqb (m : @hmap K) (ks : list K) : (forall k, In k ks) ->
  (forall k, hm_get keqb m k <> None) \/ exists k, In k ks /\ hm_contains keqb m k = false.
Proof.
  intros A. assert (D : (forall k, In k ks -> hm_get keqb m k <> None) \/ exists k, In k ks /\ hm_contains keqb m k = false).
  { clear A. induction ks as [|k ks [H|(k' & I & H)]].
    - left. intros k [].
    - destruct (hm_contains keqb m k) eqn:C; [left|right; exists k; split; [left; reflexivity|exact C]].
      intros k' [<-|I]; [apply contains_get; exact C|apply H; exact I].
    - right. exists k'. split; [right; exact I|exact H]. }
  destruct D as [D|D]; [left|right]; auto.
Qed.

Lemma missing {K} keqb (m : @hmap K) k : hm_contains keqb m k = false -> ~ forall k, hm_get keqb m k <> None.
Proof. intros C H. specialize (H k). apply contains_get in H. congruence. Qed.

Ltac clash := match goal with
  | U : undecodable ?q ?m ?k ?p, S : stored ?q ?m ?k ?p _ |- _ => exact (stored_undecodable _ _ _ _ _ S U)
  end.

Lemma fc_load_panic (l : fc_layer F) m : (exists p, fc_load_data Release l m = Panic p) <-> unloadable (F := F) (SerialFullyConnectedLayer m).
Proof.
  cbn [unloadable]. destruct (keys_cases fc_key_eqb m [FKWeights; FKBias; FKName]) as [H|(k & _ & C)]; [intros []; cbn; tauto| |].
  - unfold fc_load_data. rewrite !(proj2 (contains_get _ _ _)) by apply H. cbn [negb].
    destruct (entry_cases fc_key_eqb m FKWeights (dec_tensor (F := F))) as [G|[U|(w & S1)]]; [exfalso; exact (H _ G)|rewrite (read_bad _ _ _ _ _ U); split; eauto|].
    rewrite (read_entry _ _ _ _ _ _ S1).
    destruct (entry_cases fc_key_eqb m FKBias (dec_tensor (F := F))) as [G|[U|(b & S2)]]; [exfalso; exact (H _ G)|rewrite (read_bad _ _ _ _ _ U); split; eauto|].
    rewrite (read_entry _ _ _ _ _ _ S2).
    destruct (entry_cases fc_key_eqb m FKName dec_string) as [G|[U|(nm & S3)]]; [exfalso; exact (H _ G)|rewrite (read_bad _ _ _ _ _ U); split; eauto|].
    rewrite (read_entry _ _ _ _ _ _ S3). split; [intros P; exfalso; revert P; apply total_no_panic, fc_fill_total|].
    intros (_ & D). exfalso. repeat destruct D as [D|D]; clash.
  - split; [|intros (H & _); exfalso; exact (missing _ _ _ C H)]. intros P. exfalso. revert P. apply total_no_panic. unfold fc_load_data.
    destruct (hm_contains fc_key_eqb m FKName) eqn:C1; [|apply total_done]. destruct (hm_contains fc_key_eqb m FKWeights) eqn:C2; [|apply total_done].
    destruct (hm_contains fc_key_eqb m FKBias) eqn:C3; [|apply total_done]. destruct k; congruence.
Qed.

Lemma sm_load_panic (l : sm_layer F) m : (exists p, sm_load_data l m = Panic p) <-> unloadable (F := F) (SerialSoftMaxLayer m).
Proof.
  cbn [unloadable]. destruct (keys_cases sm_key_eqb m [SKShape; SKName]) as [H|(k & _ & C)]; [intros []; cbn; tauto| |].
  - unfold sm_load_data. rewrite !(proj2 (contains_get _ _ _)) by apply H. cbn [negb].
    destruct (entry_cases sm_key_eqb m SKShape dec_shape) as [G|[U|(w & S1)]]; [exfalso; exact (H _ G)|rewrite (read_bad _ _ _ _ _ U); split; eauto|].
    rewrite (read_entry _ _ _ _ _ _ S1).
    destruct (entry_cases sm_key_eqb m SKName dec_string) as [G|[U|(nm & S3)]]; [exfalso; exact (H _ G)|rewrite (read_bad _ _ _ _ _ U); split; eauto|].
    rewrite (read_entry _ _ _ _ _ _ S3). split; [intros P; exfalso; revert P; apply total_no_panic, total_done|].
    intros (_ & D). exfalso. repeat destruct D as [D|D]; clash.
  - split; [|intros (H & _); exfalso; exact (missing _ _ _ C H)]. intros P. exfalso. revert P. apply total_no_panic. unfold sm_load_data.
    destruct (hm_contains sm_key_eqb m SKName) eqn:C1; [|apply total_done]. destruct (hm_contains sm_key_eqb m SKShape) eqn:C2; [|apply total_done].
    destruct k; congruence.
Qed.

Lemma mp_load_panic (l : mp_layer) m : (exists p, mp_load_data Release l m = Panic p) <-> unloadable (F := F) (SerialMaxPoolLayer m).
Proof.
  cbn [unloadable]. destruct (keys_cases mp_key_eqb m [MKInputShape; MKMaskShape; MKStride; MKName]) as [H|(k & _ & C)]; [intros []; cbn; tauto| |].
  - unfold mp_load_data. rewrite !(proj2 (contains_get _ _ _)) by apply H. cbn [negb].
    destruct (entry_cases mp_key_eqb m MKMaskShape dec_shape) as [G|[U|(w & S1)]]; [exfalso; exact (H _ G)|rewrite (read_bad _ _ _ _ _ U); split; eauto|].
    rewrite (read_entry _ _ _ _ _ _ S1).
    destruct (entry_cases mp_key_eqb m MKInputShape dec_shape) as [G|[U|(i & S2)]]; [exfalso; exact (H _ G)|rewrite (read_bad _ _ _ _ _ U); split; eauto|].
    rewrite (read_entry _ _ _ _ _ _ S2).
    destruct (entry_cases mp_key_eqb m MKStride dec_u32) as [G|[U|(s & S4)]]; [exfalso; exact (H _ G)|rewrite (read_bad _ _ _ _ _ U); split; eauto 6|].
    rewrite (read_entry _ _ _ _ _ _ S4).
    destruct (entry_cases mp_key_eqb m MKName dec_string) as [G|[U|(nm & S3)]]; [exfalso; exact (H _ G)|rewrite (read_bad _ _ _ _ _ U); split; eauto 7|].
    rewrite (read_entry _ _ _ _ _ _ S3). destruct (N.eq_dec s 0) as [->|Hs].
    + split; [intros _; split; [exact H|]; do 4 right; exact S4|]. intros _. unfold mp_fill_from_state. destruct (fits_zero i w) as (p & ->). exists p. reflexivity.
    + split; [intros P; exfalso; revert P; apply total_no_panic, mp_fill_total; exact Hs|].
      intros (_ & D). exfalso. repeat destruct D as [D|D]; try clash. apply Hs. exact (stored_fun _ _ _ _ _ _ S4 D).
  - split; [|intros (H & _); exfalso; exact (missing _ _ _ C H)]. intros P. exfalso. revert P. apply total_no_panic. unfold mp_load_data.
    destruct (hm_contains mp_key_eqb m MKName) eqn:C1; [|apply total_done]. destruct (hm_contains mp_key_eqb m MKMaskShape) eqn:C2; [|apply total_done].
    destruct (hm_contains mp_key_eqb m MKInputShape) eqn:C3; [|apply total_done]. destruct (hm_contains mp_key_eqb m MKStride) eqn:C4; [|apply total_done].
    destruct k; congruence.
Qed.

Lemma cv_load_panic (l : conv_layer F) m : (exists p, cv_load_data Release l m = Panic p) <-> unloadable (F := F) (SerialConvolutionalLayer m).
Proof.
  cbn [unloadable]. destruct (keys_cases cv_key_eqb m [KKernels; KBiases; KInputShape; KStride; KName]) as [H|(k & _ & C)]; [intros []; cbn; tauto| |].
  - unfold cv_load_data. rewrite !(proj2 (contains_get _ _ _)) by apply H. cbn [negb].
    destruct (entry_cases cv_key_eqb m KKernels (dec_tensors (F := F))) as [G|[U|(ks & S1)]]; [exfalso; exact (H _ G)|rewrite (read_bad _ _ _ _ _ U); split; eauto|].
    rewrite (read_entry _ _ _ _ _ _ S1).
    destruct (entry_cases cv_key_eqb m KBiases (dec_tensors (F := F))) as [G|[U|(bs & S5)]]; [exfalso; exact (H _ G)|rewrite (read_bad _ _ _ _ _ U); split; eauto|].
    rewrite (read_entry _ _ _ _ _ _ S5).
    destruct (entry_cases cv_key_eqb m KInputShape dec_shape) as [G|[U|(i & S2)]]; [exfalso; exact (H _ G)|rewrite (read_bad _ _ _ _ _ U); split; eauto 6|].
    rewrite (read_entry _ _ _ _ _ _ S2).
    destruct (entry_cases cv_key_eqb m KStride dec_u32) as [G|[U|(s & S4)]]; [exfalso; exact (H _ G)|rewrite (read_bad _ _ _ _ _ U); split; eauto 7|].
    rewrite (read_entry _ _ _ _ _ _ S4).
    destruct (entry_cases cv_key_eqb m KName dec_string) as [G|[U|(nm & S3)]]; [exfalso; exact (H _ G)|rewrite (read_bad _ _ _ _ _ U); split; eauto 8|].
    rewrite (read_entry _ _ _ _ _ _ S3). destruct (N.eq_dec s 0) as [->|Hs].
    + unfold cv_fill_from_state. destruct ks as [|k0 kr].
      * split; [intros (p & E); discriminate|]. intros (_ & D). exfalso. repeat destruct D as [D|D]; try clash.
        destruct D as (_ & k0 & ks & S & _). pose proof (stored_fun _ _ _ _ _ _ S1 S). discriminate.
      * cbn [forallb]. assert (E0 : shape_eqb (get_shape k0) (get_shape k0) = true) by (destruct (shape_eqb_spec (get_shape k0) (get_shape k0)); congruence).
        rewrite E0. cbn [andb]. destruct (forallb (fun k => shape_eqb (get_shape k) (get_shape k0)) kr) eqn:A; cbn [negb].
        -- split; [intros _|intros _; destruct (fits_zero i (get_shape k0)) as (p & ->); exists p; reflexivity]. split; [exact H|]. do 5 right.
           split; [exact S4|]. exists k0, kr. split; [exact S1|]. apply Forall_forall. intros k I.
           apply (proj1 (forallb_forall _ _) A) in I. destruct (shape_eqb_spec (get_shape k) (get_shape k0)); [assumption|discriminate].
        -- split; [intros (p & E); discriminate|]. intros (_ & D). exfalso. repeat destruct D as [D|D]; try clash.
           destruct D as (_ & k1 & ks & S & Al). pose proof (stored_fun _ _ _ _ _ _ S1 S) as E. injection E as <- <-.
           rewrite <- not_true_iff_false in A. apply A, forallb_forall. intros k I. rewrite Forall_forall in Al. apply Al in I.
           destruct (shape_eqb_spec (get_shape k) (get_shape k0)); [reflexivity|contradiction].
    + split; [intros P; exfalso; revert P; apply total_no_panic, cv_fill_total; exact Hs|].
      intros (_ & D). exfalso. repeat destruct D as [D|D]; try clash. destruct D as (D & _). apply Hs. exact (stored_fun _ _ _ _ _ _ S4 D).
  - split; [|intros (H & _); exfalso; exact (missing _ _ _ C H)]. intros P. exfalso. revert P. apply total_no_panic. unfold cv_load_data.
    destruct (hm_contains cv_key_eqb m KName) eqn:C1; [|apply total_done]. destruct (hm_contains cv_key_eqb m KKernels) eqn:C2; [|apply total_done].
    destruct (hm_contains cv_key_eqb m KBiases) eqn:C5; [|apply total_done].
    destruct (hm_contains cv_key_eqb m KInputShape) eqn:C3; [|apply total_done]. destruct (hm_contains cv_key_eqb m KStride) eqn:C4; [|apply total_done].
    destruct k; congruence.
Qed.

Lemma add_to_network_panic (s : serialized_layer) (n : network F) : (exists p, add_to_network Release s n = Panic p) <-> unloadable (F := F) s.
Proof.
  destruct s as [m|m|m|m]; cbn [add_to_network]; rewrite load_and_add_panic.
  - unfold cv_empty. destruct empty_total as (t & ->). cbn [bind cv_load]. apply cv_load_panic.
  - unfold fc_empty. destruct empty_total as (t & ->). cbn [bind fc_load]. apply fc_load_panic.
  - cbn [mp_load]. apply mp_load_panic.
  - unfold sm_empty. destruct empty_total as (t & ->). cbn [bind sm_load]. apply sm_load_panic.
Qed.

(** The layers before the first one that is not added. *)
Lemma tryM_cases {A S} (f : A -> S -> res (S * result unit)) l s :
  (exists s', tryM l f s = Done (s', Ok tt))
  \/ exists l1 x l2 s1, l = l1 ++ x :: l2 /\ tryM l1 f s = Done (s1, Ok tt)
     /\ ((exists p, f x s1 = Panic p /\ tryM l f s = Panic p) \/ exists s2 m, f x s1 = Done (s2, Err m) /\ tryM l f s = Done (s2, Err m)).
Proof.
  revert s. induction l as [|a l IH]; intros s; [left; eexists; reflexivity|]. cbn [tryM]. destruct (f a s) as [[s' [[]|m]]|p] eqn:E; cbn [bind].
  - destruct (IH s') as [H|(l1 & x & l2 & s1 & -> & T1 & H)]; [left; exact H|right]. exists (a :: l1), x, l2, s1.
    split; [reflexivity|]. split; [cbn [tryM]; rewrite E; exact T1|exact H].
  - right. exists [], a, l, s. split; [reflexivity|]. split; [reflexivity|]. right. eauto.
  - right. exists [], a, l, s. split; [reflexivity|]. split; [reflexivity|]. left. eauto.
Qed.

Lemma tryM_app {A S} (f : A -> S -> res (S * result unit)) l1 l2 s s1 : tryM l1 f s = Done (s1, Ok tt) -> tryM (l1 ++ l2) f s = tryM l2 f s1.
Proof.
  revert s. induction l1 as [|a l1 IH]; intros s E; cbn [tryM app] in *; [congruence|].
  destruct (f a s) as [[s' [[]|]]|]; cbn [bind] in *; try discriminate. apply IH. exact E.
Qed.

(** C43: what an unsuccessful load leaves behind. *)
Lemma add_layer_err bm (n n' : network F) l m : add_layer bm n l = Done (n', Err m) -> n' = n.
Proof.
  unfold add_layer. intros E. apply bind_done in E. destruct E as (l' & _ & E). destruct (rev (layers n)).
  - repeat (apply bind_done in E; destruct E as (? & _ & E)). congruence.
  - destruct (negb _); [congruence|]. repeat (apply bind_done in E; destruct E as (? & _ & E)). congruence.
Qed.

Lemma add_to_network_err bm s (n n' : network F) m : add_to_network bm s n = Done (n', Err m) -> n' = n.
Proof.
  assert (H : forall X (c : X -> layer F) r, load_and_add bm c r n = Done (n', Err m) -> n' = n).
  { intros X c r E. unfold load_and_add in E. apply bind_done in E. destruct E as ((l & []) & _ & E); [exact (add_layer_err _ _ _ _ _ E)|congruence]. }
  destruct s; cbn [add_to_network]; apply H.
Qed.

Lemma load_fails_exactly bm (n n' : network F) fs name m : network_load bm n fs name = Done (n', Err m) ->
  (n' = n /\ forall b, fs name = Some b -> deserialize dec_network b = None)
  \/ exists b before s after, fs name = Some b /\ deserialize dec_network b = Some (before ++ s :: after)
       /\ populate_network bm before n = Done (n', Ok tt) /\ add_to_network bm s n' = Done (n', Err m).
Proof.
  unfold network_load. intros E. destruct (fs name) as [b|]; [|left; split; [congruence|discriminate]].
  destruct (deserialize dec_network b) as [sn|] eqn:D; [right|left; split; [congruence|intros b' [= <-]; exact D]].
  unfold populate_network in *. destruct (tryM_cases (add_to_network bm) sn n) as [(s' & H)|(l1 & x & l2 & s1 & -> & T1 & [(q & Q & T2)|(s2 & m2 & Q & T2)])]; [congruence|congruence|].
  assert (E2 : (s2, Err m2) = (n', @Err unit m)) by congruence. injection E2 as -> ->. pose proof (add_to_network_err _ _ _ _ _ Q). subst s1.
  exists b, l1, x, l2. auto.
Qed.

(** C44 *)
Lemma load_panics_exactly (n : network F) fs name :
  (exists p, network_load Release n fs name = Panic p)
  <-> exists b before s after n1, fs name = Some b /\ deserialize dec_network b = Some (before ++ s :: after)
      /\ populate_network Release before n = Done (n1, Ok tt) /\ unloadable (F := F) s.
Proof.
  unfold network_load. split.
  - intros (p & E). destruct (fs name) as [b|]; [|discriminate]. destruct (deserialize dec_network b) as [sn|] eqn:D; [|discriminate].
    unfold populate_network in *. destruct (tryM_cases (add_to_network Release) sn n) as [(s' & H)|(l1 & x & l2 & s1 & -> & T1 & [(q & Q & _)|(s2 & m & _ & T2)])]; [congruence| |congruence].
    exists b, l1, x, l2, s1. repeat split; [exact D|exact T1|]. apply (add_to_network_panic x s1). eauto.
  - intros (b & l1 & x & l2 & n1 & -> & -> & T1 & U). unfold populate_network in *. rewrite (tryM_app _ _ _ _ _ T1). cbn [tryM].
    apply (add_to_network_panic x n1) in U. destruct U as (p & ->). exists p. reflexivity.
Qed.

Lemma load_panics_debug (n : network F) fs name : (exists p, network_load Release n fs name = Panic p) -> exists p, network_load Debug n fs name = Panic p.
Proof.
  intros (p & E). destruct (network_load Debug n fs name) as [v|q] eqn:D; [|eauto]. pose proof (b_network_load n fs name) as L. rewrite D, E in L. discriminate L.
Qed.

(** C47 *)
Lemma relu_ok_inv bm (im k b r t : T) stride ch : convolution_bias_relu bm im k b stride r ch = Done (t, Ok tt) ->
  dk (tshape im) = dk (tshape k) /\ at_most_one (tshape b).
Proof.
  unfold convolution_bias_relu, get_shape. intros E. apply bind_done in E. destruct E as (c & C & E). destruct c as [[]|]; [|discriminate].
  unfold check_convolution_dimensions in C. destruct (N.eqb_spec (dk (tshape im)) (dk (tshape k))) as [D|]; cbn [negb] in C; [|discriminate].
  split; [exact D|]. destruct ((1 <? di (tshape b)) || (1 <? dj (tshape b)) || (1 <? dk (tshape b))) eqn:O; [discriminate|]. unfold at_most_one. lia.
Qed.

Lemma tryM_each {A S} (f : A -> S -> res (S * result unit)) l s s' : tryM l f s = Done (s', Ok tt) ->
  forall x, In x l -> exists s1 s2, f x s1 = Done (s2, Ok tt).
Proof.
  revert s. induction l as [|a l IH]; intros s E x I; [destruct I|]. cbn [tryM] in E. apply bind_done in E. destruct E as ((s1 & [[]|]) & E1 & E); [|discriminate].
  destruct I as [<-|I]; [eauto|]. exact (IH _ E x I).
Qed.

Lemma tryM_same {A S} (f g : A -> S -> res (S * result unit)) l : (forall x s, In x l -> f x s = g x s) -> forall s, tryM l f s = tryM l g s.
Proof.
  induction l as [|a l IH]; intros H s; [reflexivity|]. cbn [tryM]. rewrite (H a s) by (left; reflexivity).
  destruct (g a s) as [[s1 [[]|]]|]; cbn [bind]; try reflexivity. apply IH. intros x s2 I. apply H. right. exact I.
Qed.

Lemma vget_firstn {A} (l : list A) n i : i < N.of_nat n -> vget (firstn n l) i = vget l i.
Proof.
  intros H. unfold vget, len. rewrite firstn_length. destruct (N.ltb_spec i (N.of_nat (length l))).
  - destruct (N.ltb_spec i (N.of_nat (Nat.min n (length l)))); [|lia].
    rewrite <- (firstn_skipn n l) at 2. rewrite nth_error_app1 by (rewrite firstn_length; lia). reflexivity.
  - destruct (N.ltb_spec i (N.of_nat (Nat.min n (length l)))); [lia|reflexivity].
Qed.

Lemma conv_forward_exactly bm (l0 l : conv_layer F) kernels biases ins stride name ks (X Y0 : T) :
  relu_agrees F -> cv_fill_from_state bm l0 kernels biases ins stride name = Done (l, Ok tt) ->
  Forall (fun k => shaped k ks) kernels -> Forall wf biases -> len kernels < W32 -> (bm = Debug \/ kernel_fits ins ks) ->
  ~ extent_edge (di ins) (di ks) stride -> ~ extent_edge (dj ins) (dj ks) stride ->
  cv_run_state l0 = Inference -> shaped X (cv_input_shape l) -> shaped Y0 (cv_output_shape l) ->
  ((exists l' Y, cv_forward bm l X Y0 = Done (l', Y, Ok tt))
   <-> dk ks = dk ins /\ forall i, i < len kernels -> exists b, nth_error biases (N.to_nat i) = Some b /\ at_most_one (tshape b)).
Proof.
  intros RA E Hk Hb Lk Fi N0 N1 R Hx Hy.
  assert (Eq : kernels <> [] /\ cv_run_state l = Inference /\ cv_kernels l = kernels /\ cv_biases l = biases /\ cv_stride l = stride /\ cv_input_shape l = ins
    /\ dk (cv_output_shape l) = len kernels /\ forall bs, exists l1, cv_fill_from_state bm l0 kernels bs ins stride name = Done (l1, Ok tt)
         /\ cv_run_state l1 = Inference /\ cv_kernels l1 = kernels /\ cv_biases l1 = bs /\ cv_stride l1 = stride
         /\ cv_input_shape l1 = cv_input_shape l /\ cv_output_shape l1 = cv_output_shape l).
  { unfold cv_fill_from_state in *. destruct kernels as [|k0 kr]; [discriminate|]. split; [discriminate|]. destruct (negb _); [discriminate|].
    destruct (does_kernel_stride_fit_image _ _ _ _) as [fits|]; [|discriminate]. cbn [bind] in *. destruct (negb fits); [discriminate|].
    destruct (get_convolution_dim_fit _ _ _ _) as [[d0 d1]|]; [|discriminate]. cbn [bind] in *. injection E as <-.
    cbn [cv_run_state cv_kernels cv_biases cv_stride cv_input_shape cv_output_shape dk]. repeat split; try assumption.
    - unfold as_u32. apply N.mod_small. exact Lk.
    - intros bs. eexists. split; [reflexivity|]. cbn. auto 10. }
  destruct Eq as (Ne & Rl & El & Eb & Es & Ei & Eo & Any).
  split.
  - intros (l' & Y & C). unfold cv_forward in C. rewrite Rl, El, Eb, Es, Eo in C. apply bind_done in C. destruct C as ((out & r) & T1 & C). injection C as _ _ ->.
    assert (Q : forall i, i < len kernels -> exists k b, nth_error kernels (N.to_nat i) = Some k /\ nth_error biases (N.to_nat i) = Some b
      /\ dk (tshape X) = dk (tshape k) /\ at_most_one (tshape b)).
    { intros i Hi. destruct (tryM_each _ _ _ _ T1 i) as (s1 & s2 & D); [apply in_Nrange; lia|].
      apply bind_done in D. destruct D as (k & Gk & D). apply bind_done in D. destruct D as (b & Gb & D).
      apply vget_done in Gk. apply vget_done in Gb. exists k, b. split; [apply Gk|]. split; [apply Gb|]. exact (relu_ok_inv _ _ _ _ _ _ _ _ D). }
    split; [|intros i Hi; destruct (Q i Hi) as (k & b & _ & Gb & _ & O); eauto].
    destruct (Q 0) as (k & b & Gk & _ & D & _). { destruct kernels; [contradiction|]. unfold len. cbn. lia. }
    apply nth_error_In in Gk. rewrite Forall_forall in Hk. apply Hk in Gk. destruct Gk as (_ & Sk). destruct Hx as (_ & Sx). rewrite Sk, Sx, Ei in D. congruence.
  - intros (D & Q). set (n := length kernels). destruct (Any (firstn n biases)) as (l1 & E1 & R1 & K1 & B1 & S1 & I1 & O1).
    assert (Ln : (n <= length biases)%nat).
    { destruct (le_lt_dec n (length biases)); [assumption|]. exfalso. destruct (Q (N.of_nat (length biases))) as (b & G & _); [unfold len; fold n; lia|].
      rewrite Nnat.Nat2N.id, (proj2 (nth_error_None _ _)) in G by lia. discriminate. }
    destruct (conv_accepted_forward bm l0 l1 kernels (firstn n biases) ins stride name ks X Y0 RA E1 Hk) as (l' & Y & C).
    + apply Forall_forall. intros b I. split.
      * rewrite Forall_forall in Hb. apply Hb. rewrite <- (firstn_skipn n biases). apply in_or_app. left. exact I.
      * apply In_nth_error in I. destruct I as (i & G). assert (i < n)%nat by (assert (L : (i < length (firstn n biases))%nat) by (apply nth_error_Some; congruence); rewrite firstn_length in L; lia).
        destruct (Q (N.of_nat i)) as (b' & G' & O); [unfold len; fold n; lia|]. rewrite Nnat.Nat2N.id in G'.
        rewrite <- (firstn_skipn n biases), nth_error_app1 in G' by (rewrite firstn_length; lia). congruence.
    + unfold len. rewrite firstn_length. fold n. lia.
    + exact Lk.
    + exact D.
    + exact Fi.
    + exact N0.
    + exact N1.
    + exact R.
    + rewrite I1. exact Hx.
    + rewrite O1. exact Hy.
    + unfold cv_forward in *. rewrite R1, K1, B1, S1, O1, Eo in C. rewrite Rl, El, Eb, Es, Eo.
      rewrite (tryM_same _ (fun i out => k <- vget kernels i ;; b <- vget biases i ;; convolution_bias_relu bm X k b stride out i)) in C.
      * apply bind_done in C. destruct C as ((out & r) & T1 & C). injection C as <- <- ->. rewrite T1. cbn [bind]. eauto.
      * intros i s I. apply in_Nrange in I. rewrite (vget_firstn biases n i) by (unfold len in I; fold n in I; lia). reflexivity.
Qed.

End Scalars.
