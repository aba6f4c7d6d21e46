(** * Proofs for C92: of several entries with the same key the last one counts *)
From Coq Require Import ZifyBool ZifyNat ZifyN.
From Coq.Strings Require Import Byte.
From Verif Require Import Base Arith Helper Tensor Convolution Network Bincode Serial Float32 Spec SpecLayer SpecNet SpecSerial SpecEntries.
From Verif Require Import Loops SerialFacts SerialLayer ProofsSerial.
Local Open Scope list_scope.

(** ** Decoding into a changed value *)
Lemma codec_times_map {A B} (p : parser B) (e : A -> bytes) (f : A -> B) l :
  (forall x, In x l -> codec p (e x) (f x)) -> codec (dec_times (length l) p) (flat_map e l) (map f l).
Proof.
  induction l as [|x l IH]; intros H; cbn [length dec_times flat_map map]; [apply codec_ret|].
  eapply codec_bind; [apply H; left; reflexivity|]. apply (codec_map (dec_times (length l) p) (cons (f x))). apply IH. intros; apply H; right; assumption.
Qed.

Lemma codec_seq_map {A B} (p : parser B) (e : A -> bytes) (f : A -> B) l :
  len l < W64 -> (forall x, In x l -> codec p (e x) (f x)) -> (forall x, In x l -> e x <> []) -> codec (dec_seq p) (enc_seq e l) (map f l).
Proof.
  intros L H NE. unfold dec_seq, enc_seq. eapply codec_bind; [apply codec_u64; exact L|].
  pose proof (codec_times_map p e f l H) as (C1 & C2). pose proof (flat_map_length_ge e l NE) as G.
  unfold len. rewrite Nat2N.id. split.
  - intros rest. replace (N.of_nat (length (flat_map e l ++ rest)) <? N.of_nat (length l)) with false; [apply C1|].
    rewrite app_length. lia.
  - intros b' C. destruct (_ <? _); [reflexivity|]. apply C2. exact C.
Qed.

(** ** Maps *)
Definition collect {K} (keqb : K -> K -> bool) (l : list (K * bytes)) : list (K * bytes) :=
  fold_left (fun m e => hm_insert keqb m (fst e) (snd e)) l [].

Section Maps.
Context {K : Type} (keqb : K -> K -> bool) (ktag : K -> N) (kof : N -> option K).
Hypothesis keqb_spec : forall a b, reflect (a = b) (keqb a b).
Hypothesis kof_tag : forall k, kof (ktag k) = Some k.
Hypothesis tag_u32 : forall k, ktag k < W32.

Lemma codec_collect (m : list (K * bytes)) :
  len m < W64 -> Forall (fun e => len (snd e) < W64) m -> codec (dec_map keqb kof) (enc_map ktag m) (collect keqb m).
Proof.
  intros L H. unfold dec_map, enc_map. rewrite <- (app_nil_r (enc_seq _ _)). eapply codec_bind.
  - apply codec_seq; [exact L| |].
    + intros e He. apply (codec_entry ktag kof kof_tag tag_u32). rewrite Forall_forall in H. apply H. exact He.
    + intros e _. unfold enc_entry, enc_u32. cbn [le_bytes app]. discriminate.
  - apply codec_ret.
Qed.

Lemma get_insert (m : list (K * bytes)) k k' v : hm_get keqb (hm_insert keqb m k v) k' = if keqb k' k then Some v else hm_get keqb m k'.
Proof.
  induction m as [|(q & w) m IH]; cbn [hm_insert hm_get]; [destruct (keqb_spec k' k); reflexivity|].
  destruct (keqb_spec k q) as [->|NE]; cbn [hm_get].
  - destruct (keqb_spec k' q); reflexivity.
  - rewrite IH. destruct (keqb_spec k' q) as [->|]; [|reflexivity]. destruct (keqb_spec q k); congruence.
Qed.

Lemma collect_app l k v : collect keqb (l ++ [(k, v)]) = hm_insert keqb (collect keqb l) k v.
Proof. unfold collect. rewrite fold_left_app. reflexivity. Qed.

Lemma last_snoc l k v k' v' : last_value (l ++ [(k, v)]) k' v' <-> (if keqb k' k then v' = v else last_value l k' v').
Proof.
  destruct (keqb_spec k' k) as [->|NE]; split.
  - intros (a & b & E & N). destruct b as [|x b] using rev_ind; [apply app_inj_tail in E; destruct E; congruence|]. clear IHb.
    change ((k, v') :: b ++ [x]) with (((k, v') :: b) ++ [x]) in E. rewrite app_assoc in E. apply app_inj_tail in E. destruct E as (_ & <-). destruct (N v).
    apply in_or_app. right. left. reflexivity.
  - intros ->. exists l, []. split; [reflexivity|]. intros w [].
  - intros (a & b & E & N). destruct b as [|x b] using rev_ind; [apply app_inj_tail in E; destruct E; congruence|]. clear IHb.
    change ((k', v') :: b ++ [x]) with (((k', v') :: b) ++ [x]) in E. rewrite app_assoc in E. apply app_inj_tail in E. destruct E as (-> & _). exists a, b. split; [reflexivity|].
    intros w W. apply (N w). apply in_or_app. left. exact W.
  - intros (a & b & -> & N). exists a, (b ++ [(k, v)]). split; [rewrite <- app_assoc; reflexivity|]. intros w W. apply in_app_or in W.
    destruct W as [W|[W|[]]]; [exact (N w W)|]. injection W as <- _. congruence.
Qed.

Lemma get_collect l : forall k v, hm_get keqb (collect keqb l) k = Some v <-> last_value l k v.
Proof.
  induction l as [|(q & w) l IH] using rev_ind; intros k v.
  - cbn. split; [discriminate|]. intros (a & b & E & _). destruct a; discriminate E.
  - rewrite collect_app, get_insert, last_snoc. destruct (keqb k q); [split; congruence|]. apply IH.
Qed.

Lemma same_get l l' k : same_last l l' -> hm_get keqb (collect keqb l) k = hm_get keqb (collect keqb l') k.
Proof.
  intros S. destruct (hm_get keqb (collect keqb l) k) as [v|] eqn:E.
  - symmetry. apply get_collect, S, get_collect. exact E.
  - destruct (hm_get keqb (collect keqb l') k) as [v|] eqn:E'; [|reflexivity]. apply get_collect, S, get_collect in E'. congruence.
Qed.
End Maps.

Definition collected (s : serialized_layer) : serialized_layer :=
  match s with
  | SerialConvolutionalLayer l => SerialConvolutionalLayer (collect cv_key_eqb l)
  | SerialFullyConnectedLayer l => SerialFullyConnectedLayer (collect fc_key_eqb l)
  | SerialMaxPoolLayer l => SerialMaxPoolLayer (collect mp_key_eqb l)
  | SerialSoftMaxLayer l => SerialSoftMaxLayer (collect sm_key_eqb l)
  end.

Lemma codec_any_layer s : len (enc_layer s) < W64 -> codec dec_layer (enc_layer s) (collected s).
Proof.
  intros L. unfold dec_layer.
  assert (G : forall K (ktag : K -> N) n m, len (enc_u32 n ++ enc_map ktag m) < W64 -> len m < W64 /\ Forall (fun e => len (snd e) < W64) m).
  { intros K ktag n m H. apply (map_bounds ktag). unfold len in *. rewrite app_length in H. lia. }
  destruct s as [m|m|m|m]; cbn [enc_layer collected] in *; apply G in L; destruct L as (L & H);
    (eapply codec_bind; [apply codec_u32; reflexivity|cbv beta iota]).
  - apply (codec_map _ SerialConvolutionalLayer). apply codec_collect; auto using cv_kof, cv_ktag.
  - apply (codec_map _ SerialFullyConnectedLayer). apply codec_collect; auto using fc_kof, fc_ktag.
  - apply (codec_map _ SerialMaxPoolLayer). apply codec_collect; auto using mp_kof, mp_ktag.
  - apply (codec_map _ SerialSoftMaxLayer). apply codec_collect; auto using sm_kof, sm_ktag.
Qed.

Lemma codec_any_network sn : len (enc_network sn) < W64 -> codec dec_network (enc_network sn) (map collected sn).
Proof.
  intros L. unfold enc_network, enc_seq, len in L. rewrite app_length in L. apply codec_seq_map.
  - assert (length sn <= length (flat_map enc_layer sn))%nat; [|unfold len; lia].
    apply flat_map_length_ge. intros; apply enc_layer_nonempty.
  - intros s Hs. apply codec_any_layer. pose proof (flat_map_in_length enc_layer sn s Hs). unfold len. lia.
  - intros; apply enc_layer_nonempty.
Qed.

(** ** Loading only looks keys up *)
Section Scalars.
Context {F : Type} {AR : Arith F} {BT : Bits F}.

Lemma add_same bm s s' (n : network F) : same_entries s s' -> add_to_network bm (collected s) n = add_to_network bm (collected s') n.
Proof.
  assert (C : forall K (keqb : K -> K -> bool) m m' k, hm_get keqb m k = hm_get keqb m' k -> hm_contains keqb m k = hm_contains keqb m' k)
    by (intros ? ? ? ? ? E; unfold hm_contains; rewrite E; reflexivity).
  assert (G : forall K (keqb : K -> K -> bool) m m' k, hm_get keqb m k = hm_get keqb m' k -> get_expect keqb m k = get_expect keqb m' k)
    by (intros ? ? ? ? ? E; unfold get_expect; rewrite E; reflexivity).
  destruct s as [l|l|l|l], s' as [l'|l'|l'|l']; cbn [same_entries]; intros S; try destruct S; cbn [collected add_to_network cv_load fc_load mp_load sm_load].
  - pose proof (fun k => same_get cv_key_eqb cv_keqb l l' k S) as E. f_equal. destruct (cv_empty bm); [|reflexivity]. cbn [bind]. unfold cv_load_data.
    repeat (rewrite (C _ _ _ _ _ (E _))). repeat (rewrite (G _ _ _ _ _ (E _))). reflexivity.
  - pose proof (fun k => same_get fc_key_eqb fc_keqb l l' k S) as E. f_equal. destruct (fc_empty bm); [|reflexivity]. cbn [bind]. unfold fc_load_data.
    repeat (rewrite (C _ _ _ _ _ (E _))). repeat (rewrite (G _ _ _ _ _ (E _))). reflexivity.
  - pose proof (fun k => same_get mp_key_eqb mp_keqb l l' k S) as E. f_equal. unfold mp_load_data.
    repeat (rewrite (C _ _ _ _ _ (E _))). repeat (rewrite (G _ _ _ _ _ (E _))). reflexivity.
  - pose proof (fun k => same_get sm_key_eqb sm_keqb l l' k S) as E. f_equal. destruct (sm_empty bm); [|reflexivity]. cbn [bind]. unfold sm_load_data.
    repeat (rewrite (C _ _ _ _ _ (E _))). repeat (rewrite (G _ _ _ _ _ (E _))). reflexivity.
Qed.

Lemma populate_same bm sn sn' : Forall2 same_entries sn sn' -> forall n : network F,
  populate_network bm (map collected sn) n = populate_network bm (map collected sn') n.
Proof.
  unfold populate_network. induction 1 as [|s s' sn sn' S _ IH]; intros n; cbn [map tryM]; [reflexivity|].
  rewrite (add_same bm s s' n S). destruct (add_to_network bm (collected s') n) as [(n1 & [[]|e])|p]; cbn [bind]; auto.
Qed.

Lemma entries_same bm sn sn' fs name fs' name' rest rest' (n : network F) : Forall2 same_entries sn sn' ->
  len (enc_network sn) < W64 -> len (enc_network sn') < W64 -> fs name = Some (enc_network sn ++ rest) -> fs' name' = Some (enc_network sn' ++ rest') ->
  network_load bm n fs name = network_load bm n fs' name'.
Proof.
  intros S L L' E E'. unfold network_load. rewrite E, E', (codec_deserialize _ _ _ _ (codec_any_network sn L)), (codec_deserialize _ _ _ _ (codec_any_network sn' L')).
  apply populate_same, S.
Qed.
End Scalars.
