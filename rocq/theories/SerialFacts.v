(** * The wire format: every encoder is inverted by its decoder and strict prefixes are rejected *)
From Coq Require Import ZifyBool ZifyNat ZifyN Permutation.
From Coq.Strings Require Import Byte.
From Verif Require Import Base Arith Helper Tensor Bincode Spec SpecSerial Loops.
Ltac Zify.zify_post_hook ::= Z.div_mod_to_equations.
Local Open Scope list_scope.

(** [b] is the encoding of [a] for the decoder [p]. *)
Definition codec {A} (p : parser A) (b : bytes) (a : A) : Prop :=
  (forall rest, p (b ++ rest) = Some (a, rest)) /\ (forall b', cut b' b -> p b' = None).

Lemma cut_app b' b1 b2 : cut b' (b1 ++ b2) -> cut b' b1 \/ exists b2', b' = b1 ++ b2' /\ cut b2' b2.
Proof.
  revert b'; induction b1 as [|y b1 IH]; intros b' (x & t & E); simpl in *.
  - right. exists b'. split; [reflexivity|]. exists x, t. exact E.
  - destruct b' as [|z b'].
    + left. exists y, b1. reflexivity.
    + injection E as -> E. destruct (IH b') as [(x' & t' & ->)|(b2' & -> & H)].
      * exists x, t. exact E.
      * left. exists x', t'. reflexivity.
      * right. exists b2'. split; [reflexivity|exact H].
Qed.

Lemma cut_nil b : ~ cut b [].
Proof. intros (x & t & E). destruct b; discriminate. Qed.

Lemma codec_bind {A B} (p : parser A) (f : A -> parser B) b1 a b2 c :
  codec p b1 a -> codec (f a) b2 c -> codec (pbind p f) (b1 ++ b2) c.
Proof.
  intros (P1 & P2) (F1 & F2). split.
  - intros rest. unfold pbind. rewrite <- app_assoc, P1. apply F1.
  - intros b' H. unfold pbind. apply cut_app in H. destruct H as [H|(b2' & -> & H)]; [rewrite P2 by exact H; reflexivity|].
    rewrite P1. apply F2. exact H.
Qed.

Lemma codec_ret {A} (a : A) : codec (pret a) [] a.
Proof. split; [reflexivity|]. intros b H. destruct (cut_nil _ H). Qed.

Lemma codec_map {A B} (p : parser A) (f : A -> B) b a : codec p b a -> codec (pbind p (fun x => pret (f x))) b (f a).
Proof. intros H. rewrite <- (app_nil_r b). eapply codec_bind; [exact H|]. apply codec_ret. Qed.

Lemma codec_deserialize {A} (p : parser A) b a rest : codec p b a -> deserialize p (b ++ rest) = Some a.
Proof. intros (H & _). unfold deserialize. rewrite H. reflexivity. Qed.

Lemma codec_deserialize_nil {A} (p : parser A) b a : codec p b a -> deserialize p b = Some a.
Proof. intros H. rewrite <- (app_nil_r b). eapply codec_deserialize, H. Qed.

Lemma codec_cut {A} (p : parser A) b a b' : codec p b a -> cut b' b -> deserialize p b' = None.
Proof. intros (_ & H) C. unfold deserialize. rewrite H by exact C. reflexivity. Qed.

(** ** Integers *)
Lemma byte_to_of n : Byte.to_N (byte_of n) = n mod 256.
Proof.
  unfold byte_of. destruct (Byte.of_N (n mod 256)) as [b|] eqn:E.
  - apply Byte.to_of_N in E. exact E.
  - apply Byte.of_N_None_iff in E. lia.
Qed.

Lemma length_le_bytes k n : length (le_bytes k n) = k.
Proof. revert n; induction k as [|k IH]; intros n; simpl; [reflexivity|]. rewrite IH. reflexivity. Qed.

Lemma le_value_bytes k n : n < 256 ^ N.of_nat k -> le_value (le_bytes k n) = n.
Proof.
  revert n; induction k as [|k IH]; intros n H; cbn [le_bytes le_value].
  - change (256 ^ N.of_nat 0) with 1 in H. lia.
  - rewrite byte_to_of, IH; [pose proof (N.div_mod n 256); lia|].
    rewrite Nat2N.inj_succ, N.pow_succ_r in H by lia. apply N.div_lt_upper_bound; lia.
Qed.

Lemma le_bytes_value b : le_bytes (length b) (le_value b) = b.
Proof.
  induction b as [|x b IH]; [reflexivity|]. cbn [length le_bytes le_value]. pose proof (Byte.to_N_bounded x) as Hx.
  replace ((Byte.to_N x + 256 * le_value b) / 256) with (le_value b) by (apply (N.div_unique _ _ _ (Byte.to_N x)); lia).
  rewrite IH. f_equal. unfold byte_of.
  replace ((Byte.to_N x + 256 * le_value b) mod 256) with (Byte.to_N x) by (apply (N.mod_unique _ _ (le_value b)); lia).
  rewrite Byte.of_to_N. reflexivity.
Qed.

Lemma le_value_bound b : le_value b < 256 ^ N.of_nat (length b).
Proof.
  induction b as [|x b IH]; [reflexivity|]. cbn [le_value length]. rewrite Nat2N.inj_succ, N.pow_succ_r by lia.
  pose proof (Byte.to_N_bounded x). lia.
Qed.

Lemma codec_take k b : length b = k -> codec (take k) b b.
Proof.
  revert b; induction k as [|k IH]; intros [|x b] L; try discriminate.
  - apply codec_ret.
  - injection L as L. destruct (IH b L) as (H1 & H2). split.
    + intros rest. cbn [take app]. unfold pbind. rewrite H1. reflexivity.
    + intros [|y b'] C; [reflexivity|]. destruct C as (z & t & E). injection E as <- E. cbn [take]. unfold pbind.
      rewrite H2; [reflexivity|]. exists z, t. exact E.
Qed.

Lemma take_inv k b a rest : take k b = Some (a, rest) -> b = a ++ rest /\ length a = k.
Proof.
  revert b a; induction k as [|k IH]; intros b a H; cbn [take] in H.
  - injection H as <- <-. auto.
  - destruct b as [|x b]; [discriminate|]. unfold pbind in H. destruct (take k b) as [(r & rest')|] eqn:E; [|discriminate].
    injection H as <- <-. apply IH in E. destruct E as (-> & <-). auto.
Qed.

Lemma codec_u32 n : n < W32 -> codec dec_u32 (enc_u32 n) n.
Proof.
  intros H. assert (E : le_value (enc_u32 n) = n) by (apply le_value_bytes; exact H). rewrite <- E at 2.
  unfold dec_u32. apply (codec_map (take 4) le_value). apply codec_take. apply length_le_bytes.
Qed.

Lemma codec_u64 n : n < W64 -> codec dec_u64 (enc_u64 n) n.
Proof.
  intros H. assert (E : le_value (enc_u64 n) = n) by (apply le_value_bytes; exact H). rewrite <- E at 2.
  unfold dec_u64. apply (codec_map (take 8) le_value). apply codec_take. apply length_le_bytes.
Qed.

(** Decoded integers come from exactly their encoding. *)
Lemma dec_u32_inv b n rest : dec_u32 b = Some (n, rest) -> b = enc_u32 n ++ rest /\ n < W32.
Proof.
  unfold dec_u32, pbind. destruct (take 4 b) as [(x & r)|] eqn:E; [|discriminate]. intros H. injection H as <- <-.
  apply take_inv in E. destruct E as (-> & L). unfold enc_u32. pose proof (le_value_bound x) as B. rewrite L in B.
  split; [|exact B]. rewrite <- L, le_bytes_value. reflexivity.
Qed.

Lemma dec_u64_inv b n rest : dec_u64 b = Some (n, rest) -> b = enc_u64 n ++ rest.
Proof.
  unfold dec_u64, pbind. destruct (take 8 b) as [(x & r)|] eqn:E; [|discriminate]. intros H. injection H as <- <-.
  apply take_inv in E. destruct E as (-> & L). unfold enc_u64. rewrite <- L, le_bytes_value. reflexivity.
Qed.

(** ** Sequences *)
Lemma codec_times {A} (p : parser A) (e : A -> bytes) l :
  (forall x, In x l -> codec p (e x) x) -> codec (dec_times (length l) p) (flat_map e l) l.
Proof.
  induction l as [|x l IH]; intros H; cbn [length dec_times flat_map]; [apply codec_ret|].
  eapply codec_bind; [apply H; left; reflexivity|]. apply (codec_map (dec_times (length l) p) (cons x)). apply IH. intros; apply H; right; assumption.
Qed.

Lemma flat_map_length_ge {A} (e : A -> bytes) l : (forall x, In x l -> e x <> []) -> (length l <= length (flat_map e l))%nat.
Proof.
  induction l as [|x l IH]; intros H; simpl; [lia|]. rewrite app_length.
  assert (e x <> []) by (apply H; left; reflexivity). destruct (e x); [congruence|]. simpl.
  specialize (IH (fun y Hy => H y (or_intror Hy))). lia.
Qed.

Lemma codec_seq {A} (p : parser A) (e : A -> bytes) l :
  len l < W64 -> (forall x, In x l -> codec p (e x) x) -> (forall x, In x l -> e x <> []) -> codec (dec_seq p) (enc_seq e l) l.
Proof.
  intros L H NE. unfold dec_seq, enc_seq. eapply codec_bind; [apply codec_u64; exact L|].
  pose proof (codec_times p e l H) as (C1 & C2). pose proof (flat_map_length_ge e l NE) as G.
  unfold len. rewrite Nat2N.id. split.
  - intros rest. replace (N.of_nat (length (flat_map e l ++ rest)) <? N.of_nat (length l)) with false; [apply C1|].
    rewrite app_length. lia.
  - intros b' C. destruct (_ <? _); [reflexivity|]. apply C2. exact C.
Qed.

Lemma dec_times_inv {A} (p : parser A) (e : A -> bytes) n b l rest :
  (forall b x r, p b = Some (x, r) -> b = e x ++ r) ->
  dec_times n p b = Some (l, rest) -> b = flat_map e l ++ rest /\ length l = n.
Proof.
  intros H. revert b l; induction n as [|n IH]; intros b l E; cbn [dec_times] in E.
  - injection E as <- <-. auto.
  - unfold pbind in E. destruct (p b) as [(x & r)|] eqn:Ep; [|discriminate]. destruct (dec_times n p r) as [(l' & r')|] eqn:Et; [|discriminate].
    injection E as <- <-. apply H in Ep. apply IH in Et. destruct Et as (-> & <-). cbn [flat_map length]. rewrite <- app_assoc. auto.
Qed.

Lemma dec_seq_inv {A} (p : parser A) (e : A -> bytes) b l rest :
  (forall b x r, p b = Some (x, r) -> b = e x ++ r) -> dec_seq p b = Some (l, rest) -> b = enc_seq e l ++ rest.
Proof.
  intros H E. unfold dec_seq, pbind in E. destruct (dec_u64 b) as [(n & r)|] eqn:En; [|discriminate]. apply dec_u64_inv in En.
  destruct (_ <? _); [discriminate|]. apply dec_times_inv with (e := e) in E; [|exact H]. destruct E as (-> & L). subst b.
  unfold enc_seq, len. rewrite L, N2Nat.id, <- app_assoc. reflexivity.
Qed.

(** ** Byte vectors and strings *)
Lemma codec_u8 x : codec dec_u8 (enc_u8 x) x.
Proof. split; [reflexivity|]. intros [|y [|z b]] (u & t & E); cbn in E; try discriminate; reflexivity. Qed.

Lemma codec_vec_u8 v : len v < W64 -> codec dec_vec_u8 (enc_vec_u8 v) v.
Proof. intros L. apply codec_seq; [exact L|intros; apply codec_u8|intros; discriminate]. Qed.

Lemma length_vec_u8 v : length (enc_vec_u8 v) = (8 + length v)%nat.
Proof.
  unfold enc_vec_u8, enc_seq, enc_u64. rewrite app_length, length_le_bytes. f_equal. induction v; simpl; congruence.
Qed.

Lemma codec_string s : rust_string s -> len (list_byte_of_string s) < W64 -> codec dec_string (enc_string s) s.
Proof.
  intros U L. unfold dec_string, enc_string. rewrite <- (app_nil_r (enc_vec_u8 _)).
  eapply codec_bind.
  - apply codec_vec_u8. exact L.
  - unfold rust_string in U. rewrite U, string_of_list_byte_of_string. apply codec_ret.
Qed.

(** ** Shapes and tensors *)
Lemma codec_shape s : u32_shape s -> codec dec_shape (enc_shape s) s.
Proof.
  intros (H1 & H2 & H3). unfold dec_shape, enc_shape. eapply codec_bind; [apply codec_u32; exact H1|].
  eapply codec_bind; [apply codec_u32; exact H2|]. destruct s as [a b c]. apply (codec_map dec_u32 (fun c => mkShape a b c)).
  apply codec_u32. exact H3.
Qed.

Lemma codec_stride s : si s < W32 -> sj s < W32 -> sk s < W32 -> codec dec_stride (enc_stride s) s.
Proof.
  intros H1 H2 H3. unfold dec_stride, enc_stride. eapply codec_bind; [apply codec_u32; exact H1|].
  eapply codec_bind; [apply codec_u32; exact H2|]. destruct s as [a b c]. apply (codec_map dec_u32 (fun c => mkStride a b c)).
  apply codec_u32. exact H3.
Qed.

Lemma dec_shape_inv b s rest : dec_shape b = Some (s, rest) -> b = enc_shape s ++ rest.
Proof.
  unfold dec_shape, pbind. destruct (dec_u32 b) as [(x & r)|] eqn:E1; [|discriminate]. destruct (dec_u32 r) as [(y & r1)|] eqn:E2; [|discriminate].
  destruct (dec_u32 r1) as [(z & r2)|] eqn:E3; [|discriminate]. intros H. injection H as <- <-.
  apply dec_u32_inv in E1, E2, E3. destruct E1 as (-> & _), E2 as (-> & _), E3 as (-> & _). unfold enc_shape. cbn [di dj dk]. rewrite <- !app_assoc. reflexivity.
Qed.

Lemma dec_stride_inv b s rest : dec_stride b = Some (s, rest) -> b = enc_stride s ++ rest.
Proof.
  unfold dec_stride, pbind. destruct (dec_u32 b) as [(x & r)|] eqn:E1; [|discriminate]. destruct (dec_u32 r) as [(y & r1)|] eqn:E2; [|discriminate].
  destruct (dec_u32 r1) as [(z & r2)|] eqn:E3; [|discriminate]. intros H. injection H as <- <-.
  apply dec_u32_inv in E1, E2, E3. destruct E1 as (-> & _), E2 as (-> & _), E3 as (-> & _). unfold enc_stride. cbn [si sj sk]. rewrite <- !app_assoc. reflexivity.
Qed.

Section Tensors.
Context {F : Type} {BT : Bits F}.

(** Bit patterns are 32 bits wide and determine the value. *)
Definition bits_ok : Prop := (forall x : F, fto_bits x < W32 /\ fof_bits (fto_bits x) = x) /\ (forall n, n < W32 -> fto_bits (fof_bits n : F) = n).

Hypothesis BO : bits_ok.

Lemma codec_f32 (x : F) : codec dec_f32 (enc_f32 x) x.
Proof.
  destruct (proj1 BO x) as (B & E). unfold dec_f32, enc_f32. rewrite <- E at 2. apply (codec_map dec_u32 fof_bits). apply codec_u32. exact B.
Qed.

Lemma dec_f32_inv b (x : F) rest : dec_f32 b = Some (x, rest) -> b = enc_f32 x ++ rest.
Proof.
  unfold dec_f32, pbind. destruct (dec_u32 b) as [(n & r)|] eqn:E; [|discriminate]. intros H. injection H as <- <-.
  apply dec_u32_inv in E. destruct E as (-> & L). unfold enc_f32. rewrite (proj2 BO) by exact L. reflexivity.
Qed.

Lemma enc_f32_nonempty (x : F) : enc_f32 x <> [].
Proof. unfold enc_f32, enc_u32. cbn. discriminate. Qed.

Lemma codec_tensor (t : tensor F) : typed_tensor t -> codec dec_tensor (enc_tensor t) t.
Proof.
  intros (H1 & H2 & H3 & H4 & H5). unfold dec_tensor, enc_tensor. eapply codec_bind; [apply codec_stride; assumption|].
  eapply codec_bind; [apply codec_shape; assumption|]. destruct t as [st sh d]. apply (codec_map (dec_seq dec_f32) (fun d => mkTensor st sh d)).
  apply codec_seq; [exact H5|intros; apply codec_f32|intros; apply enc_f32_nonempty].
Qed.

Lemma enc_tensor_nonempty (t : tensor F) : enc_tensor t <> [].
Proof. unfold enc_tensor, enc_stride, enc_u32. cbn. discriminate. Qed.

Lemma codec_tensors (l : list (tensor F)) : len l < W64 -> Forall typed_tensor l -> codec dec_tensors (enc_tensors l) l.
Proof.
  intros L H. apply codec_seq; [exact L| |intros; apply enc_tensor_nonempty].
  intros x Hx. apply codec_tensor. rewrite Forall_forall in H. apply H. exact Hx.
Qed.

Lemma dec_tensor_inv b (t : tensor F) rest : dec_tensor b = Some (t, rest) -> b = enc_tensor t ++ rest.
Proof.
  unfold dec_tensor, pbind. destruct (dec_stride b) as [(x & r)|] eqn:E1; [|discriminate]. destruct (dec_shape r) as [(y & r1)|] eqn:E2; [|discriminate].
  destruct (dec_seq dec_f32 r1) as [(z & r2)|] eqn:E3; [|discriminate]. intros H. injection H as <- <-.
  apply dec_stride_inv in E1. apply dec_shape_inv in E2. apply dec_seq_inv with (e := enc_f32) in E3; [|intros; apply dec_f32_inv; assumption].
  subst. unfold enc_tensor. cbn [strides tshape data]. rewrite <- !app_assoc. reflexivity.
Qed.

End Tensors.

(** ** Hash maps *)
Section Maps.
Context {K : Type} (keqb : K -> K -> bool) (ktag : K -> N) (kof : N -> option K).
Hypothesis keqb_spec : forall a b, reflect (a = b) (keqb a b).
Hypothesis kof_tag : forall k, kof (ktag k) = Some k.
Hypothesis tag_u32 : forall k, ktag k < W32.

Lemma codec_entry (e : K * bytes) : len (snd e) < W64 -> codec (dec_entry kof) (enc_entry ktag e) e.
Proof.
  intros L. destruct e as [k v]. unfold dec_entry, enc_entry. cbn [fst snd] in *. eapply codec_bind.
  - unfold dec_key. rewrite <- (app_nil_r (enc_u32 _)). eapply codec_bind; [apply codec_u32, tag_u32|]. rewrite kof_tag. apply codec_ret.
  - apply (codec_map dec_vec_u8 (fun v => (k, v))). apply codec_vec_u8. exact L.
Qed.

Lemma hm_insert_new (m : list (K * bytes)) k v : ~ In k (map fst m) -> hm_insert keqb m k v = m ++ [(k, v)].
Proof.
  induction m as [|(k' & v') m IH]; intros H; cbn [hm_insert app]; [reflexivity|].
  destruct (keqb_spec k k') as [->|NE]; [destruct H; left; reflexivity|]. rewrite IH; [reflexivity|]. intros Hin; apply H; right; exact Hin.
Qed.

Lemma insert_all (l m : list (K * bytes)) : NoDup (map fst (m ++ l)) ->
  fold_left (fun m e => hm_insert keqb m (fst e) (snd e)) l m = m ++ l.
Proof.
  revert m; induction l as [|(k & v) l IH]; intros m H; cbn [fold_left fst snd]; [rewrite app_nil_r; reflexivity|].
  rewrite hm_insert_new.
  - rewrite IH by (rewrite <- app_assoc; exact H). rewrite <- app_assoc. reflexivity.
  - rewrite map_app in H. cbn [map fst] in H. apply NoDup_remove_2 in H. intros Hin. apply H. apply in_or_app. left. exact Hin.
Qed.

Lemma codec_map_entries (m : list (K * bytes)) :
  NoDup (map fst m) -> len m < W64 -> Forall (fun e => len (snd e) < W64) m -> codec (dec_map keqb kof) (enc_map ktag m) m.
Proof.
  intros ND L H. unfold dec_map, enc_map. rewrite <- (app_nil_r (enc_seq _ _)). eapply codec_bind.
  - apply codec_seq; [exact L| |].
    + intros e He. apply codec_entry. rewrite Forall_forall in H. apply H. exact He.
    + intros e _. unfold enc_entry, enc_u32. cbn [le_bytes app]. discriminate.
  - rewrite insert_all by exact ND. apply codec_ret.
Qed.

Lemma hm_get_in (m : list (K * bytes)) k v : NoDup (map fst m) -> In (k, v) m -> hm_get keqb m k = Some v.
Proof.
  induction m as [|(k' & v') m IH]; intros ND H; [destruct H|]. cbn [hm_get]. cbn [map fst] in ND. inversion ND as [|? ? NI ND']; subst.
  destruct (keqb_spec k k') as [->|NE].
  - destruct H as [[= ->]|H]; [reflexivity|]. destruct NI. apply in_map with (f := fst) in H. exact H.
  - destruct H as [[= -> ->]|H]; [congruence|]. apply IH; assumption.
Qed.

Lemma hm_get_perm (m m' : list (K * bytes)) k v : Permutation m' m -> NoDup (map fst m) -> In (k, v) m -> hm_get keqb m' k = Some v.
Proof.
  intros P ND H. apply hm_get_in.
  - eapply Permutation_NoDup; [|exact ND]. apply Permutation_map. symmetry. exact P.
  - eapply Permutation_in; [symmetry; exact P|exact H].
Qed.
End Maps.
