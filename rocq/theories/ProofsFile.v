(** * C72: proofs *)
From Coq Require Import Permutation Strings.Byte ZifyBool ZifyNat ZifyN.
From Verif Require Import Base Arith Helper Tensor Network Bincode Serial Float32 Spec SpecLayer SpecNet SpecSerial SpecFile.
From Verif Require Import NetFacts ProofsNet SerialFacts ProofsSerial.

Section Sizes.
Context {F : Type} {AR : Arith F} {BT : Bits F}.

Lemma len_app {A} (a b : list A) : len (a ++ b) = len a + len b.
Proof. unfold len. rewrite app_length. lia. Qed.

Lemma len_u32 n : len (enc_u32 n) = 4.
Proof. unfold len, enc_u32. rewrite length_le_bytes. reflexivity. Qed.

Lemma len_u64 n : len (enc_u64 n) = 8.
Proof. unfold len, enc_u64. rewrite length_le_bytes. reflexivity. Qed.

Lemma len_seq {A} (e : A -> bytes) l : len (enc_seq e l) = 8 + total (map (fun a => len (e a)) l).
Proof.
  unfold enc_seq. rewrite len_app, len_u64. f_equal. induction l as [|a l IH]; cbn [flat_map map total fold_right]; [reflexivity|].
  rewrite len_app, IH. reflexivity.
Qed.

Lemma total_const {A} c (l : list A) : total (map (fun _ => c) l) = c * len l.
Proof. unfold total, len. induction l as [|a l IH]; cbn [map fold_right length]; [lia|]. rewrite IH. lia. Qed.

Lemma len_tensor (t : tensor F) : len (enc_tensor t) = tensor_bytes t.
Proof.
  unfold enc_tensor, enc_stride, enc_shape, tensor_bytes. rewrite !len_app, !len_u32, len_seq.
  rewrite (map_ext (fun a => len (enc_f32 a)) (fun _ => 4)) by (intros a; unfold enc_f32; apply len_u32). rewrite total_const. lia.
Qed.

Lemma len_tensors (l : list (tensor F)) : len (enc_tensors l) = 8 + total (map tensor_bytes l).
Proof. unfold enc_tensors. rewrite len_seq. f_equal. f_equal. apply map_ext. exact len_tensor. Qed.

Lemma len_vec_u8 l : len (enc_vec_u8 l) = 8 + len l.
Proof.
  unfold enc_vec_u8. rewrite len_seq. rewrite (map_ext (fun a => len (enc_u8 a)) (fun _ => 1)) by reflexivity. rewrite total_const. lia.
Qed.

Lemma total_perm l l' : Permutation l l' -> total l = total l'.
Proof. induction 1; cbn [total fold_right] in *; unfold total in *; cbn [fold_right] in *; lia. Qed.

Lemma len_map {K} (tag : K -> N) (m m' : list (K * bytes)) : Permutation m' m ->
  len (enc_map tag m') = 8 + total (map (fun e => 12 + len (snd e)) m).
Proof.
  intros P. unfold enc_map. rewrite len_seq. f_equal. apply total_perm.
  rewrite (map_ext (fun a => len (enc_entry tag a)) (fun e => 12 + len (snd e))).
  - apply Permutation_map. exact P.
  - intros a. unfold enc_entry. rewrite len_app, len_u32, len_vec_u8. lia.
Qed.

Lemma len_layer h k (l : layer F) : valid_order h -> len (enc_layer (order_layer h k (get_serialized l))) = layer_bytes (params_of l) (get_name l).
Proof.
  intros V. destruct l as [l|l|l|l]; cbn [get_serialized params_of get_name layer_bytes].
  all: unfold cv_get_serialized, fc_get_serialized, mp_get_serialized, sm_get_serialized; lazy beta iota zeta delta [cv_key_eqb fc_key_eqb mp_key_eqb sm_key_eqb order_layer enc_layer hm_insert cv_key_tag fc_key_tag mp_key_tag sm_key_tag N.eqb Pos.eqb].
  all: rewrite len_app, len_u32, (len_map _ _ _ (V k _ _)); cbn [map snd]; unfold total; cbn [fold_right].
  all: rewrite ?len_tensor, ?len_tensors; unfold enc_shape, enc_string; rewrite ?len_app, ?len_u32, ?len_vec_u8; unfold total; lia.
Qed.

Lemma file_size h (n : network F) : valid_order h ->
  len (to_byte_array h (new_from_network n)) = 8 + total (map (fun l => layer_bytes (params_of l) (get_name l)) (layers n)).
Proof.
  intros V. unfold to_byte_array, enc_network. rewrite len_seq. f_equal. f_equal. unfold order_network, new_from_network.
  rewrite map_length. generalize 0%nat. induction (layers n) as [|l ls IH]; intros k; cbn [map length seq combine]; [reflexivity|].
  rewrite len_layer by exact V. f_equal. apply IH.
Qed.
End Sizes.

(** ** f32 *)
Lemma saved_size (t : tensor f32) fs name : exists b, fst (tensor_save t fs name WriteOk) name = Some b /\ len b = tensor_bytes t.
Proof. exists (enc_tensor t). split; [|apply len_tensor]. unfold tensor_save, fs_write. cbn [fst]. unfold fs_set. rewrite String.eqb_refl. reflexivity. Qed.

Lemma resaved e bm h st (n : network f32) fs name :
  @well_built f32 (f32_arith e) f32_bits bm n -> Forall storable (layers n) -> valid_order h ->
  8 + total (map (fun l => layer_bytes (params_of l) (get_name l)) (layers n)) < W64 ->
  exists n', @network_load bm f32 (f32_arith e) f32_bits (network_new st) (fst (network_save h n fs name WriteOk)) name = Done (n', Ok tt)
    /\ forall h' fs' name', network_save h' n' fs' name' WriteOk = network_save h' n fs' name' WriteOk.
Proof.
  intros B S V L. rewrite <- (file_size h n V) in L. destruct (network_file e bm h st n fs name B S V L) as (n' & E & P & N & _).
  exists n'. split; [exact E|]. intros h' fs' name'. unfold network_save. rewrite (new_from_params n n' P N); reflexivity.
Qed.

Lemma other_files {F} {BT : Bits F} h (n : network F) (t : tensor F) fs name o other : other <> name ->
  fst (network_save h n fs name o) other = fs other /\ fst (tensor_save t fs name o) other = fs other.
Proof.
  intros D. apply String.eqb_neq in D. split; destruct o; cbn; unfold fs_set; rewrite ?D; reflexivity.
Qed.

Lemma load_reads {F} {AR : Arith F} {BT : Bits F} bm (n : network F) fs fs' name name' : fs name = fs' name' ->
  network_load bm n fs name = network_load bm n fs' name' /\ tensor_from_file fs name = tensor_from_file fs' name' (F:=F).
Proof. intros E. unfold network_load, tensor_from_file. rewrite E. split; reflexivity. Qed.
