(** * C92: files written by something else *)
From Coq.Strings Require Import Byte.
From Verif Require Import Base Arith Helper Tensor Network Bincode Serial Float32 Spec SpecLayer SpecNet SpecSerial SpecEntries ProofsSerial ProofsNormal ProofsEntries Demo DemoNet DemoSerial.
Local Open Scope string_scope.
Local Open Scope N_scope.

(** A file reads as the tensor [t] exactly if it starts with what [save] writes for [t]. Every tensor that can be read can be saved. *)
Theorem C92_tensor : forall fs name (t : tensor f32),
  tensor_from_file fs name = Ok t <-> typed_tensor t /\ exists rest, fs name = Some (enc_tensor t ++ rest)%list.
Proof. exact (from_file_iff f32_bits_ok). Qed.
Print Assumptions C92_tensor.

(** A file from anywhere: entries repeated or in any order, bytes left over after a value, layers of any kind. If it loads into an empty
    network and the network is saved again, the new file has the same effect as the old one on every network: the same layers, the same
    error after the same number of layers, or the same panic. *)
Theorem C92_resaved : forall e bm h st (n : network f32) fs name fs' name',
  let AR := f32_arith e in
  network_load bm (network_new st) fs name = Done (n, Ok tt) -> valid_order h -> len (to_byte_array h (new_from_network n)) < W64 ->
  forall n0, network_load bm n0 (fst (network_save h n fs' name' WriteOk)) name' = network_load bm n0 fs name.
Proof. intros e bm h. exact (@resaved f32 (f32_arith e) f32_bits f32_bits_ok bm h). Qed.
Print Assumptions C92_resaved.

(** Of several entries with the same key only the last counts, and the order of keys does not matter: two files whose layers agree on
    the last value of every key have the same effect on every network. *)
Theorem C92_entries : forall e bm sn sn' fs name fs' name' rest rest' (n : network f32),
  let AR := f32_arith e in
  Forall2 same_entries sn sn' -> len (enc_network sn) < W64 -> len (enc_network sn') < W64 ->
  fs name = Some (enc_network sn ++ rest)%list -> fs' name' = Some (enc_network sn' ++ rest')%list ->
  network_load bm n fs name = network_load bm n fs' name'.
Proof. intros e bm. exact (@entries_same f32 (f32_arith e) f32_bits bm). Qed.
Print Assumptions C92_entries.

(** A file that [save] does not write: the name is given twice, the bias is followed by two stray bytes, the file by three.
    It loads, the last name counts, and the file saved from it is 30 bytes shorter. *)
Definition d_foreign : serialized_network :=
  [SerialFullyConnectedLayer [(FKName, enc_string "first"); (FKBias, (enc_tensor (tn (mkShape 2 1 1) [1;-1]%Z) ++ [x00; xff])%list);
                              (FKWeights, enc_tensor (tn (mkShape 2 2 1) [1;-2;3;4]%Z)); (FKName, enc_string "second")]].
Definition d_foreign_files : filesystem := fs_set no_files "foreign" (enc_network d_foreign ++ [x01; x02; x03])%list.

Example C92_case : valid_order backwards
  /\ match network_load Debug (network_new Inference) d_foreign_files "foreign" with
     | Done (n, Ok _) => map get_name (layers n) = ["second"]
        /\ len (to_byte_array backwards (new_from_network n)) < W64
        /\ (len (to_byte_array backwards (new_from_network n)) + 30 = len (enc_network d_foreign) + 3)%N
     | _ => False end.
Proof. split; [exact backwards_valid|]. vm_compute. repeat split. Qed.

(** For [C92_entries]: the same file without the first name and with the others in another order. *)
Example C92_entries_case : len (enc_network d_foreign) < W64
  /\ Forall2 same_entries d_foreign [SerialFullyConnectedLayer [(FKName, enc_string "second"); (FKWeights, enc_tensor (tn (mkShape 2 2 1) [1;-2;3;4]%Z));
       (FKBias, (enc_tensor (tn (mkShape 2 1 1) [1;-1]%Z) ++ [x00; xff])%list)]].
Proof.
  split; [vm_compute; reflexivity|]. constructor; [|constructor]. intros k v.
  assert (S : forall (l l' : list (fc_key * bytes)), (forall k, hm_get fc_key_eqb (collect fc_key_eqb l) k = hm_get fc_key_eqb (collect fc_key_eqb l') k) -> same_last l l').
  { intros l l' E q w. rewrite <- !(get_collect fc_key_eqb SerialLayer.fc_keqb), E. reflexivity. }
  apply S. intros []; reflexivity.
Qed.
