(** * C82: names are UTF-8 *)
From Coq.Strings Require Import Byte.
From Verif Require Import Base Arith Helper Tensor Network Bincode Serial Float32 Spec SpecSerial SpecUtf8 ProofsUtf8 Demo DemoNet DemoSerial.
Local Open Scope string_scope.
Local Open Scope N_scope.

(** The check accepts exactly the encodings of sequences of Unicode scalar values, *)
Theorem C82_valid : forall l,
  utf8_valid l = true <-> exists cs, Forall scalar cs /\ map Byte.to_N l = flat_map utf8_encode cs.
Proof. exact utf8_iff. Qed.
Print Assumptions C82_valid.

(** of which there is one only. *)
Theorem C82_unique : forall cs ds, Forall scalar cs -> Forall scalar ds -> flat_map utf8_encode cs = flat_map utf8_encode ds -> cs = ds.
Proof. exact utf8_unique. Qed.
Print Assumptions C82_unique.

(** Reading a string: these bytes come back as they are, all others are an error. *)
Theorem C82_read : forall v rest, len v < W64 ->
  (forall cs, Forall scalar cs -> map Byte.to_N v = flat_map utf8_encode cs -> dec_string (enc_vec_u8 v ++ rest)%list = Some (string_of_list_byte v, rest))
  /\ ((forall cs, Forall scalar cs -> map Byte.to_N v <> flat_map utf8_encode cs) -> dec_string (enc_vec_u8 v ++ rest)%list = None).
Proof. exact utf8_read_spec. Qed.
Print Assumptions C82_read.

(** Whatever is in the file, and whether or not loading it succeeds, layers get no other names. *)
Theorem C82_loaded : forall F (AR : Arith F) (BT : Bits F) bm (n n' : network F) fs name r,
  (forall l, In l (layers n) -> exists cs, Forall scalar cs /\ map Byte.to_N (list_byte_of_string (get_name l)) = flat_map utf8_encode cs) ->
  network_load bm n fs name = Done (n', r) ->
  forall l, In l (layers n') -> exists cs, Forall scalar cs /\ map Byte.to_N (list_byte_of_string (get_name l)) = flat_map utf8_encode cs.
Proof. exact @load_names. Qed.
Print Assumptions C82_loaded.

(** U+0041, U+00E9, U+20AC, U+1D11E; an overlong slash, a surrogate and a cut-off euro sign. *)
Example C82_case :
  Forall scalar [65; 233; 8364; 119070]
  /\ flat_map utf8_encode [65; 233; 8364; 119070] = [65; 195; 169; 226; 130; 172; 240; 157; 132; 158]
  /\ utf8_valid [x41; xc3; xa9; xe2; x82; xac; xf0; x9d; x84; x9e] = true
  /\ map utf8_valid [[xc0; xaf]; [xed; xa0; x80]; [xe2; x82]] = [false; false; false]
  /\ match run_all Debug (network_new Inference) d_four with
     | Some n => match network_load Debug (network_new Inference) (fst (network_save backwards n no_files "net" WriteOk)) "net" with
                 | Done (n', Ok _) => map (@get_name f32) (layers n') = ["conv"; "pool1"; "dense"; "soft"]
                 | _ => False
                 end
     | None => False
     end.
Proof.
  split; [repeat constructor; unfold scalar; lia|]. split; [reflexivity|]. split; [vm_compute; reflexivity|]. split; [vm_compute; reflexivity|]. vm_compute. reflexivity.
Qed.
