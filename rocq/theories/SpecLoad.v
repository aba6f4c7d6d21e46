(** * Vocabulary for the exact outcome of loading a file (C43, C44) *)
From Verif Require Import Base Arith Helper Tensor Bincode Network Serial Spec.

Section Entries.
Context {K A : Type} (keqb : K -> K -> bool) (m : @hmap K) (k : K) (p : parser A).

(** The entry is there but its bytes do not decode. *)
Definition undecodable : Prop := exists b, hm_get keqb m k = Some b /\ deserialize p b = None.

(** The entry is there and decodes to [a]. *)
Definition stored (a : A) : Prop := exists b, hm_get keqb m k = Some b /\ deserialize p b = Some a.
End Entries.

(** Stored layers that have all their entries, of which one does not decode or asks for a stride of zero. *)
Definition unloadable {F} {BT : Bits F} (s : serialized_layer) : Prop :=
  match s with
  | SerialFullyConnectedLayer m =>
      (forall k, hm_get fc_key_eqb m k <> None)
      /\ (undecodable fc_key_eqb m FKWeights (dec_tensor (F := F)) \/ undecodable fc_key_eqb m FKBias (dec_tensor (F := F))
          \/ undecodable fc_key_eqb m FKName dec_string)
  | SerialConvolutionalLayer m =>
      (forall k, hm_get cv_key_eqb m k <> None)
      /\ (undecodable cv_key_eqb m KKernels (dec_tensors (F := F)) \/ undecodable cv_key_eqb m KBiases (dec_tensors (F := F))
          \/ undecodable cv_key_eqb m KInputShape dec_shape \/ undecodable cv_key_eqb m KStride dec_u32
          \/ undecodable cv_key_eqb m KName dec_string
          \/ stored cv_key_eqb m KStride dec_u32 0
             /\ exists k0 ks, stored cv_key_eqb m KKernels dec_tensors (k0 :: ks : list (tensor F)) /\ Forall (fun k => tshape k = tshape k0) ks)
  | SerialMaxPoolLayer m =>
      (forall k, hm_get mp_key_eqb m k <> None)
      /\ (undecodable mp_key_eqb m MKInputShape dec_shape \/ undecodable mp_key_eqb m MKMaskShape dec_shape
          \/ undecodable mp_key_eqb m MKStride dec_u32 \/ undecodable mp_key_eqb m MKName dec_string
          \/ stored mp_key_eqb m MKStride dec_u32 0)
  | SerialSoftMaxLayer m =>
      (forall k, hm_get sm_key_eqb m k <> None)
      /\ (undecodable sm_key_eqb m SKShape dec_shape \/ undecodable sm_key_eqb m SKName dec_string)
  end.
