(** * Entries of a layer in a file, of which some may have the same key *)
From Verif Require Import Base Bincode Serial.

(** The last entry with the key [k] has the value [v]. *)
Definition last_value {K} (l : list (K * bytes)) (k : K) (v : bytes) : Prop :=
  exists a b, l = (a ++ (k, v) :: b)%list /\ forall w, ~ In (k, w) b.

Definition same_last {K} (l l' : list (K * bytes)) : Prop := forall k v, last_value l k v <-> last_value l' k v.

(** Layers of the same kind with the same last value for every key. *)
Definition same_entries (s s' : serialized_layer) : Prop :=
  match s, s' with
  | SerialConvolutionalLayer l, SerialConvolutionalLayer l' => same_last l l'
  | SerialFullyConnectedLayer l, SerialFullyConnectedLayer l' => same_last l l'
  | SerialMaxPoolLayer l, SerialMaxPoolLayer l' => same_last l l'
  | SerialSoftMaxLayer l, SerialSoftMaxLayer l' => same_last l l'
  | _, _ => False
  end.
