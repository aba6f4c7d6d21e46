(** * Vocabulary for C72: sizes of files *)
From Coq Require Import Strings.Byte.
From Verif Require Import Base Arith Helper Tensor Network Bincode Spec SpecLayer.

(** Three u32 strides, three u32 extents, a u64 length, four bytes per element. *)
Definition tensor_bytes {F} (t : tensor F) : N := 32 + 4 * len (data t).

Definition total (l : list N) : N := fold_right N.add 0 l.

(** A u32 tag and a u64 number of entries; per entry a u32 key, a u64 length and the content. A sequence of tensors and a name
    carry a u64 length of their own. *)
Definition layer_bytes {F} (p : params F) (name : string) : N :=
  let entries n := 12 + 12 * n in
  let text := 8 + len (list_byte_of_string name) in
  match p with
  | PFC w b => entries 3 + tensor_bytes w + tensor_bytes b + text
  | PConv ks bs _ _ _ => entries 5 + (8 + total (map tensor_bytes ks)) + (8 + total (map tensor_bytes bs)) + 12 + 4 + text
  | PMaxPool _ _ _ _ => entries 4 + 12 + 12 + 4 + text
  | PSoftmax _ => entries 2 + 12 + text
  end.
