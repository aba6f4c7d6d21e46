(** * The bincode 1.3.3 wire format

    Models [bincode::serialize] / [bincode::deserialize] (Cargo.toml:9) for the types of this crate:
    little-endian fixed-width integers, u64 length prefixes, u32 enum tags, structs as the concatenation
    of their fields, trailing bytes ignored by [deserialize]. Decoders return the value and the bytes left,
    or [None] for any bincode error. *)
From Coq.Strings Require Import Byte.
From Verif Require Import Base Arith Helper Tensor.

Definition bytes := list byte.
Definition parser (A : Type) := bytes -> option (A * bytes).

Definition pbind {A B} (p : parser A) (f : A -> parser B) : parser B :=
  fun b => match p b with Some (a, r) => f a r | None => None end.
Definition pret {A} (a : A) : parser A := fun b => Some (a, b).
Definition pfail {A} : parser A := fun _ => None.

Declare Scope parser_scope.
Delimit Scope parser_scope with parser.
Notation "x <~ p ;; k" := (pbind p (fun x => k))
  (at level 61, p at next level, right associativity) : parser_scope.
Local Open Scope parser_scope.

(** The low byte of [n]. *)
Definition byte_of (n : N) : byte :=
  match Byte.of_N (n mod 256) with Some b => b | None => x00 end.

(** [k] bytes, least significant first. *)
Fixpoint le_bytes (k : nat) (n : N) : bytes :=
  match k with
  | O => []
  | S k' => byte_of n :: le_bytes k' (n / 256)
  end.

Fixpoint le_value (b : bytes) : N :=
  match b with
  | [] => 0
  | x :: t => Byte.to_N x + 256 * le_value t
  end.

(** Read exactly [k] bytes. *)
Fixpoint take (k : nat) : parser bytes :=
  match k with
  | O => pret []
  | S k' => fun b =>
      match b with
      | [] => None
      | x :: t => (r <~ take k' ;; pret (x :: r)) t
      end
  end.

(** u32 and u64 *)
Definition enc_u32 (n : N) : bytes := le_bytes 4 n.
Definition enc_u64 (n : N) : bytes := le_bytes 8 n.
Definition dec_u32 : parser N := b <~ take 4 ;; pret (le_value b).
Definition dec_u64 : parser N := b <~ take 8 ;; pret (le_value b).

(** Sequences of [n] elements. *)
Fixpoint dec_times {A} (n : nat) (p : parser A) : parser (list A) :=
  match n with
  | O => pret []
  | S n' => x <~ p ;; l <~ dec_times n' p ;; pret (x :: l)
  end.

(** [Vec<A>] / maps: u64 length, then the elements. Every element type used here takes at least one
    byte, so a length above the number of remaining bytes is an end-of-file error; checking it first
    keeps the decoder computable and does not change whether decoding succeeds. *)
Definition dec_seq {A} (p : parser A) : parser (list A) :=
  n <~ dec_u64 ;;
  fun b => if N.of_nat (length b) <? n then None else dec_times (N.to_nat n) p b.

Definition enc_seq {A} (e : A -> bytes) (l : list A) : bytes :=
  enc_u64 (len l) ++ flat_map e l.

(** [Vec<u8>] *)
Definition enc_u8 (b : byte) : bytes := [b].
Definition dec_u8 : parser byte := fun b => match b with [] => None | x :: t => Some (x, t) end.
Definition enc_vec_u8 (v : bytes) : bytes := enc_seq enc_u8 v.
Definition dec_vec_u8 : parser bytes := dec_seq dec_u8.

(** ** UTF-8 validity, as checked by [String::from_utf8] (Unicode table 3-7). *)
Definition in_range (lo hi : N) (b : byte) : bool :=
  (lo <=? Byte.to_N b) && (Byte.to_N b <=? hi).

Fixpoint utf8_valid (l : bytes) : bool :=
  match l with
  | [] => true
  | b0 :: t0 =>
      if in_range 0 127 b0 then utf8_valid t0
      else match t0 with
      | [] => false
      | b1 :: t1 =>
          if in_range 194 223 b0 && in_range 128 191 b1 then utf8_valid t1
          else match t1 with
          | [] => false
          | b2 :: t2 =>
              if ((in_range 224 224 b0 && in_range 160 191 b1)
                  || (in_range 225 236 b0 && in_range 128 191 b1)
                  || (in_range 237 237 b0 && in_range 128 159 b1)
                  || (in_range 238 239 b0 && in_range 128 191 b1))
                 && in_range 128 191 b2 then utf8_valid t2
              else match t2 with
              | [] => false
              | b3 :: t3 =>
                  if ((in_range 240 240 b0 && in_range 144 191 b1)
                      || (in_range 241 243 b0 && in_range 128 191 b1)
                      || (in_range 244 244 b0 && in_range 128 143 b1))
                     && in_range 128 191 b2 && in_range 128 191 b3 then utf8_valid t3
                  else false
              end
          end
      end
  end.

(** [String]: u64 byte length, then the UTF-8 bytes. *)
Definition enc_string (s : string) : bytes := enc_vec_u8 (list_byte_of_string s).
Definition dec_string : parser string :=
  v <~ dec_vec_u8 ;;
  if utf8_valid v then pret (string_of_list_byte v) else pfail.

(** A Rust [String] always holds valid UTF-8. *)
Definition rust_string (s : string) : Prop := utf8_valid (list_byte_of_string s) = true.

(** ** Structures of the crate *)

(** helper.rs:5-10, derived (De)Serialize for TensorShape. *)
Definition enc_shape (s : shape) : bytes := enc_u32 (di s) ++ enc_u32 (dj s) ++ enc_u32 (dk s).
Definition dec_shape : parser shape :=
  a <~ dec_u32 ;; b <~ dec_u32 ;; c <~ dec_u32 ;; pret (mkShape a b c).

(** helper.rs:93-98, derived (De)Serialize for TensorStride. *)
Definition enc_stride (s : stride3) : bytes := enc_u32 (si s) ++ enc_u32 (sj s) ++ enc_u32 (sk s).
Definition dec_stride : parser stride3 :=
  a <~ dec_u32 ;; b <~ dec_u32 ;; c <~ dec_u32 ;; pret (mkStride a b c).

Section Tensors.
Context {F : Type} {BT : Bits F}.

(** f32: its four bytes. *)
Definition enc_f32 (x : F) : bytes := enc_u32 (fto_bits x).
Definition dec_f32 : parser F := n <~ dec_u32 ;; pret (fof_bits n).

(** tensor.rs:12-17, derived (De)Serialize for Tensor: strides, shape, data. *)
Definition enc_tensor (t : tensor F) : bytes :=
  enc_stride (strides t) ++ enc_shape (tshape t) ++ enc_seq enc_f32 (data t).
Definition dec_tensor : parser (tensor F) :=
  st <~ dec_stride ;; sh <~ dec_shape ;; d <~ dec_seq dec_f32 ;; pret (mkTensor st sh d).

(** [Vec<Tensor>] *)
Definition enc_tensors (l : list (tensor F)) : bytes := enc_seq enc_tensor l.
Definition dec_tensors : parser (list (tensor F)) := dec_seq dec_tensor.

End Tensors.

(** [bincode::deserialize(bytes)]: trailing bytes are allowed. *)
Definition deserialize {A} (p : parser A) (b : bytes) : option A :=
  match p b with Some (a, _) => Some a | None => None end.

(** ** [HashMap<K, Vec<u8>>]

    In memory: an association list with distinct keys. *)
Section Maps.
Context {K : Type} (keqb : K -> K -> bool) (ktag : K -> N) (kof : N -> option K).

Definition hmap := list (K * bytes).

Fixpoint hm_get (m : hmap) (k : K) : option bytes :=
  match m with
  | [] => None
  | (k', v) :: t => if keqb k k' then Some v else hm_get t k
  end.

Definition hm_contains (m : hmap) (k : K) : bool :=
  match hm_get m k with Some _ => true | None => false end.

Fixpoint hm_insert (m : hmap) (k : K) (v : bytes) : hmap :=
  match m with
  | [] => [(k, v)]
  | (k', v') :: t => if keqb k k' then (k', v) :: t else (k', v') :: hm_insert t k v
  end.

Definition enc_entry (e : K * bytes) : bytes := enc_u32 (ktag (fst e)) ++ enc_vec_u8 (snd e).

Definition dec_key : parser K :=
  n <~ dec_u32 ;; match kof n with Some k => pret k | None => pfail end.
Definition dec_entry : parser (K * bytes) :=
  k <~ dec_key ;; v <~ dec_vec_u8 ;; pret (k, v).

(** Entries are written in iteration order, which the caller has already applied to [m]. *)
Definition enc_map (m : hmap) : bytes := enc_seq enc_entry m.

(** Entries are inserted one by one; a repeated key keeps the last value. *)
Definition dec_map : parser hmap :=
  l <~ dec_seq dec_entry ;;
  pret (fold_left (fun m e => hm_insert m (fst e) (snd e)) l []).

End Maps.
