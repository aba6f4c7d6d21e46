(** * Vocabulary for C82: UTF-8 as an encoding of Unicode scalar values *)
From Verif Require Import Base.
Local Open Scope N_scope.

(** Code points outside the surrogates. *)
Definition scalar (c : N) : Prop := c < 55296 \/ 57344 <= c <= 1114111.

(** One to four bytes; all but the first hold six bits each. *)
Definition utf8_encode (c : N) : list N :=
  if c <? 128 then [c]
  else if c <? 2048 then [192 + c / 64; 128 + c mod 64]
  else if c <? 65536 then [224 + c / 4096; 128 + c / 64 mod 64; 128 + c mod 64]
  else [240 + c / 262144; 128 + c / 4096 mod 64; 128 + c / 64 mod 64; 128 + c mod 64].
