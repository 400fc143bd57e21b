(** Text: sequences of Unicode scalar values, and the bytes that stand for them in
    UTF-8.  Specification only. *)
From Coq Require Import String Ascii.
From Coq Require Import NArith List Bool.
Import ListNotations.
Open Scope N_scope.

(** A code point that is not a surrogate. *)
Definition scalar (c : N) : Prop := c < 0xD800 \/ 0xE000 <= c < 0x110000.
(** The low six bits of [c / 64^k], in a byte that continues a character. *)
Definition continuation (c k : N) : N := 0x80 + c / 64 ^ k mod 64.
Definition utf8_bytes (c : N) : list N :=
  if c <? 0x80 then [c]
  else if c <? 0x800 then [0xC0 + c / 64; continuation c 0]
  else if c <? 0x10000 then [0xE0 + c / 64 ^ 2; continuation c 1; continuation c 0]
  else [0xF0 + c / 64 ^ 3; continuation c 2; continuation c 1; continuation c 0].
Definition encoded (cs : list N) : string := string_of_list_ascii (map ascii_of_N (flat_map utf8_bytes cs)).
(** The byte string is text. *)
Definition text (s : string) : Prop := exists cs, Forall scalar cs /\ s = encoded cs.
