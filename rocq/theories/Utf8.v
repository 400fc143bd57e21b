(** Which byte strings std takes for text: OsStr::to_str (std, not in /repo), which the
    argument parser calls on the words of the command line (main.rs:351).  No proofs here. *)
From Coq Require Import String Ascii.
From Coq Require Import NArith Bool.
Open Scope N_scope.

(** A pattern lo..=hi (core's run_utf8_validation; reached from main.rs:351). *)
Definition within (lo x hi : N) : bool := (lo <=? x) && (x <=? hi).
(** next!() as i8 < -64: a byte that continues a character (core; reached from main.rs:351). *)
Definition continues (c : ascii) : bool := within 0x80 (N_of_ascii c) 0xBF.
(** UTF8_CHAR_WIDTH, for bytes that are not ASCII (core; reached from main.rs:351). *)
Definition char_width (first : N) : N :=
  if within 0xC2 first 0xDF then 2 else if within 0xE0 first 0xEF then 3 else if within 0xF0 first 0xF4 then 4 else 0.
(** The match on (first, next!()) for three bytes (core; reached from main.rs:351). *)
Definition second_of_three (first : N) (c : ascii) : bool :=
  let next := N_of_ascii c in
  (first =? 0xE0) && within 0xA0 next 0xBF || within 0xE1 first 0xEC && within 0x80 next 0xBF ||
  (first =? 0xED) && within 0x80 next 0x9F || within 0xEE first 0xEF && within 0x80 next 0xBF.
(** As [second_of_three], for four bytes (core; reached from main.rs:351). *)
Definition second_of_four (first : N) (c : ascii) : bool :=
  let next := N_of_ascii c in
  (first =? 0xF0) && within 0x90 next 0xBF || within 0xF1 first 0xF3 && within 0x80 next 0xBF ||
  (first =? 0xF4) && within 0x80 next 0x8F.
(** run_utf8_validation: is to_str() a Some (core; reached from main.rs:351)?  The fast path over
    whole words of ASCII is left out. *)
Fixpoint utf8 (s : string) : bool :=
  match s with
  | EmptyString => true
  | String a s =>
      let first := N_of_ascii a in
      if 128 <=? first then
        match char_width first with
        | 2 => match s with String b s => continues b && utf8 s | _ => false end
        | 3 => match s with String b (String c s) => second_of_three first b && continues c && utf8 s | _ => false end
        | 4 => match s with
               | String b (String c (String d s)) => second_of_four first b && continues c && continues d && utf8 s
               | _ => false
               end
        | _ => false
        end
      else utf8 s
  end.
