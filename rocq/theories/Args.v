(** The command line of blake2_bin: the declarations of [Opt] (main.rs:10-74), and
    what [Opt::from_args] (main.rs:351) makes of the arguments.  The parser itself
    is third-party code that is not in /repo (structopt 0.3 over clap 2.33): what is
    written here is a reading of clap's parsing loop, restricted to the features
    that these declarations use.  Arguments are byte strings, and need not be
    UTF-8.  No proofs here. *)
From Coq Require Import String Ascii.
From Coq Require Import Arith NArith List Bool.
From Verif Require Import Impl.
From Verif Require Import BinSpec Bin Utf8.
Import ListNotations.
Open Scope list_scope.
Open Scope N_scope.
Local Notation length := List.length.

(** ** The declarations *)
(** One #[structopt(...)] field: clap's name for it (the field's, with hyphens), its
    letter or its long name, whether it takes a value (Option<_>) or not (bool), and
    for numbers the width of the type whose FromStr is the validator (main.rs:10-74). *)
Record arg := { name : string; short : option ascii; long : option string; takes_value : bool; width : option N }.
(** A bool field with a letter, main.rs:19-29. *)
Definition flag_short n c := {| name := n; short := Some c; long := None; takes_value := false; width := None |}.
(** A bool field with a long name, main.rs:15-17, 71-73. *)
Definition flag_long n l := {| name := n; short := None; long := Some l; takes_value := false; width := None |}.
(** An Option<String> field, main.rs:35-45. *)
Definition opt_string n l := {| name := n; short := None; long := Some l; takes_value := true; width := None |}.
(** An Option of a number, main.rs:31-33, 47-69. *)
Definition opt_number n l w := {| name := n; short := None; long := Some l; takes_value := true; width := Some w |}.
(** struct Opt, main.rs:10-74; usize is 64 bits wide.  [inputs] (line 13) is the one
    positional argument and is kept apart. *)
Definition declared : list arg :=
  [ flag_long "mmap" "mmap";                              (* 15-17 *)
    flag_short "big" "b";                                 (* 19-21 *)
    flag_short "small" "s";                               (* 23-25 *)
    flag_short "parallel" "p";                            (* 27-29 *)
    opt_number "length" "length" 64;                      (* 31-33, usize *)
    opt_string "key" "key";                               (* 35-37 *)
    opt_string "salt" "salt";                             (* 39-41 *)
    opt_string "personal" "personal";                     (* 43-45 *)
    opt_number "fanout" "fanout" 8;                       (* 47-49, u8 *)
    opt_number "max-depth" "max-depth" 8;                 (* 51-53, u8 *)
    opt_number "max-leaf-length" "max-leaf-length" 32;    (* 55-57, u32 *)
    opt_number "node-offset" "node-offset" 64;            (* 59-61, u64 *)
    opt_number "node-depth" "node-depth" 8;               (* 63-65, u8 *)
    opt_number "inner-hash-length" "inner-hash-length" 64;(* 67-69, usize *)
    flag_long "last-node" "last-node" ]%string%char.      (* 71-73 *)
(** clap adds -h, --help, -V and --version (to the struct of main.rs:10-11). *)
Definition help_arg : arg := {| name := "help"; short := Some "h"%char; long := Some "help"%string; takes_value := false; width := None |}.
(** As [help_arg] (main.rs:10-11). *)
Definition version_arg : arg := {| name := "version"; short := Some "V"%char; long := Some "version"%string; takes_value := false; width := None |}.
(** All of them (main.rs:10-74). *)
Definition all_args : list arg := declared ++ [help_arg; version_arg].

(** ** Integers: FromStr of the unsigned types (core::num, from_str_radix with radix 10) *)
(** char::to_digit(10) (core, for the fields of main.rs:31-33, 47-69). *)
Definition to_digit (c : ascii) : option N :=
  let n := N_of_ascii c in if (48 <=? n) && (n <=? 57) then Some (n - 48) else None.
(** checked_mul and checked_add (core, for the fields of main.rs:31-33, 47-69). *)
Definition checked (bits x : N) : option N := if x <? 2 ^ bits then Some x else None.
(** The loop of from_str_radix (core, for the fields of main.rs:31-33, 47-69). *)
Fixpoint digits (bits result : N) (src : string) : option N :=
  match src with
  | EmptyString => Some result
  | String c rest =>
      match to_digit c with
      | None => None
      | Some x =>
          match checked bits (result * 10) with
          | None => None
          | Some result =>
              match checked bits (result + x) with
              | None => None
              | Some result => digits bits result rest
              end
          end
      end
  end.
(** from_str_radix: one sign is allowed (core, for the fields of main.rs:31-33, 47-69). *)
Definition from_str (bits : N) (src : string) : option N :=
  match src with
  | EmptyString => None
  | String "+" EmptyString => None
  | String "+" rest => digits bits 0 rest
  | _ => digits bits 0 src
  end.

(** ** clap's parser *)
(** ArgMatcher: the occurrences and the values in the order in which they were
    added, and the values of the positional argument (clap, main.rs:351). *)
Record matcher := { occurs : list string; vals : list (string * string); inputs : list string }.
(** ArgMatcher::new (clap, not in /repo; reached from main.rs:351). *)
Definition no_matches : matcher := {| occurs := []; vals := []; inputs := [] |}.
(** ArgMatcher::inc_occurrence_of (clap, not in /repo; reached from main.rs:351). *)
Definition inc_occurrence (n : string) (m : matcher) : matcher :=
  {| occurs := occurs m ++ [n]; vals := vals m; inputs := inputs m |}.
(** ArgMatcher::add_val_to for an option (clap, not in /repo; reached from main.rs:351). *)
Definition add_val (n v : string) (m : matcher) : matcher :=
  {| occurs := occurs m; vals := vals m ++ [(n, v)]; inputs := inputs m |}.
(** ArgMatcher::add_val_to for the positional argument (clap, not in /repo; reached from main.rs:351). *)
Definition add_input (p : string) (m : matcher) : matcher :=
  {| occurs := occurs m; vals := vals m; inputs := inputs m ++ [p] |}.

(** clap's ParseResult (clap, not in /repo; reached from main.rs:351). *)
Inductive parse_result := NotFound | FlagFound | OptFound (n : string) | ValuesDone.
(** Where clap ends the process: an error (status 1), or the help or the version (status 0), main.rs:351. *)
Inductive info := Help | Version.
(** As [info]: what the process ends with; [InvalidUtf8] is a panic of clap's
    to_str().expect(INVALID_UTF8) (main.rs:351). *)
Inductive stopped := UsageError | Shown (i : info) | InvalidUtf8.
(** ClapResult (clap, not in /repo; reached from main.rs:351). *)
Definition parsing (A : Type) : Type := A + stopped.

(** OsStrExt2::trim_left_matches (clap, not in /repo; reached from main.rs:351). *)
Fixpoint trim_left (c : ascii) (s : string) : string :=
  match s with String d r => if Ascii.eqb c d then trim_left c r else s | EmptyString => EmptyString end.
(** OsStrExt2::split_at_byte (clap, not in /repo; reached from main.rs:351). *)
Fixpoint split_at (c : ascii) (s : string) : string * option string :=
  match s with
  | EmptyString => (EmptyString, None)
  | String d r => if Ascii.eqb c d then (EmptyString, Some r) else let '(a, b) := split_at c r in (String d a, b)
  end.
(** OsStrExt2::starts_with (clap, not in /repo; reached from main.rs:351). *)
Definition starts_dash (s : string) : bool := match s with String "-" _ => true | _ => false end.
(** As [starts_dash], two of them (clap, not in /repo; reached from main.rs:351). *)
Definition starts_dashes (s : string) : bool := match s with String "-" (String "-" _) => true | _ => false end.

(** Parser::is_new_arg: is this word an option rather than a value (clap, main.rs:351)? *)
Definition is_new_arg (a : string) (needs_val_of : parse_result) : bool :=
  match needs_val_of with
  | ValuesDone => true
  | _ => if starts_dashes a then true else if starts_dash a then negb (Nat.eqb (String.length a) 1) else false
  end.

(** Parser::parse_opt (clap, main.rs:351). *)
Definition parse_opt (val : option string) (o : arg) (m : matcher) : parse_result * matcher :=
  match val with
  | Some fv => (ValuesDone, inc_occurrence (name o) (add_val (name o) (trim_left "=" fv) m))
  | None => (OptFound (name o), inc_occurrence (name o) m)
  end.
(** Parser::check_for_help_and_version_str / _char, then Parser::parse_flag (clap, main.rs:351). *)
Definition parse_flag (f : arg) (m : matcher) : parsing (parse_result * matcher) :=
  if String.eqb (name f) "help" then inr (Shown Help)
  else if String.eqb (name f) "version" then inr (Shown Version)
  else inl (FlagFound, inc_occurrence (name f) m).
(** The look-up of a long name (clap, not in /repo; reached from main.rs:351). *)
Definition has_long (w : string) (a : arg) : bool :=
  match long a with Some l => String.eqb l w | None => false end.
(** The look-up of a letter (clap, not in /repo; reached from main.rs:351). *)
Definition has_short (c : ascii) (a : arg) : bool :=
  match short a with Some d => Ascii.eqb d c | None => false end.
(** Parser::parse_long_arg: a value after '=' is ignored by a flag; for the message about an unknown
    name, the name and the words after this one, [it], are made strings (clap, main.rs:351). *)
Definition parse_long_arg (full : string) (it : list string) (m : matcher) : parsing (parse_result * matcher) :=
  let '(w, val) := split_at "=" (trim_left "-" full) in
  match find (fun a => takes_value a && has_long w a) all_args with
  | Some o => inl (parse_opt val o m)
  | None =>
      match find (fun a => negb (takes_value a) && has_long w a) all_args with
      | Some f => parse_flag f m
      | None => inr (if forallb utf8 it && utf8 w then UsageError else InvalidUtf8)
      end
  end.
(** Parser::parse_short_arg; no declared letter takes a value (clap, main.rs:351). *)
Fixpoint parse_letters (cs : string) (ret : parse_result) (m : matcher) : parsing (parse_result * matcher) :=
  match cs with
  | EmptyString => inl (ret, m)
  | String c rest =>
      match find (fun a => negb (takes_value a) && has_short c a) all_args with
      | Some f => match parse_flag f m with inl (ret, m) => parse_letters rest ret m | inr s => inr s end
      | None => inr UsageError
      end
  end.
(** Parser::parse_short_arg, the whole word (clap, not in /repo; reached from main.rs:351). *)
Definition parse_short_arg (full : string) (m : matcher) : parsing (parse_result * matcher) :=
  parse_letters (trim_left "-" full) NotFound m.

(** Parser::get_matches_with, the loop over the words; [trailing] is set by "--".
    The result is what the validator gets (clap, main.rs:351). *)
Fixpoint get_matches (args : list string) (trailing : bool) (needs_val_of : parse_result) (m : matcher)
    : parsing matcher :=
  match args with
  | [] => inl m
  | a :: rest =>
      let starts_new_arg := is_new_arg a needs_val_of in
      if negb trailing && String.eqb a "--" && starts_new_arg then get_matches rest true needs_val_of m
      else
        let positional nv := get_matches rest trailing nv (add_input a m) in
        if trailing then positional needs_val_of
        else if starts_new_arg then
          if starts_dashes a then
            match parse_long_arg a rest m with
            | inl (nv, m) => get_matches rest trailing nv m
            | inr s => inr s
            end
          else if starts_dash a && negb (Nat.eqb (String.length a) 1) then
            match parse_short_arg a m with
            | inl (NotFound, m) => get_matches rest trailing NotFound (add_input a m)
            | inl (nv, m) => get_matches rest trailing nv m
            | inr s => inr s
            end
          else positional needs_val_of
        else
          match needs_val_of with
          | OptFound n => get_matches rest trailing ValuesDone (add_val n a m)
          | _ => positional needs_val_of
          end
  end.

(** MatchedArg::occurs (clap, not in /repo; reached from main.rs:351). *)
Definition count (n : string) (l : list string) : nat := length (filter (String.eqb n) l).
(** MatchedArg::vals (clap, not in /repo; reached from main.rs:351). *)
Definition values_of (n : string) (m : matcher) : list string :=
  map snd (filter (fun x => String.eqb n (fst x)) (vals m)).
(** Validator::validate_arg_num_vals, validate_values and validate_arg_num_occurs (clap, main.rs:351). *)
Definition valid_arg (m : matcher) (a : arg) : bool :=
  let n := count (name a) (occurs m) in
  negb (Nat.ltb 1 n) &&
  (if takes_value a && Nat.ltb 0 n then negb (Nat.eqb (length (values_of (name a) m)) 0) else true) &&
  match width a with
  | Some bits => forallb (fun v => match from_str bits v with Some _ => true | None => false end) (values_of (name a) m)
  | None => true
  end.

(** ** structopt: Opt::from_clap *)
(** ArgMatches::value_of and values_of make a string of every value, with to_str().expect(INVALID_UTF8).
    That is also how the inputs are read, since main.rs:13 does not say parse(from_os_str); the values of the
    numbers have been validated (clap and structopt, main.rs:351). *)
Definition all_utf8 (m : matcher) : bool :=
  forallb utf8 (inputs m) &&
  forallb (fun n => forallb utf8 (values_of n m)) ["key"; "salt"; "personal"]%string.
(** ArgMatches::is_present and value_of; [None] of [number_of] is a panic of unwrap (structopt's from_clap, main.rs:351). *)
Definition is_present (n : string) (m : matcher) : bool := Nat.ltb 0 (count n (occurs m)).
(** As [is_present] (structopt's from_clap, main.rs:351). *)
Definition value_of (n : string) (m : matcher) : option string :=
  match values_of n m with v :: _ => Some v | [] => None end.
(** As [value_of], with the FromStr of the field (structopt's from_clap, main.rs:351). *)
Definition number_of (bits : N) (n : string) (m : matcher) : option (option N) :=
  match value_of n m with
  | None => Some None
  | Some v => match from_str bits v with Some x => Some (Some x) | None => None end
  end.
(** Opt::from_clap, generated by the derive of main.rs:10 for the fields 13-73. *)
Definition from_clap (m : matcher) : option (options * list string) :=
  match number_of 64 "length" m, number_of 8 "fanout" m, number_of 8 "max-depth" m, number_of 32 "max-leaf-length" m,
        number_of 64 "node-offset" m, number_of 8 "node-depth" m, number_of 64 "inner-hash-length" m with
  | Some len, Some fan, Some dep, Some leaf, Some off, Some nd, Some inner =>
      Some ({| o_mmap := is_present "mmap" m; o_big := is_present "big" m; o_small := is_present "small" m;
               o_parallel := is_present "parallel" m; o_length := option_map N.to_nat len;
               o_key := value_of "key" m; o_salt := value_of "salt" m; o_personal := value_of "personal" m;
               o_fanout := fan; o_max_depth := dep; o_max_leaf_length := leaf; o_node_offset := off;
               o_node_depth := nd; o_inner_hash_length := option_map N.to_nat inner;
               o_last_node := is_present "last-node" m |}, inputs m)
  | _, _, _, _, _, _, _ => None
  end.

(** Opt::from_args, main.rs:351. *)
Inductive parsed :=
| Parsed (o : options) (paths : list string)
| Stopped (s : stopped)
| UnwrapPanic.
(** As [parsed] (main.rs:351). *)
Definition from_args (argv : list string) : parsed :=
  match get_matches argv false NotFound no_matches with
  | inr s => Stopped s
  | inl m =>
      if forallb (valid_arg m) declared
      then if all_utf8 m
           then match from_clap m with Some (o, ps) => Parsed o ps | None => UnwrapPanic end
           else Stopped InvalidUtf8
      else Stopped UsageError
  end.

(** The whole tool, main.rs:350-390, from the words after the program's name;
    [files] is what a path leads to, [about] the text of --help and --version. *)
Definition blake2 (t : target) (e : env) (about : info -> string) (files : string -> source)
    (argv : list string) (stdin : list event) : run :=
  match from_args argv with
  | Parsed o ps => main t e o (map (fun p => (p, files p)) ps) stdin
  | Stopped UsageError => {| lines := [Misuse]; finish_ := Exited 1 |}
  | Stopped (Shown i) => {| lines := [Out (about i)]; finish_ := Exited 0 |}
  | Stopped InvalidUtf8 | UnwrapPanic => stop Aborted
  end.
