(** Model of the command-line tool: blake2_bin/src/main.rs.

    Simplifications: the command line has been parsed (structopt, 10-74: Args.v); each path comes with the operating system's answers (BinSpec.source);
    a path is the text that to_string_lossy gives; the text of an error of the
    operating system is left out; println! does not fail (in Out.v it may). *)
From Coq Require Import String Ascii.
From Coq Require Import Arith NArith List Bool.
From Coq Require Import Init.Byte Strings.Byte.
From Verif Require Import Base Guts Simd Impl Sched Lib Par Api.
From Verif Require Import BinSpec.
Import ListNotations.
Open Scope list_scope.
Open Scope N_scope.
Local Notation length := List.length.

(** Result<T, Error> (main.rs:1, 175, 329, 341).  An error is what its Display shows, or [System] for an
    io::Error of the operating system. *)
Inductive result (A : Type) := Ok (a : A) | Error (e : reason).
Arguments Ok {A}. Arguments Error {A}.

(** [x?] (e.g. main.rs:131, 331, 333, 336). *)
Definition rbind {A B} (x : outcome (result A)) (k : A -> outcome (result B)) : outcome (result B) :=
  do r <- x; match r with Ok a => k a | Error err => Ret (Error err) end.
Notation "'try' x '<-' e ; k" := (rbind e (fun x => k)) (at level 200, x pattern, e at level 100, k at level 200).

(** enum Params, main.rs:76-81. *)
Inductive tool_params :=
| P2b (p : Lib.params) | P2bp (p : pparams) | P2s (p : Lib.params) | P2sp (p : pparams).
(** enum State, main.rs:94-100. *)
Inductive tool_state :=
| S2b (s : state) | S2bp (s : pstate) | S2s (s : state) | S2sp (s : pstate).

(** Params::to_state, main.rs:83-92. *)
Definition tool_to_state (p : tool_params) : outcome tool_state :=
  match p with
  | P2b p => Ret (S2b (to_state V2b p))
  | P2s p => Ret (S2s (to_state V2s p))
  | P2bp p => do s <- p_to_state V2b p; Ret (S2bp s)
  | P2sp p => do s <- p_to_state V2s p; Ret (S2sp s)
  end.

(** State::update, main.rs:103-118. *)
Definition tool_update (e : env) (s : tool_state) (input : list byte) : outcome tool_state :=
  match s with
  | S2b s => do s <- update V2b e s input; Ret (S2b s)
  | S2s s => do s <- update V2s e s input; Ret (S2s s)
  | S2bp s => do s <- p_update V2b e s input; Ret (S2bp s)
  | S2sp s => do s <- p_update V2s e s input; Ret (S2sp s)
  end.

(** State::finalize, main.rs:120-127. *)
Definition tool_finalize (e : env) (s : tool_state) : outcome string :=
  match s with
  | S2b s => do h <- finalize V2b e s; to_hex V2b h
  | S2s s => do h <- finalize V2s e s; to_hex V2s h
  | S2bp s => do h <- p_finalize V2b e s; to_hex V2b h
  | S2sp s => do h <- p_finalize V2s e s; to_hex V2s h
  end.

(** isize::MAX of a 64-bit target, main.rs:134. *)
Definition isize_max : N := 2 ^ 63 - 1.
(** mmap_file, main.rs:130-144. *)
Definition mmap_file (s : source) : result (list byte) :=
  match meta_len s with
  | None => Error System
  | Some len =>
      if N.ltb isize_max len then Error (Said "mmap length would overflow isize")
      else match mapped s len with Some bs => Ok bs | None => Error System end
  end.

(** read_write_all, main.rs:146-173.  Each read overwrites the beginning of the
    buffer; [Diverge] if the events run out before the loop returns. *)
Fixpoint read_loop (e : env) (evs : list event) (buf : list byte) (state : tool_state) : outcome (result tool_state) :=
  match evs with
  | [] => Diverge
  | Got bs :: r =>
      let n := length bs in
      let buf := bs ++ skipn n buf in
      if Nat.eqb n 0 then Ret (Ok state)
      else do _ <- assert_ (N.leb (N.of_nat n) read_limit);      (* &buf[..n] *)
           do state <- tool_update e state (firstn n buf);
           read_loop e r buf state
  | Interrupted :: r => read_loop e r buf state
  | Failed :: _ => Ret (Error System)
  end.
(** read_write_all, main.rs:146-173. *)
Definition read_write_all (e : env) (evs : list event) (state : tool_state) : outcome (result tool_state) :=
  read_loop e evs (repeat x00 (N.to_nat read_limit)) state.

(** hex::decode of the hex crate, version 0.4 (not in /repo; called at main.rs:209, 226, 238): an even
    number of digits of either case. *)
Definition hex_val (c : ascii) : option N :=
  let n := N_of_ascii c in
  if (65 <=? n) && (n <=? 70) then Some (n - 65 + 10)
  else if (97 <=? n) && (n <=? 102) then Some (n - 97 + 10)
  else if (48 <=? n) && (n <=? 57) then Some (n - 48)
  else None.
(** One hexadecimal digit of {:x} (core, not in /repo; for main.rs:209, 226, 238). *)
Definition lower_hex_digit (n : N) : string :=
  String (ascii_of_N (if n <? 10 then 48 + n else 87 + n)) EmptyString.
(** {:?} of a char (core, not in /repo), in the message of hex::decode (main.rs:209, 226, 238): here a byte as a char, so one of
    the first 256. *)
Definition escape_debug (c : ascii) : string :=
  let n := N_of_ascii c in
  let unicode := ("\u{" ++ (if (n <? 16)%N then "" else lower_hex_digit (n / 16)) ++ lower_hex_digit (n mod 16) ++ "}")%string in
  match n with
  | 0 => "\0"
  | 9 => "\t"
  | 10 => "\n"
  | 13 => "\r"
  | 39 => "\'"
  | 92 => "\\"
  | _ =>
      if n <? 32 then unicode
      else if n <? 127 then String c EmptyString
      else if n <=? 160 then unicode
      else if n =? 173 then unicode
      else String (ascii_of_N (0xC0 + n / 64)) (String (ascii_of_N (0x80 + n mod 64)) EmptyString)
  end.
(** Display of FromHexError (hex, not in /repo; main.rs:209, 226, 238). *)
Definition invalid_hex_character (c : ascii) (index : N) : reason :=
  Said ("Invalid character '" ++ escape_debug c ++ "' at position " ++ dec index)%string.
(** The digits of hex::decode (not in /repo), called at main.rs:209, 226, 238; [i] counts the pairs. *)
Fixpoint hex_pairs (i : N) (s : string) : result (list byte) :=
  match s with
  | String a (String b r) =>
      match hex_val a with
      | None => Error (invalid_hex_character a (2 * i))
      | Some x =>
          match hex_val b with
          | None => Error (invalid_hex_character b (2 * i + 1))
          | Some y =>
              match hex_pairs (i + 1) r with
              | Ok bs => match Byte.of_N (N.lor (N.shiftl x 4) y) with Some c => Ok (c :: bs) | None => Error System end
              | Error err => Error err
              end
          end
      end
  | _ => Ok []
  end.
(** hex::decode (not in /repo), called at main.rs:209, 226, 238. *)
Definition hex_decode (s : string) : result (list byte) :=
  if Nat.odd (String.length s) then Error (Said "Odd number of digits") else hex_pairs 0 s.

(** p.setter(x) (main.rs:192-325); the panic of a setter ends make_params. *)
Definition set_on {P} (wrap : P -> tool_params) (m : method P) (p : P) : outcome (result tool_params) :=
  match m p with
  | (p', Ret _) => Ret (Ok (wrap p'))
  | (_, Panic) => Panic
  | (_, UB) => UB
  | (_, Diverge) => Diverge
  end.

(** [if let Some(x) = o { .. }] (main.rs:192-314). *)
Definition if_some {A} (o : option A) (p : tool_params) (k : A -> tool_params -> outcome (result tool_params))
    : outcome (result tool_params) :=
  match o with Some x => k x p | None => Ret (Ok p) end.

(** make_params, main.rs:175-327. *)
Definition make_params (t : target) (opt : options) : outcome (result tool_params) :=
  if o_big opt && o_small opt then Ret (Error (Said "-b and -s can't be used together")) else
  let params :=
    if o_small opt
    then if o_parallel opt then P2sp (pparams_new V2s (detect t)) else P2s (params_new V2s (detect t))
    else if o_parallel opt then P2bp (pparams_new V2b (detect t)) else P2b (params_new V2b (detect t)) in
  try params <- if_some (o_length opt) params (fun length params =>
    match params with
    | P2b p => set_on P2b (hash_length V2b length) p
    | P2s p => set_on P2s (hash_length V2s length) p
    | P2bp p => set_on P2bp (p_set_hash_length V2b length) p
    | P2sp p => set_on P2sp (p_set_hash_length V2s length) p
    end);
  try params <- if_some (o_key opt) params (fun key_hex params =>
    try key_bytes <- Ret (hex_decode key_hex);
    match params with
    | P2b p => set_on P2b (key V2b key_bytes) p
    | P2s p => set_on P2s (key V2s key_bytes) p
    | P2bp p => set_on P2bp (p_set_key V2b key_bytes) p
    | P2sp p => set_on P2sp (p_set_key V2s key_bytes) p
    end);
  try params <- if_some (o_salt opt) params (fun salt_hex params =>
    try salt_bytes <- Ret (hex_decode salt_hex);
    match params with
    | P2b p => set_on P2b (salt V2b salt_bytes) p
    | P2s p => set_on P2s (salt V2s salt_bytes) p
    | _ => Ret (Error (Said "--salt not supported"))
    end);
  try params <- if_some (o_personal opt) params (fun personal_hex params =>
    try personal_bytes <- Ret (hex_decode personal_hex);
    match params with
    | P2b p => set_on P2b (personal V2b personal_bytes) p
    | P2s p => set_on P2s (personal V2s personal_bytes) p
    | _ => Ret (Error (Said "--personal not supported"))
    end);
  try params <- if_some (o_fanout opt) params (fun x params =>
    match params with
    | P2b p => set_on P2b (fanout x) p
    | P2s p => set_on P2s (fanout x) p
    | _ => Ret (Error (Said "--fanout not supported"))
    end);
  try params <- if_some (o_max_depth opt) params (fun x params =>
    match params with
    | P2b p => set_on P2b (max_depth x) p
    | P2s p => set_on P2s (max_depth x) p
    | _ => Ret (Error (Said "--max-depth not supported"))
    end);
  try params <- if_some (o_max_leaf_length opt) params (fun x params =>
    match params with
    | P2b p => set_on P2b (max_leaf_length x) p
    | P2s p => set_on P2s (max_leaf_length x) p
    | _ => Ret (Error (Said "--max-leaf-length not supported"))
    end);
  try params <- if_some (o_node_offset opt) params (fun x params =>
    match params with
    | P2b p => set_on P2b (node_offset V2b x) p
    | P2s p => set_on P2s (node_offset V2s x) p
    | _ => Ret (Error (Said "--node-offset not supported"))
    end);
  try params <- if_some (o_node_depth opt) params (fun x params =>
    match params with
    | P2b p => set_on P2b (node_depth x) p
    | P2s p => set_on P2s (node_depth x) p
    | _ => Ret (Error (Said "--node-depth not supported"))
    end);
  try params <- if_some (o_inner_hash_length opt) params (fun x params =>
    match params with
    | P2b p => set_on P2b (inner_hash_length V2b x) p
    | P2s p => set_on P2s (inner_hash_length V2s x) p
    | _ => Ret (Error (Said "--inner-hash-length not supported"))
    end);
  try params <- (if o_last_node opt
    then match params with
         | P2b p => set_on P2b (last_node true) p
         | P2s p => set_on P2s (last_node true) p
         | _ => Ret (Error (Said "--last-node not supported"))
         end
    else Ret (Ok params));
  Ret (Ok params).

(** hash_file, main.rs:329-339. *)
Definition hash_file (e : env) (opt : options) (params : tool_params) (path : source) : outcome (result string) :=
  do state <- tool_to_state params;
  if can_open path then
    try state <-
      (if o_mmap opt
       then try map <- Ret (mmap_file path); do s <- tool_update e state map; Ret (Ok s)
       else read_write_all e (reads path) state);
    do h <- tool_finalize e state; Ret (Ok h)
  else Ret (Error System).

(** hash_stdin, main.rs:341-348. *)
Definition hash_stdin (e : env) (opt : options) (params : tool_params) (stdin : list event) : outcome (result string) :=
  if o_mmap opt then Ret (Error (Said "--mmap not supported for stdin"))
  else
    do state <- tool_to_state params;
    try state <- read_write_all e stdin state;
    do h <- tool_finalize e state; Ret (Ok h).

(** println! and eprintln!, main.rs:364-382. *)
Definition with_line (l : line) (r : run) : run := {| lines := l :: lines r; finish_ := finish_ r |}.
(** Leaving main: main.rs:357, 388, 390, or a panic. *)
Definition stop (e : ending) : run := {| lines := []; finish_ := e |}.

(** The for loop of main, main.rs:371-385, and what follows it (387-389). *)
Fixpoint hash_inputs (e : env) (opt : options) (params : tool_params) (several failed : bool)
    (inputs : list (string * source)) : run :=
  match inputs with
  | [] => stop (Exited (if failed then 1 else 0))
  | (name, path) :: rest =>
      match hash_file e opt params path with
      | Ret (Ok hash) =>
          with_line (Out (if several then hash ++ "  " ++ name else hash)%string)
            (hash_inputs e opt params several failed rest)
      | Ret (Error err) => with_line (Complaint name err) (hash_inputs e opt params several true rest)
      | Panic => stop Aborted
      | UB => stop Undefined
      | Diverge => stop Endless
      end
  end.

(** main, main.rs:350-390. *)
Definition main (t : target) (e : env) (opt : options) (inputs : list (string * source)) (stdin : list event) : run :=
  match make_params t opt with
  | Ret (Error err) => {| lines := [Refusal err]; finish_ := Exited 1 |}
  | Panic => stop Aborted
  | UB => stop Undefined
  | Diverge => stop Endless
  | Ret (Ok params) =>
      match inputs with
      | [] =>
          match hash_stdin e opt params stdin with
          | Ret (Ok hash) => with_line (Out hash) (stop (Exited 0))
          | Ret (Error err) => with_line (Complaint "stdin" err) (stop (Exited 1))
          | Panic => stop Aborted
          | UB => stop Undefined
          | Diverge => stop Endless
          end
      | _ => hash_inputs e opt params (Nat.ltb 1 (length inputs)) false inputs
      end
  end.
