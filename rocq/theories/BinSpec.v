(** What the command-line tool promises, in terms of the published functions.
    Specification only; nothing here mentions the model of the tool. *)
From Coq Require Import String Ascii.
From Coq Require Import Arith NArith List Bool.
From Coq Require Import Init.Byte Strings.Byte.
From Coq Require DecimalString.
From Verif Require Import Spec ApiSpec Machine TextSpec.
Import ListNotations.
Open Scope list_scope.
Open Scope N_scope.
Local Notation length := List.length.

(** ** The options, after parsing *)
Record options := {
  o_mmap : bool; o_big : bool; o_small : bool; o_parallel : bool;
  o_length : option nat; o_key : option string; o_salt : option string; o_personal : option string;
  o_fanout : option N; o_max_depth : option N; o_max_leaf_length : option N; o_node_offset : option N;
  o_node_depth : option N; o_inner_hash_length : option nat; o_last_node : bool }.

(** Hexadecimal of either case. *)
Definition hex_letter (c : ascii) : option N :=
  let fix find (s : string) (n : N) := match s with
    | EmptyString => None
    | String d r => if Ascii.eqb c d then Some n else find r (n + 1)
    end in
  match find "0123456789abcdef"%string 0 with
  | Some n => Some n
  | None => find "0123456789ABCDEF"%string 0
  end.
Fixpoint hex_bytes (s : string) : option (list byte) :=
  match s with
  | EmptyString => Some []
  | String a (String b r) =>
      match hex_letter a, hex_letter b, hex_bytes r with
      | Some x, Some y, Some bs => option_map (fun c => c :: bs) (Byte.of_N (16 * x + y))
      | _, _, _ => None
      end
  | String _ EmptyString => None
  end.

(** The settings that the options ask for, one entry for each option given;
    None for one whose hexadecimal is malformed. *)
Definition asks {A} (x : option A) (k : A -> option setting) : list (option setting) :=
  match x with Some a => [k a] | None => [] end.
Definition requests (o : options) : list (option setting) :=
  asks (o_length o) (fun n => Some (HashLength n)) ++
  asks (o_key o) (fun s => option_map Key (hex_bytes s)) ++
  asks (o_salt o) (fun s => option_map Salt (hex_bytes s)) ++
  asks (o_personal o) (fun s => option_map Personal (hex_bytes s)) ++
  asks (o_fanout o) (fun x => Some (Fanout x)) ++
  asks (o_max_depth o) (fun x => Some (MaxDepth x)) ++
  asks (o_max_leaf_length o) (fun x => Some (MaxLeafLength x)) ++
  asks (o_node_offset o) (fun x => Some (NodeOffset x)) ++
  asks (o_node_depth o) (fun x => Some (NodeDepth x)) ++
  asks (o_inner_hash_length o) (fun n => Some (InnerHashLength n)) ++
  asks (if o_last_node o then Some tt else None) (fun _ => Some (LastNode true)).

Definition with_mmap (b : bool) (o : options) : options :=
  {| o_mmap := b; o_big := o_big o; o_small := o_small o; o_parallel := o_parallel o;
     o_length := o_length o; o_key := o_key o; o_salt := o_salt o; o_personal := o_personal o;
     o_fanout := o_fanout o; o_max_depth := o_max_depth o; o_max_leaf_length := o_max_leaf_length o;
     o_node_offset := o_node_offset o; o_node_depth := o_node_depth o;
     o_inner_hash_length := o_inner_hash_length o; o_last_node := o_last_node o |}.
(** Is there an option that BLAKE2bp and BLAKE2sp do not have? *)
Definition given {A} (x : option A) : bool := match x with Some _ => true | None => false end.
Definition has_tree_option (o : options) : bool :=
  given (o_salt o) || given (o_personal o) || given (o_fanout o) || given (o_max_depth o) ||
  given (o_max_leaf_length o) || given (o_node_offset o) || given (o_node_depth o) ||
  given (o_inner_hash_length o) || o_last_node o.

Definition chosen (o : options) : flavour := if o_small o then F2s else F2b.

(** Only the length and the key apply to BLAKE2bp and BLAKE2sp. *)
Definition for_parallel (s : setting) : option psetting :=
  match s with HashLength n => Some (PHashLength n) | Key k => Some (PKey k) | _ => None end.

(** What becomes of the options. *)
Inductive verdict :=
| Accept (ss : list setting)
| Refuse            (* an error message *)
| Crash.            (* the library's assertion about a value's range *)

Fixpoint judge (f : flavour) (parallel : bool) (rs : list (option setting)) : verdict :=
  match rs with
  | [] => Accept []
  | None :: _ => Refuse
  | Some s :: r =>
      if parallel && match for_parallel s with None => true | Some _ => false end then Refuse
      else if legal f s then match judge f parallel r with Accept ss => Accept (s :: ss) | x => x end
      else Crash
  end.
Definition verdict_of (o : options) : verdict :=
  if o_big o && o_small o then Refuse else judge (chosen o) (o_parallel o) (requests o).

(** The digest that the accepted settings mean. *)
Definition tool_digest (o : options) (ss : list setting) (data : list byte) : list byte :=
  let f := chosen o in
  if o_parallel o
  then pdigest f (pconfigure f (flat_map (fun s => match for_parallel s with Some p => [p] | None => [] end) ss)
                   (pdefault_config f)) data
  else digest f (configure f ss (default_config f)) data.

(** What Rust's types guarantee about the values. *)
Definition typed_options (o : options) : Prop :=
  Forall (fun r => match r with Some s => typed s | None => True end) (requests o).

(** ** The operating system *)
(** What one read(2) gives: some bytes (none at the end of the file), an
    interruption, or an error. *)
Inductive event := Got (bs : list byte) | Interrupted | Failed.

(** What a sequence of reads delivers in the end: all of the bytes, or an error. *)
Inductive delivers : list event -> option (list byte) -> Prop :=
| d_end r : delivers (Got [] :: r) (Some [])
| d_some bs r d : bs <> [] -> delivers r d -> delivers (Got bs :: r) (option_map (app bs) d)
| d_again r d : delivers r d -> delivers (Interrupted :: r) d
| d_error r : delivers (Failed :: r) None.

(** The tool's buffer, hence the longest answer of a read. *)
Definition read_limit : N := 32768.
Definition bounded_reads (evs : list event) : Prop :=
  forall bs, In (Got bs) evs -> N.of_nat (length bs) <= read_limit.

(** Reads that neither end nor fail. *)
Definition never_ends (evs : list event) : Prop :=
  Forall (fun ev => match ev with Got bs => bs <> [] | Interrupted => True | Failed => False end) evs.

(** A path: can it be opened, the length in its metadata, the result of
    mapping that many bytes, and the answers of its reads. *)
Record source := {
  can_open : bool; meta_len : option N; mapped : N -> option (list byte); reads : list event }.

(** The content of a path as the tool gets at it; None for any failure. *)
Inductive content (mmap : bool) (s : source) : option (list byte) -> Prop :=
| c_missing : can_open s = false -> content mmap s None
| c_read d : can_open s = true -> mmap = false -> bounded_reads (reads s) -> delivers (reads s) d -> content mmap s d
| c_no_len : can_open s = true -> mmap = true -> meta_len s = None -> content mmap s None
| c_too_long n : can_open s = true -> mmap = true -> meta_len s = Some n -> 2 ^ 63 <= n -> content mmap s None
| c_map n : can_open s = true -> mmap = true -> meta_len s = Some n -> n < 2 ^ 63 -> content mmap s (mapped s n).

(** ** What the tool says about what is wrong *)
(** A character between quotes: the printable ones (of the first 256) as they are, the others escaped. *)
Definition lower_hex (n : N) : string := if n <? 16 then hex_digit n else (hex_digit (n / 16) ++ hex_digit (n mod 16))%string.
Definition quoted (c : N) : string :=
  let body :=
    if c =? 9 then "\t"%string else if c =? 10 then "\n"%string else if c =? 13 then "\r"%string
    else if c =? 0 then "\0"%string else if c =? 39 then "\'"%string else if c =? 92 then "\\"%string
    else if (c <? 32) || (127 <=? c) && (c <=? 160) || (c =? 173) then ("\u{" ++ lower_hex c ++ "}")%string
    else encoded [c] in
  ("'" ++ body ++ "'")%string.
Definition decimal_numeral (n : nat) : string := DecimalString.NilZero.string_of_uint (N.to_uint (N.of_nat n)).
(** What is wrong with a hexadecimal value: its length, or each character that is no digit. *)
Fixpoint bad_digits (i : nat) (s : string) : list string :=
  match s with
  | EmptyString => []
  | String c r =>
      (if match hex_letter c with None => true | Some _ => false end
       then ["Invalid character " ++ quoted (N_of_ascii c) ++ " at position " ++ decimal_numeral i]%string
       else []) ++ bad_digits (S i) r
  end.
Definition hex_problems (s : string) : list string :=
  if Nat.odd (String.length s) then ["Odd number of digits"%string] else bad_digits 0 s.
Definition malformed (x : option string) : list string := match x with Some s => hex_problems s | None => [] end.
(** All that is wrong with the options, values out of range apart, in the order in which the tool looks. *)
Definition problems (o : options) : list string :=
  let unsupported (name : string) (present : bool) :=
    if o_parallel o && present then [name ++ " not supported"]%string else [] in
  (if o_big o && o_small o then ["-b and -s can't be used together"%string] else []) ++
  malformed (o_key o) ++
  malformed (o_salt o) ++ unsupported "--salt"%string (given (o_salt o)) ++
  malformed (o_personal o) ++ unsupported "--personal"%string (given (o_personal o)) ++
  unsupported "--fanout"%string (given (o_fanout o)) ++
  unsupported "--max-depth"%string (given (o_max_depth o)) ++
  unsupported "--max-leaf-length"%string (given (o_max_leaf_length o)) ++
  unsupported "--node-offset"%string (given (o_node_offset o)) ++
  unsupported "--node-depth"%string (given (o_node_depth o)) ++
  unsupported "--inner-hash-length"%string (given (o_inner_hash_length o)) ++
  unsupported "--last-node"%string (o_last_node o).

(** Why something went wrong: the tool's own words, or an error of input and output, in the words of the operating
    system (or of the library that maps files). *)
Inductive reason := Said (text : string) | System.
Definition problem (o : options) : reason := Said (hd ""%string (problems o)).
(** Why a path could not be read, if it could not. *)
Definition file_problem (mmap : bool) (s : source) : reason :=
  match mmap && can_open s, meta_len s with
  | true, Some n => if 2 ^ 63 <=? n then Said "mmap length would overflow isize" else System
  | _, _ => System
  end.
Definition stdin_problem (mmap : bool) : reason := if mmap then Said "--mmap not supported for stdin" else System.

(** ** What the tool does *)
Inductive line :=
| Out (s : string)           (* on standard output *)
| Complaint (about : string) (why : reason)  (* on standard error, about an input *)
| Refusal (why : reason)     (* on standard error, about the options *)
| Misuse.                    (* on standard error, the argument parser's message *)
Inductive ending :=
| Exited (status : N)
| Aborted                    (* a panic, status 101 *)
| Undefined
| Endless.                   (* still reading *)
Record run := { lines : list line; finish_ : ending }.

(** One input's line. *)
Definition report_line (o : options) (ss : list setting) (several : bool) (name : string) (why : reason) (d : option (list byte)) : line :=
  match d with
  | Some data => Out (Machine.hex (tool_digest o ss data) ++ if several then "  " ++ name else "")%string
  | None => Complaint name why
  end.
Definition ok (d : option (list byte)) : bool := match d with Some _ => true | None => false end.
Definition status_of (ds : list (option (list byte))) : N := if forallb ok ds then 0 else 1.
