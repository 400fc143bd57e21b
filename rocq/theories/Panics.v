(** Model of the messages of the panics: those of the assert!s of blake2b/src/lib.rs, blake2b/src/blake2bp.rs and
    blake2b/src/many.rs (and of blake2s) that a caller can meet, and which of them ends make_params of
    blake2_bin/src/main.rs.  What the panic hook of std writes around the message is left out. *)
From Coq Require Import String Ascii.
From Coq Require Import Arith NArith List Bool.
From Verif Require Import Base Guts Impl Lib Par Many ApiSpec BinSpec Bin.
Import ListNotations.
Open Scope list_scope.
Open Scope N_scope.
Local Notation length := List.length.

(** assert!(c, "..{}", x): the message, if it fails (e.g. lib.rs:239-243). *)
Definition assert_says (c : bool) (text : string) (x : N) : option string :=
  if c then None else Some (text ++ dec x)%string.

(** hash_length, lib.rs:238-246; blake2s lib.rs:229-237. *)
Definition hash_length_says (v : variant) (length : nat) : option string :=
  assert_says (Nat.leb 1 length && Nat.leb length (outbytes v)) "Bad hash length: " (N.of_nat length).
(** key, lib.rs:251-257; blake2s lib.rs:242-248. *)
Definition key_says (v : variant) (k : list byte) : option string :=
  assert_says (Nat.leb (length k) (keybytes v)) "Bad key length: " (N.of_nat (length k)).
(** salt, lib.rs:262-267; blake2s lib.rs:253-258. *)
Definition salt_says (v : variant) (s : list byte) : option string :=
  assert_says (Nat.leb (length s) (saltbytes v)) "Bad salt length: " (N.of_nat (length s)).
(** personal, lib.rs:272-281; blake2s lib.rs:263-272. *)
Definition personal_says (v : variant) (s : list byte) : option string :=
  assert_says (Nat.leb (length s) (personalbytes v)) "Bad personalization length: " (N.of_nat (length s)).
(** node_offset, lib.rs:306-309 (no assertion); blake2s lib.rs:297-301. *)
Definition node_offset_says (v : variant) (offset : N) : option string :=
  match v with
  | V2b => None
  | V2s => assert_says (N.ltb offset (N.shiftl 1 48)) "Bad node offset: " offset
  end.
(** inner_hash_length, lib.rs:320-324; blake2s lib.rs:312-316. *)
Definition inner_hash_length_says (v : variant) (length : nat) : option string :=
  assert_says (Nat.leb length (outbytes v)) "Bad inner hash length: " (N.of_nat length).
(** The message of the setter that a setting calls (lib.rs:238-339; the setters not listed have no assertion). *)
Definition setter_says (v : variant) (s : setting) : option string :=
  match s with
  | HashLength n => hash_length_says v n
  | Key k => key_says v k
  | Salt s => salt_says v s
  | Personal s => personal_says v s
  | NodeOffset x => node_offset_says v x
  | InnerHashLength n => inner_hash_length_says v n
  | Fanout _ | MaxDepth _ | MaxLeafLength _ | NodeDepth _ | LastNode _ => None
  end.

(** hash_length of the parallel functions, blake2bp.rs:161-169; blake2sp.rs:169-177. *)
Definition p_hash_length_says (v : variant) (length : nat) : option string :=
  assert_says (Nat.leb 1 length && Nat.leb length (outbytes v)) "Bad hash length: " (N.of_nat length).
(** key of the parallel functions, blake2bp.rs:173-179; blake2sp.rs:181-187. *)
Definition p_key_says (v : variant) (k : list byte) : option string :=
  assert_says (Nat.leb (length k) (keybytes v)) "Bad key length: " (N.of_nat (length k)).
(** The message of the setter that a setting calls (blake2bp.rs:161-179). *)
Definition psetter_says (v : variant) (s : psetting) : option string :=
  match s with PHashLength n => p_hash_length_says v n | PKey k => p_key_says v k end.

(** to_hash, many.rs:326-332: debug_assert!(self.finished, ..). *)
Definition to_hash_says (e : env) (j : hash_many_job) : option string :=
  if e_dbg e then if hj_finished j then None else Some "job hasn't been run yet"%string else None.

(** How far make_params gets (main.rs:175-327): on to the next statement, to an error, or to a panic. *)
Inductive course := On | Bailed (why : reason) | PanickedWith (message : string).
(** Statements in sequence (main.rs:192-325). *)
Definition next (a b : course) : course := match a with On => b | x => x end.
(** A setter is called (main.rs:192-325). *)
Definition calls (m : option string) : course := match m with Some text => PanickedWith text | None => On end.
(** [if let Some(x) = o { .. }] (main.rs:192-314). *)
Definition when_given {A} (o : option A) (k : A -> course) : course := match o with Some x => k x | None => On end.
(** hex::decode(..)? (main.rs:209, 226, 238). *)
Definition decoded (s : string) (k : list byte -> course) : course :=
  match hex_decode s with Ok bytes => k bytes | Error why => Bailed why end.
(** The variant of params (main.rs:179-191). *)
Definition kind (opt : options) : variant := if o_small opt then V2s else V2b.
(** The arms Blake2b and Blake2s, and the arm that gives up (e.g. main.rs:227-235). *)
Definition serial_only (opt : options) (m : option string) (text : string) : course :=
  if o_parallel opt then Bailed (Said text) else calls m.

(** make_params, main.rs:175-327. *)
Definition make_params_says (opt : options) : course :=
  let v := kind opt in
  if o_big opt && o_small opt then Bailed (Said "-b and -s can't be used together") else
  next (when_given (o_length opt) (fun length =>
          calls (if o_parallel opt then p_hash_length_says v length else hash_length_says v length))) (
  next (when_given (o_key opt) (fun key => decoded key (fun key_bytes =>
          calls (if o_parallel opt then p_key_says v key_bytes else key_says v key_bytes)))) (
  next (when_given (o_salt opt) (fun salt => decoded salt (fun salt_bytes =>
          serial_only opt (salt_says v salt_bytes) "--salt not supported"))) (
  next (when_given (o_personal opt) (fun personal => decoded personal (fun personal_bytes =>
          serial_only opt (personal_says v personal_bytes) "--personal not supported"))) (
  next (when_given (o_fanout opt) (fun _ => serial_only opt None "--fanout not supported")) (
  next (when_given (o_max_depth opt) (fun _ => serial_only opt None "--max-depth not supported")) (
  next (when_given (o_max_leaf_length opt) (fun _ => serial_only opt None "--max-leaf-length not supported")) (
  next (when_given (o_node_offset opt) (fun node_offset =>
          serial_only opt (node_offset_says v node_offset) "--node-offset not supported")) (
  next (when_given (o_node_depth opt) (fun _ => serial_only opt None "--node-depth not supported")) (
  next (when_given (o_inner_hash_length opt) (fun inner_hash_length =>
          serial_only opt (inner_hash_length_says v inner_hash_length) "--inner-hash-length not supported")) (
  if o_last_node opt then serial_only opt None "--last-node not supported" else On)))))))))).
