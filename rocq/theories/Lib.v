(** Model of blake2b/src/lib.rs:105-689 and blake2s/src/lib.rs:95-681: Params,
    State and Hash.  Line numbers are blake2b's unless "s:" is given. *)
From Coq Require Import String Ascii DecimalString.
From Coq Require Import Arith NArith List Bool.
From Verif Require Import Base Guts Impl.
Import ListNotations.
Open Scope N_scope.

(** ** Params *)

(** lib.rs:146-160; s: 135-149. *)
Record params := {
  p_hash_length : N;
  p_key_length : N;
  p_key_block : list byte;
  p_salt : list byte;
  p_personal : list byte;
  p_fanout : N;
  p_max_depth : N;
  p_max_leaf_length : N;
  p_node_offset : N;
  p_node_depth : N;
  p_inner_hash_length : N;
  p_last_node : bool;
  p_imp : platform }.

(** Params::new, lib.rs:165-183; s: 154-172.  [imp] is what
    guts::Implementation::detect() returns. *)
Definition params_new (v : variant) (imp : platform) : params := {|
  p_hash_length := N.of_nat (outbytes v);
  p_key_length := 0;
  p_key_block := zeros (blockbytes v);
  p_salt := zeros (saltbytes v);
  p_personal := zeros (personalbytes v);
  p_fanout := 1;
  p_max_depth := 1;
  p_max_leaf_length := 0;
  p_node_offset := 0;
  p_node_depth := 0;
  p_inner_hash_length := 0;
  p_last_node := false;
  p_imp := imp |}.

(** Assignments to the single fields of a Params.
    self.hash_length = x (field at lib.rs:147). *)
Definition set_p_hash_length x p := {| p_hash_length := x; p_key_length := p_key_length p;
  p_key_block := p_key_block p; p_salt := p_salt p; p_personal := p_personal p;
  p_fanout := p_fanout p; p_max_depth := p_max_depth p; p_max_leaf_length := p_max_leaf_length p;
  p_node_offset := p_node_offset p; p_node_depth := p_node_depth p;
  p_inner_hash_length := p_inner_hash_length p; p_last_node := p_last_node p; p_imp := p_imp p |}.
(** self.key_length = x (field at lib.rs:148). *)
Definition set_p_key_length x p := {| p_hash_length := p_hash_length p; p_key_length := x;
  p_key_block := p_key_block p; p_salt := p_salt p; p_personal := p_personal p;
  p_fanout := p_fanout p; p_max_depth := p_max_depth p; p_max_leaf_length := p_max_leaf_length p;
  p_node_offset := p_node_offset p; p_node_depth := p_node_depth p;
  p_inner_hash_length := p_inner_hash_length p; p_last_node := p_last_node p; p_imp := p_imp p |}.
(** self.key_block = x (field at lib.rs:149). *)
Definition set_p_key_block x p := {| p_hash_length := p_hash_length p;
  p_key_length := p_key_length p;
  p_key_block := x; p_salt := p_salt p; p_personal := p_personal p;
  p_fanout := p_fanout p; p_max_depth := p_max_depth p; p_max_leaf_length := p_max_leaf_length p;
  p_node_offset := p_node_offset p; p_node_depth := p_node_depth p;
  p_inner_hash_length := p_inner_hash_length p; p_last_node := p_last_node p; p_imp := p_imp p |}.
(** self.salt = x (field at lib.rs:150). *)
Definition set_p_salt x p := {| p_hash_length := p_hash_length p;
  p_key_length := p_key_length p;
  p_key_block := p_key_block p; p_salt := x; p_personal := p_personal p;
  p_fanout := p_fanout p; p_max_depth := p_max_depth p; p_max_leaf_length := p_max_leaf_length p;
  p_node_offset := p_node_offset p; p_node_depth := p_node_depth p;
  p_inner_hash_length := p_inner_hash_length p; p_last_node := p_last_node p; p_imp := p_imp p |}.
(** self.personal = x (field at lib.rs:151). *)
Definition set_p_personal x p := {| p_hash_length := p_hash_length p;
  p_key_length := p_key_length p;
  p_key_block := p_key_block p; p_salt := p_salt p; p_personal := x;
  p_fanout := p_fanout p; p_max_depth := p_max_depth p; p_max_leaf_length := p_max_leaf_length p;
  p_node_offset := p_node_offset p; p_node_depth := p_node_depth p;
  p_inner_hash_length := p_inner_hash_length p; p_last_node := p_last_node p; p_imp := p_imp p |}.
(** self.fanout = x (field at lib.rs:152). *)
Definition set_p_fanout x p := {| p_hash_length := p_hash_length p;
  p_key_length := p_key_length p;
  p_key_block := p_key_block p; p_salt := p_salt p; p_personal := p_personal p;
  p_fanout := x; p_max_depth := p_max_depth p; p_max_leaf_length := p_max_leaf_length p;
  p_node_offset := p_node_offset p; p_node_depth := p_node_depth p;
  p_inner_hash_length := p_inner_hash_length p; p_last_node := p_last_node p; p_imp := p_imp p |}.
(** self.max_depth = x (field at lib.rs:153). *)
Definition set_p_max_depth x p := {| p_hash_length := p_hash_length p;
  p_key_length := p_key_length p;
  p_key_block := p_key_block p; p_salt := p_salt p; p_personal := p_personal p;
  p_fanout := p_fanout p; p_max_depth := x; p_max_leaf_length := p_max_leaf_length p;
  p_node_offset := p_node_offset p; p_node_depth := p_node_depth p;
  p_inner_hash_length := p_inner_hash_length p; p_last_node := p_last_node p; p_imp := p_imp p |}.
(** self.max_leaf_length = x (field at lib.rs:154). *)
Definition set_p_max_leaf_length x p := {| p_hash_length := p_hash_length p;
  p_key_length := p_key_length p;
  p_key_block := p_key_block p; p_salt := p_salt p; p_personal := p_personal p;
  p_fanout := p_fanout p; p_max_depth := p_max_depth p; p_max_leaf_length := x;
  p_node_offset := p_node_offset p; p_node_depth := p_node_depth p;
  p_inner_hash_length := p_inner_hash_length p; p_last_node := p_last_node p; p_imp := p_imp p |}.
(** self.node_offset = x (field at lib.rs:155). *)
Definition set_p_node_offset x p := {| p_hash_length := p_hash_length p;
  p_key_length := p_key_length p;
  p_key_block := p_key_block p; p_salt := p_salt p; p_personal := p_personal p;
  p_fanout := p_fanout p; p_max_depth := p_max_depth p; p_max_leaf_length := p_max_leaf_length p;
  p_node_offset := x; p_node_depth := p_node_depth p;
  p_inner_hash_length := p_inner_hash_length p; p_last_node := p_last_node p; p_imp := p_imp p |}.
(** self.node_depth = x (field at lib.rs:156). *)
Definition set_p_node_depth x p := {| p_hash_length := p_hash_length p;
  p_key_length := p_key_length p;
  p_key_block := p_key_block p; p_salt := p_salt p; p_personal := p_personal p;
  p_fanout := p_fanout p; p_max_depth := p_max_depth p; p_max_leaf_length := p_max_leaf_length p;
  p_node_offset := p_node_offset p; p_node_depth := x;
  p_inner_hash_length := p_inner_hash_length p; p_last_node := p_last_node p; p_imp := p_imp p |}.
(** self.inner_hash_length = x (field at lib.rs:157). *)
Definition set_p_inner_hash_length x p := {| p_hash_length := p_hash_length p;
  p_key_length := p_key_length p;
  p_key_block := p_key_block p; p_salt := p_salt p; p_personal := p_personal p;
  p_fanout := p_fanout p; p_max_depth := p_max_depth p; p_max_leaf_length := p_max_leaf_length p;
  p_node_offset := p_node_offset p; p_node_depth := p_node_depth p;
  p_inner_hash_length := x; p_last_node := p_last_node p; p_imp := p_imp p |}.
(** self.last_node = x (field at lib.rs:158). *)
Definition set_p_last_node x p := {| p_hash_length := p_hash_length p;
  p_key_length := p_key_length p;
  p_key_block := p_key_block p; p_salt := p_salt p; p_personal := p_personal p;
  p_fanout := p_fanout p; p_max_depth := p_max_depth p; p_max_leaf_length := p_max_leaf_length p;
  p_node_offset := p_node_offset p; p_node_depth := p_node_depth p;
  p_inner_hash_length := p_inner_hash_length p; p_last_node := x; p_imp := p_imp p |}.
(** self.implementation = x (field at lib.rs:159). *)
Definition set_p_imp x p := {| p_hash_length := p_hash_length p;
  p_key_length := p_key_length p;
  p_key_block := p_key_block p; p_salt := p_salt p; p_personal := p_personal p;
  p_fanout := p_fanout p; p_max_depth := p_max_depth p; p_max_leaf_length := p_max_leaf_length p;
  p_node_offset := p_node_offset p; p_node_depth := p_node_depth p;
  p_inner_hash_length := p_inner_hash_length p; p_last_node := p_last_node p; p_imp := x |}.

(** A [&mut self] method (lib.rs:238-339): the object afterwards and how the call ended.  The
    object is reported also when the call panics. *)
Definition method (P : Type) := P -> P * outcome unit.
(** assert! at the head of a setter, e.g. lib.rs:239-243, 252. *)
Definition m_assert {P} (c : bool) : method P := fun p => (p, assert_ c).
(** An assignment to a field of self, e.g. lib.rs:244, 253. *)
Definition m_assign {P} (f : P -> P) : method P := fun p => (f p, Ret tt).
(** An assignment whose right-hand side may panic, e.g. lib.rs:255. *)
Definition m_try {P} (f : P -> outcome P) : method P :=
  fun p => match f p with
           | Ret p' => (p', Ret tt)
           | Panic => (p, Panic)
           | UB => (p, UB)
           | Diverge => (p, Diverge)
           end.
(** Statements in sequence: what was assigned before a panic stays (lib.rs:251-257). *)
Definition m_seq {P} (a b : method P) : method P :=
  fun p => let '(p', o) := a p in
           match o with
           | Ret _ => b p'
           | _ => (p', o)
           end.
Infix ";;" := m_seq (at level 61, left associativity).

(** u8 conversion, [x as u8] (lib.rs:244, 253, 322, 419, 427). *)
Definition as_u8 (x : nat) : N := N.of_nat x mod 256.

(** lib.rs:238-246; s: 229-237. *)
Definition hash_length (v : variant) (length : nat) : method params :=
  m_assert (Nat.leb 1 length && Nat.leb length (outbytes v)) ;;
  m_assign (set_p_hash_length (as_u8 length)).

(** lib.rs:251-257; s: 242-248. *)
Definition key (v : variant) (k : list byte) : method params :=
  m_assert (Nat.leb (length k) (keybytes v)) ;;
  m_assign (set_p_key_length (as_u8 (length k))) ;;
  m_assign (set_p_key_block (zeros (blockbytes v))) ;;
  m_try (fun p => do b <- copy_into (p_key_block p) 0 k; Ret (set_p_key_block b p)).

(** lib.rs:262-267; s: 253-258. *)
Definition salt (v : variant) (s : list byte) : method params :=
  m_assert (Nat.leb (length s) (saltbytes v)) ;;
  m_assign (set_p_salt (zeros (saltbytes v))) ;;
  m_try (fun p => do b <- copy_into (p_salt p) 0 s; Ret (set_p_salt b p)).

(** lib.rs:272-281; s: 263-272. *)
Definition personal (v : variant) (s : list byte) : method params :=
  m_assert (Nat.leb (length s) (personalbytes v)) ;;
  m_assign (set_p_personal (zeros (personalbytes v))) ;;
  m_try (fun p => do b <- copy_into (p_personal p) 0 s; Ret (set_p_personal b p)).

(** lib.rs:285-288; s: 276-279. *)
Definition fanout (x : N) : method params := m_assign (set_p_fanout x).
(** lib.rs:292-295; s: 283-286. *)
Definition max_depth (x : N) : method params := m_assign (set_p_max_depth x).
(** lib.rs:299-302; s: 290-293. *)
Definition max_leaf_length (x : N) : method params := m_assign (set_p_max_leaf_length x).
(** lib.rs:306-309 (no assertion); s: 297-301. *)
Definition node_offset (v : variant) (x : N) : method params :=
  m_assert (match v with V2b => true | V2s => N.ltb x (N.shiftl 1 48) end) ;;
  m_assign (set_p_node_offset x).
(** lib.rs:313-316; s: 305-308. *)
Definition node_depth (x : N) : method params := m_assign (set_p_node_depth x).
(** lib.rs:320-324; s: 312-316. *)
Definition inner_hash_length (v : variant) (length : nat) : method params :=
  m_assert (Nat.leb length (outbytes v)) ;;
  m_assign (set_p_inner_hash_length (as_u8 length)).
(** lib.rs:332-339; s: 324-331. *)
Definition last_node (b : bool) : method params := m_assign (set_p_last_node b).
(** benchmarks::force_portable, lib.rs:682-684; s: 674-676. *)
Definition force_portable : method params := m_assign (set_p_imp Portable).

(** Word << k: the bits shifted out are lost (lib.rs:190-197; s: 179-189). *)
Definition shl (v : variant) (x k : N) : N := N.shiftl x k mod wmod v.

(** to_words, lib.rs:185-204; s: 174-195. *)
Definition to_words (v : variant) (p : params) : list N :=
  let w := wbytes v in
  let salt_left := from_le (firstn w (p_salt p)) in
  let salt_right := from_le (firstn w (skipn w (p_salt p))) in
  let personal_left := from_le (firstn w (p_personal p)) in
  let personal_right := from_le (firstn w (skipn w (p_personal p))) in
  let IV i := nth i (iv v) 0 in
  match v with
  | V2b =>
      [N.lxor (N.lxor (N.lxor (N.lxor (N.lxor (IV 0%nat)
         (p_hash_length p))
         (shl v (p_key_length p) 8))
         (shl v (p_fanout p) 16))
         (shl v (p_max_depth p) 24))
         (shl v (p_max_leaf_length p) 32);
       N.lxor (IV 1%nat) (p_node_offset p);
       N.lxor (N.lxor (IV 2%nat) (p_node_depth p)) (shl v (p_inner_hash_length p) 8);
       IV 3%nat;
       N.lxor (IV 4%nat) salt_left;
       N.lxor (IV 5%nat) salt_right;
       N.lxor (IV 6%nat) personal_left;
       N.lxor (IV 7%nat) personal_right]
  | V2s =>
      [N.lxor (N.lxor (N.lxor (N.lxor (IV 0%nat)
         (p_hash_length p))
         (shl v (p_key_length p) 8))
         (shl v (p_fanout p) 16))
         (shl v (p_max_depth p) 24);
       N.lxor (IV 1%nat) (p_max_leaf_length p);
       N.lxor (IV 2%nat) (p_node_offset p mod wmod v);
       N.lxor (N.lxor (N.lxor (IV 3%nat)
         (N.shiftr (p_node_offset p) 32 mod wmod v))
         (shl v (p_node_depth p) 16))
         (shl v (p_inner_hash_length p) 24);
       N.lxor (IV 4%nat) salt_left;
       N.lxor (IV 5%nat) salt_right;
       N.lxor (IV 6%nat) personal_left;
       N.lxor (IV 7%nat) personal_right]
  end.

(** ** Hash *)

(** lib.rs:581-584; s: 573-576. *)
Record hash := { h_bytes : list byte; h_len : N }.

(** state_words_to_bytes, lib.rs:529-544; s: 521-536. *)
Definition state_words_to_bytes (v : variant) (ws : list N) : list byte :=
  flat_map (fun i => to_le (wbytes v) (nth i ws 0)) (seq 0 8).

(** as_bytes, lib.rs:589-591; s: 581-583. *)
Definition as_bytes (h : hash) : outcome (list byte) := slice (h_bytes h) 0 (N.to_nat (h_len h)).

(** as_array, lib.rs:597-600; s: 589-592. *)
Definition as_array (v : variant) (e : env) (h : hash) : outcome (list byte) :=
  do _ <- debug_assert (e_dbg e) (N.eqb (h_len h) (N.of_nat (outbytes v)));
  Ret (h_bytes h).

(** From<[u8; OUTBYTES]>, lib.rs:619-632; s: 611-624. *)
Definition hash_from (v : variant) (bytes : list byte) : hash :=
  {| h_bytes := bytes; h_len := as_u8 (outbytes v) |}.

(** The crate constant_time_eq (not in /repo; called at lib.rs:637, 644): lengths differ, or the bitwise
    or of all the byte differences is zero. *)
Definition constant_time_eq (a b : list byte) : bool :=
  if Nat.eqb (length a) (length b)
  then N.eqb 0 (fold_left (fun t p => N.lor t (N.lxor (b2n (fst p)) (b2n (snd p))))
                  (combine a b) 0)
  else false.

(** PartialEq for Hash, lib.rs:635-639; s: 627-631. *)
Definition hash_eq (a b : hash) : outcome bool :=
  do x <- as_bytes a; do y <- as_bytes b; Ret (constant_time_eq x y).

(** PartialEq<[u8]>, lib.rs:642-646; s: 634-638. *)
Definition hash_eq_slice (a : hash) (b : list byte) : outcome bool :=
  do x <- as_bytes a; Ret (constant_time_eq x b).

(** bytes_to_hex, lib.rs:609-617; s: 601-609.  The ArrayString holds
    2 * OUTBYTES bytes; push panics when it is full. *)
Definition hex_table : list ascii := list_ascii_of_string "0123456789abcdef".
(** ArrayString::push, lib.rs:613-614 (the arrayvec crate is not in /repo). *)
Definition push_char (v : variant) (s : list ascii) (c : ascii) : outcome (list ascii) :=
  if Nat.ltb (length s) (2 * outbytes v) then Ret (s ++ [c]) else Panic.
(** table[..], lib.rs:613-614; s: 605-606. *)
Definition index_table (i : N) : outcome ascii :=
  match nth_error hex_table (N.to_nat i) with Some c => Ret c | None => Panic end.
(** The for loop, lib.rs:612-615; s: 604-607. *)
Fixpoint push_hex (v : variant) (s : list ascii) (bytes : list byte) : outcome (list ascii) :=
  match bytes with
  | [] => Ret s
  | b :: r =>
      do hi <- index_table (N.shiftr (b2n b) 4);
      do s <- push_char v s hi;
      do lo <- index_table (N.land (b2n b) 15);
      do s <- push_char v s lo;
      push_hex v s r
  end.
(** bytes_to_hex, lib.rs:609-617; s: 601-609. *)
Definition bytes_to_hex (v : variant) (bytes : list byte) : outcome string :=
  do s <- push_hex v [] bytes; Ret (string_of_list_ascii s).

(** to_hex, lib.rs:604-606; s: 596-598. *)
Definition to_hex (v : variant) (h : hash) : outcome string :=
  do b <- as_bytes h; bytes_to_hex v b.

(** ** State *)

(** lib.rs:389-398; s: 381-390. *)
Record state := {
  s_words : list N;
  s_count : N;
  s_buf : list byte;
  s_buflen : nat;
  s_last_node : bool;
  s_hash_length : N;
  s_imp : platform;
  s_is_keyed : bool }.

(** *words of self (lib.rs:389-398). *)
Definition set_s_words x s := {| s_words := x; s_count := s_count s; s_buf := s_buf s;
  s_buflen := s_buflen s; s_last_node := s_last_node s; s_hash_length := s_hash_length s;
  s_imp := s_imp s; s_is_keyed := s_is_keyed s |}.
(** self.count = x (lib.rs:446, 469, many.rs:252). *)
Definition set_s_count x s := {| s_words := s_words s; s_count := x; s_buf := s_buf s;
  s_buflen := s_buflen s; s_last_node := s_last_node s; s_hash_length := s_hash_length s;
  s_imp := s_imp s; s_is_keyed := s_is_keyed s |}.
(** self.buf = x (lib.rs:418, 426). *)
Definition set_s_buf x s := {| s_words := s_words s; s_count := s_count s; s_buf := x;
  s_buflen := s_buflen s; s_last_node := s_last_node s; s_hash_length := s_hash_length s;
  s_imp := s_imp s; s_is_keyed := s_is_keyed s |}.
(** self.buflen = x (lib.rs:419, 427, 447). *)
Definition set_s_buflen x s := {| s_words := s_words s; s_count := s_count s; s_buf := s_buf s;
  s_buflen := x; s_last_node := s_last_node s; s_hash_length := s_hash_length s;
  s_imp := s_imp s; s_is_keyed := s_is_keyed s |}.
(** self.last_node = x (lib.rs:507-511). *)
Definition set_s_last_node x s := {| s_words := s_words s; s_count := s_count s;
  s_buf := s_buf s; s_buflen := s_buflen s; s_last_node := x;
  s_hash_length := s_hash_length s; s_imp := s_imp s; s_is_keyed := s_is_keyed s |}.

(** with_params, lib.rs:406-422; s: 398-414. *)
Definition with_params (v : variant) (p : params) : state :=
  let is_keyed := N.ltb 0 (p_key_length p) in
  let s := {| s_words := to_words v p;
              s_count := 0;
              s_buf := zeros (blockbytes v);
              s_buflen := 0;
              s_last_node := p_last_node p;
              s_hash_length := p_hash_length p;
              s_imp := p_imp p;
              s_is_keyed := is_keyed |} in
  if is_keyed then
    let s := set_s_buf (p_key_block p) s in
    set_s_buflen (N.to_nat (as_u8 (length (s_buf s)))) s
  else s.

(** to_state, lib.rs:230-232; s: 221-223.  State::new and State::default
    (402-404, 571-575) are [to_state] of [params_new]. *)
Definition to_state := with_params.

(** fill_buf, lib.rs:424-429; s: 416-421.  Returns the state and the input
    that is left. *)
Definition fill_buf (v : variant) (e : env) (s : state) (input : list byte)
    : outcome (state * list byte) :=
  let take := Nat.min (blockbytes v - s_buflen s) (length input) in
  do head <- slice input 0 take;
  do buf <- copy_into (s_buf s) (s_buflen s) head;
  do buflen <- add_small (e_dbg e) 256 (s_buflen s) (N.to_nat (as_u8 take));
  do rest <- slice_from input take;
  Ret (set_s_buflen buflen (set_s_buf buf s), rest).

(** compress_buffer_if_possible, lib.rs:434-450; s: 426-442. *)
Definition compress_buffer_if_possible (v : variant) (e : env) (s : state) (input : list byte)
    : outcome (state * list byte) :=
  if Nat.ltb 0 (s_buflen s) then
    do '(s, input) <- fill_buf v e s input;
    match input with
    | [] => Ret (s, input)
    | _ :: _ =>
        do ws <- compress1_loop v e (s_imp s) (s_buf s) (s_words s) (s_count s)
                   (s_last_node s) false Serial;
        let s := set_s_words ws s in
        let s := set_s_count (count_wrapping_add v (s_count s) (N.of_nat (blockbytes v))) s in
        let s := set_s_buflen 0 s in
        Ret (s, input)
    end
  else Ret (s, input).

(** update, lib.rs:453-478; s: 445-470. *)
Definition update (v : variant) (e : env) (s : state) (input : list byte) : outcome state :=
  do '(s, input) <- compress_buffer_if_possible v e s input;
  let end_ := sat_sub (length input) 1 in
  let end_ := (end_ - end_ mod blockbytes v)%nat in
  do '(s, input) <-
    (if Nat.ltb 0 end_ then
       do blocks <- slice input 0 end_;
       do ws <- compress1_loop v e (s_imp s) blocks (s_words s) (s_count s)
                  (s_last_node s) false Serial;
       let s := set_s_words ws s in
       let s := set_s_count (count_wrapping_add v (s_count s) (N.of_nat end_)) s in
       do rest <- slice_from input end_;
       Ret (s, rest)
     else Ret (s, input));
  do '(s, _) <- fill_buf v e s input;
  Ret s.

(** finalize, lib.rs:482-496; s: 474-488. *)
Definition finalize (v : variant) (e : env) (s : state) : outcome hash :=
  do input <- slice (s_buf s) 0 (s_buflen s);
  do ws <- compress1_loop v e (s_imp s) input (s_words s) (s_count s) (s_last_node s) true Serial;
  Ret {| h_bytes := state_words_to_bytes v ws; h_len := s_hash_length s |}.

(** set_last_node, lib.rs:506-513; s: 498-505. *)
Definition set_last_node (b : bool) (s : state) : state := set_s_last_node b s.

(** Count subtraction: overflow panics in a debug build and wraps in a release build (lib.rs:522, s: 514). *)
Definition count_sub (v : variant) (e : env) (a b : N) : outcome N :=
  if N.leb b a then Ret (a - b)
  else if e_dbg e then Panic else Ret (a + cmod v - b).

(** count, lib.rs:519-525; s: 511-517. *)
Definition count (v : variant) (e : env) (s : state) : outcome N :=
  let ret := count_wrapping_add v (s_count s) (N.of_nat (s_buflen s)) in
  if s_is_keyed s then count_sub v e ret (N.of_nat (blockbytes v)) else Ret ret.

(** impl Write for State, lib.rs:546-556; s: 538-548: Ok(n) is [n]; write_all
    is std's default method. *)
Definition write (v : variant) (e : env) (s : state) (buf : list byte) : outcome (state * nat) :=
  do s <- update v e s buf; Ret (s, length buf).
(** flush, lib.rs:553-555; s: 545-547. *)
Definition flush (s : state) : outcome state := Ret s.

(** Params::hash, lib.rs:208-226; s: 199-217. *)
Definition params_hash (v : variant) (e : env) (p : params) (input : list byte) : outcome hash :=
  if N.ltb 0 (p_key_length p) then
    do s <- update v e (to_state v p) input;
    finalize v e s
  else
    do ws <- compress1_loop v e (p_imp p) input (to_words v p) 0 (p_last_node p) true Serial;
    Ret {| h_bytes := state_words_to_bytes v ws; h_len := p_hash_length p |}.

(** blake2b(), lib.rs:117-119; blake2s(), s: 106-108. *)
Definition blake2_default (v : variant) (e : env) (imp : platform) (input : list byte) : outcome hash :=
  params_hash v e (params_new v imp) input.

(** ** Debug output *)

Open Scope string_scope.

(** Display of an unsigned integer (core::fmt, not in /repo), used at lib.rs:348-369, 558-569. *)
Definition dec (n : N) : string := NilZero.string_of_uint (N.to_uint n).
(** Debug of a bool (core::fmt, not in /repo), used at lib.rs:366, 566. *)
Definition show_bool (b : bool) : string := if b then "true" else "false".
(** {:?} of a byte array (core::fmt, not in /repo), used at lib.rs:358-359. *)
Definition show_bytes (bs : list byte) : string :=
  "[" ++ String.concat ", " (map (fun b => dec (b2n b)) bs) ++ "]".

(** lib.rs:348-369; s: 340-361. *)
Definition params_debug (p : params) : string :=
  "Params { hash_length: " ++ dec (p_hash_length p) ++
  ", key_length: " ++ dec (p_key_length p) ++
  ", salt: " ++ show_bytes (p_salt p) ++
  ", personal: " ++ show_bytes (p_personal p) ++
  ", fanout: " ++ dec (p_fanout p) ++
  ", max_depth: " ++ dec (p_max_depth p) ++
  ", max_leaf_length: " ++ dec (p_max_leaf_length p) ++
  ", node_offset: " ++ dec (p_node_offset p) ++
  ", node_depth: " ++ dec (p_node_depth p) ++
  ", inner_hash_length: " ++ dec (p_inner_hash_length p) ++
  ", last_node: " ++ show_bool (p_last_node p) ++ " }".

(** lib.rs:558-569; s: 550-561. *)
Definition state_debug (v : variant) (e : env) (s : state) : outcome string :=
  do c <- count v e s;
  Ret ("State { count: " ++ dec c ++
       ", hash_length: " ++ dec (s_hash_length s) ++
       ", last_node: " ++ show_bool (s_last_node s) ++ " }").

(** Debug for Hash, lib.rs:656-660; s: 648-652. *)
Definition hash_debug (v : variant) (h : hash) : outcome string :=
  do x <- to_hex v h; Ret ("Hash(0x" ++ x ++ ")").
