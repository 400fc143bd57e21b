(** The public API as a machine over values a user can think of: a Params is a
    configuration, a State is a configuration with the bytes fed so far, a
    HashManyJob is a configuration with a message and a flag saying whether it
    has been run, a Hash is an array and a length.  Written from the crate
    documentation and Spec.v only; nothing here mentions the model of the code.

    A program is any list of calls; objects are named by the order of their
    creation.  Each call gives one observation. *)
From Coq Require Import String Ascii DecimalString.
From Coq Require Import Arith NArith List Bool.
From Coq Require Import Init.Byte Strings.Byte.
From Verif Require Import Spec ApiSpec.
Import ListNotations.
Open Scope N_scope.

Inductive call :=
(* Params *)
| NewParams                                  (* Params::new() *)
| CloneParams (p : nat)
| Set_ (p : nat) (s : setting)               (* params.hash_length(..), .key(..), ... *)
| ForcePortable (p : nat)                    (* benchmarks::force_portable *)
| ShowParams (p : nat)                       (* format!("{:?}", params) *)
| OneShot (m : list byte)                    (* blake2b(m) / blake2s(m) *)
| HashWith (p : nat) (m : list byte)         (* params.hash(m) *)
(* State *)
| NewState                                   (* State::new() *)
| ToState (p : nat)                          (* params.to_state() *)
| CloneState (s : nat)
| Update (s : nat) (m : list byte)
| Write (s : nat) (m : list byte)            (* io::Write::write *)
| WriteAll (s : nat) (m : list byte)         (* io::Write::write_all *)
| Flush (s : nat)
| SetLastNode (s : nat) (b : bool)
| Finalize (s : nat)
| Count (s : nat)
| ShowState (s : nat)
(* many *)
| UpdateMany (xs : list (option (nat * list byte)))  (* what the iterator's next() calls give *)
| NewJob (p : nat) (m : list byte)           (* HashManyJob::new(&params, m) *)
| CloneJob (j : nat)
| HashMany (xs : list (option nat))
| ToHash (j : nat)
| ShowJob (j : nat)
(* blake2bp / blake2sp *)
| PNewParams
| PCloneParams (p : nat)
| PSet (p : nat) (s : psetting)
| PForcePortable (p : nat)
| PShowParams (p : nat)
| POneShot (m : list byte)
| PHashWith (p : nat) (m : list byte)
| PNewState
| PToState (p : nat)
| PCloneState (s : nat)
| PUpdate (s : nat) (m : list byte)
| PWrite (s : nat) (m : list byte)
| PWriteAll (s : nat) (m : list byte)
| PFlush (s : nat)
| PFinalize (s : nat)
| PCount (s : nat)
| PShowState (s : nat)
(* Hash *)
| HashFrom (bytes : list byte)               (* Hash::from([u8; OUTBYTES]) *)
| AsBytes (h : nat)
| AsArray (h : nat)
| ToHex (h : nat)
| ShowHash (h : nat)
| EqHash (h h' : nat)                        (* h == h' *)
| EqSlice (h : nat) (bytes : list byte).     (* h == bytes *)

Inductive obs :=
| Unit
| Panicked
| Bytes (b : list byte)
| Text (s : string)
| Number (n : N)
| Flag (b : bool)
| Wrote (n : nat)             (* Ok(n) *)
| Pulled (n : nat)            (* returned, having called next() n times *)
| Broken                      (* undefined behaviour or no termination *)
| Inexpressible.              (* no such object, or two mutable borrows of one *)

(** ** Abstract objects *)
Definition astate : Type := config * list byte.
Record ajob := { aj_config : config; aj_msg : list byte; aj_run : bool }.
Definition apstate : Type := pconfig * list byte.
Record ahash := { ah_array : list byte; ah_len : nat }.

Record aworld := {
  a_params : list config; a_states : list astate; a_jobs : list ajob;
  a_pparams : list pconfig; a_pstates : list apstate; a_hashes : list ahash }.

Definition empty_aworld : aworld :=
  {| a_params := []; a_states := []; a_jobs := []; a_pparams := []; a_pstates := []; a_hashes := [] |}.

Definition with_a_params x w := {| a_params := x; a_states := a_states w; a_jobs := a_jobs w;
  a_pparams := a_pparams w; a_pstates := a_pstates w; a_hashes := a_hashes w |}.
Definition with_a_states x w := {| a_params := a_params w; a_states := x; a_jobs := a_jobs w;
  a_pparams := a_pparams w; a_pstates := a_pstates w; a_hashes := a_hashes w |}.
Definition with_a_jobs x w := {| a_params := a_params w; a_states := a_states w; a_jobs := x;
  a_pparams := a_pparams w; a_pstates := a_pstates w; a_hashes := a_hashes w |}.
Definition with_a_pparams x w := {| a_params := a_params w; a_states := a_states w; a_jobs := a_jobs w;
  a_pparams := x; a_pstates := a_pstates w; a_hashes := a_hashes w |}.
Definition with_a_pstates x w := {| a_params := a_params w; a_states := a_states w; a_jobs := a_jobs w;
  a_pparams := a_pparams w; a_pstates := x; a_hashes := a_hashes w |}.
Definition with_a_hashes x w := {| a_params := a_params w; a_states := a_states w; a_jobs := a_jobs w;
  a_pparams := a_pparams w; a_pstates := a_pstates w; a_hashes := x |}.

Definition replace {A} (l : list A) (i : nat) (x : A) : list A := firstn i l ++ x :: skipn (S i) l.

(** ** Values *)

(** The full-length output and the configured length. *)
Definition hash_of (f : flavour) (c : config) (msg : list byte) : ahash :=
  {| ah_array := words_to_bytes f
       (hash_words f (initial_state f (c_params c)) (data f (c_key c) msg) (c_last_node c));
     ah_len := N.to_nat (digest_length (c_params c)) |}.

Definition phash_of (f : flavour) (c : pconfig) (msg : list byte) : ahash :=
  {| ah_array := words_to_bytes f
       (hash_words f (initial_state f (tree_node f (pc_hash_length c) (length (pc_key c)) 0 1))
          (flat_map (leaf_hash f (pc_hash_length c) (pc_key c) msg) (seq 0 (leaves f))) true);
     ah_len := pc_hash_length c |}.

(** What to_hash gives in a release build for a job that has not been run: the
    chaining value before its message. *)
Definition premature (f : flavour) (c : config) : ahash :=
  {| ah_array := words_to_bytes f
       (match c_key c with
        | [] => initial_state f (c_params c)
        | k => F f (initial_state f (c_params c)) (pad_to (block_len f) k) (N.of_nat (block_len f)) false false
        end);
     ah_len := N.to_nat (digest_length (c_params c)) |}.

Definition visible (h : ahash) : list byte := firstn (ah_len h) (ah_array h).

(** The byte counter has two words. *)
Definition counter_range (f : flavour) : N := 2 ^ (2 * bits f).

(** Bytes fed; the key bytes that were counted internally are subtracted, which a debug
    build refuses to do when the internal counter has wrapped below them. *)
Definition count_of (f : flavour) (dbg : bool) (key_bytes : nat) (msg : list byte) : option N :=
  if dbg && N.ltb (N.of_nat (key_bytes + length msg) mod counter_range f) (N.of_nat key_bytes)
  then None else Some (N.of_nat (length msg) mod counter_range f).

Definition key_block_len (f : flavour) (key : list byte) : nat :=
  match key with [] => 0 | _ => block_len f end.

(** ** Texts *)
Definition decimal (n : N) : string := NilZero.string_of_uint (N.to_uint n).
Definition yes_no (b : bool) : string := if b then "true" else "false".
Definition byte_list (bs : list byte) : string :=
  ("[" ++ String.concat ", " (map (fun b => decimal (Byte.to_N b)) bs) ++ "]")%string.
Definition hex_digit (n : N) : string := String (ascii_of_N (if N.ltb n 10 then 48 + n else 87 + n)) EmptyString.
Definition hex (bs : list byte) : string :=
  String.concat "" (map (fun b => (hex_digit (Byte.to_N b / 16) ++ hex_digit (Byte.to_N b mod 16))%string) bs).

(** The parameter block's fields without the key, and the last-node flag. *)
Definition show_params (f : flavour) (p : params) (last_node : bool) : string :=
  ("Params { hash_length: " ++ decimal (digest_length p) ++
   ", key_length: " ++ decimal (key_length p) ++
   ", salt: " ++ byte_list (pad_to (salt_len f) (salt p)) ++
   ", personal: " ++ byte_list (pad_to (salt_len f) (personal p)) ++
   ", fanout: " ++ decimal (fanout p) ++
   ", max_depth: " ++ decimal (depth p) ++
   ", max_leaf_length: " ++ decimal (leaf_length p) ++
   ", node_offset: " ++ decimal (node_offset p) ++
   ", node_depth: " ++ decimal (node_depth p) ++
   ", inner_hash_length: " ++ decimal (inner_length p) ++
   ", last_node: " ++ yes_no last_node ++ " }")%string.
Definition show_state (count hash_length : N) (last_node : bool) : string :=
  ("State { count: " ++ decimal count ++ ", hash_length: " ++ decimal hash_length ++
   ", last_node: " ++ yes_no last_node ++ " }")%string.
Definition show_job (count hash_length : N) (last_node : bool) (input_len : nat) : string :=
  ("HashManyJob { count: " ++ decimal count ++ ", hash_length: " ++ decimal hash_length ++
   ", last_node: " ++ yes_no last_node ++ ", input_len: " ++ decimal (N.of_nat input_len) ++ " }")%string.
Definition show_pparams (hash_length key_length : nat) : string :=
  ("Params { hash_length: " ++ decimal (N.of_nat hash_length) ++
   ", key_length: " ++ decimal (N.of_nat key_length) ++ " }")%string.
Definition show_pstate (count : N) (hash_length : nat) : string :=
  ("State { count: " ++ decimal count ++ ", hash_length: " ++ decimal (N.of_nat hash_length) ++ " }")%string.

(** ** Batches *)

(** The items an iterator yields before its first None. *)
Fixpoint until_none {A} (xs : list (option A)) : list A :=
  match xs with Some x :: r => x :: until_none r | _ => [] end.

Fixpoint no_repeats (l : list nat) : bool :=
  match l with [] => true | x :: r => negb (existsb (Nat.eqb x) r) && no_repeats r end.

(** A batch of updates is a sequence of updates. *)
Definition feed (states : list astate) (x : nat * list byte) : list astate :=
  match nth_error states (fst x) with
  | Some (c, msg) => replace states (fst x) (c, msg ++ snd x)
  | None => states
  end.
Definition run_job (jobs : list ajob) (r : nat) : list ajob :=
  match nth_error jobs r with
  | Some j => replace jobs r {| aj_config := aj_config j; aj_msg := aj_msg j; aj_run := true |}
  | None => jobs
  end.

(** ** One call *)
Section Step.
Variables (f : flavour) (dbg : bool).

Definition new_hash (w : aworld) (h : ahash) : aworld * obs := (with_a_hashes (a_hashes w ++ [h]) w, Unit).

Definition with_obj {A} (w : aworld) (l : list A) (i : nat) (k : A -> aworld * obs) : aworld * obs :=
  match nth_error l i with Some x => k x | None => (w, Inexpressible) end.

Definition report (w : aworld) (o : option N) (k : N -> obs) : aworld * obs :=
  (w, match o with Some n => k n | None => Panicked end).

Definition astep (w : aworld) (c : call) : aworld * obs :=
  match c with
  | NewParams => (with_a_params (a_params w ++ [default_config f]) w, Unit)
  | CloneParams p => with_obj w (a_params w) p (fun c => (with_a_params (a_params w ++ [c]) w, Unit))
  | Set_ p s => with_obj w (a_params w) p (fun c =>
      if legal f s then (with_a_params (replace (a_params w) p (apply s c)) w, Unit) else (w, Panicked))
  | ForcePortable p => with_obj w (a_params w) p (fun _ => (w, Unit))
  | ShowParams p => with_obj w (a_params w) p (fun c => (w, Text (show_params f (c_params c) (c_last_node c))))
  | OneShot m => new_hash w (hash_of f (default_config f) m)
  | HashWith p m => with_obj w (a_params w) p (fun c => new_hash w (hash_of f c m))
  | NewState => (with_a_states (a_states w ++ [(default_config f, [])]) w, Unit)
  | ToState p => with_obj w (a_params w) p (fun c => (with_a_states (a_states w ++ [(c, [])]) w, Unit))
  | CloneState s => with_obj w (a_states w) s (fun x => (with_a_states (a_states w ++ [x]) w, Unit))
  | Update s m => with_obj w (a_states w) s (fun '(c, msg) =>
      (with_a_states (replace (a_states w) s (c, msg ++ m)) w, Unit))
  | Write s m => with_obj w (a_states w) s (fun '(c, msg) =>
      (with_a_states (replace (a_states w) s (c, msg ++ m)) w, Wrote (length m)))
  | WriteAll s m => with_obj w (a_states w) s (fun '(c, msg) =>
      (with_a_states (replace (a_states w) s (c, msg ++ m)) w, Unit))
  | Flush s => with_obj w (a_states w) s (fun _ => (w, Unit))
  | SetLastNode s b => with_obj w (a_states w) s (fun '(c, msg) =>
      (with_a_states (replace (a_states w) s (apply (LastNode b) c, msg)) w, Unit))
  | Finalize s => with_obj w (a_states w) s (fun '(c, msg) => new_hash w (hash_of f c msg))
  | Count s => with_obj w (a_states w) s (fun '(c, msg) =>
      report w (count_of f dbg (key_block_len f (c_key c)) msg) Number)
  | ShowState s => with_obj w (a_states w) s (fun '(c, msg) =>
      report w (count_of f dbg (key_block_len f (c_key c)) msg)
        (fun n => Text (show_state n (digest_length (c_params c)) (c_last_node c))))
  | UpdateMany xs =>
      let items := until_none xs in
      if no_repeats (map fst items) && forallb (fun x => Nat.ltb (fst x) (length (a_states w))) items
      then (with_a_states (fold_left feed items (a_states w)) w, Pulled (S (length items)))
      else (w, Inexpressible)
  | NewJob p m => with_obj w (a_params w) p (fun c =>
      (with_a_jobs (a_jobs w ++ [{| aj_config := c; aj_msg := m;
         aj_run := match c_key c, m with _ :: _, [] => true | _, _ => false end |}]) w, Unit))
  | CloneJob j => with_obj w (a_jobs w) j (fun x => (with_a_jobs (a_jobs w ++ [x]) w, Unit))
  | HashMany xs =>
      let items := until_none xs in
      if no_repeats items && forallb (fun r => Nat.ltb r (length (a_jobs w))) items
      then (with_a_jobs (fold_left run_job items (a_jobs w)) w, Pulled (S (length items)))
      else (w, Inexpressible)
  | ToHash j => with_obj w (a_jobs w) j (fun x =>
      if aj_run x then new_hash w (hash_of f (aj_config x) (aj_msg x))
      else if dbg then (w, Panicked) else new_hash w (premature f (aj_config x)))
  | ShowJob j => with_obj w (a_jobs w) j (fun x =>
      let c := aj_config x in
      (w, Text (show_job (N.of_nat (key_block_len f (c_key c))) (digest_length (c_params c))
                  (c_last_node c) (length (aj_msg x)))))
  | PNewParams => (with_a_pparams (a_pparams w ++ [pdefault_config f]) w, Unit)
  | PCloneParams p => with_obj w (a_pparams w) p (fun c => (with_a_pparams (a_pparams w ++ [c]) w, Unit))
  | PSet p s => with_obj w (a_pparams w) p (fun c =>
      if plegal f s then (with_a_pparams (replace (a_pparams w) p (papply s c)) w, Unit) else (w, Panicked))
  | PForcePortable p => with_obj w (a_pparams w) p (fun _ => (w, Unit))
  | PShowParams p => with_obj w (a_pparams w) p (fun c =>
      (w, Text (show_pparams (pc_hash_length c) (length (pc_key c)))))
  | POneShot m => new_hash w (phash_of f (pdefault_config f) m)
  | PHashWith p m => with_obj w (a_pparams w) p (fun c => new_hash w (phash_of f c m))
  | PNewState => (with_a_pstates (a_pstates w ++ [(pdefault_config f, [])]) w, Unit)
  | PToState p => with_obj w (a_pparams w) p (fun c => (with_a_pstates (a_pstates w ++ [(c, [])]) w, Unit))
  | PCloneState s => with_obj w (a_pstates w) s (fun x => (with_a_pstates (a_pstates w ++ [x]) w, Unit))
  | PUpdate s m => with_obj w (a_pstates w) s (fun '(c, msg) =>
      (with_a_pstates (replace (a_pstates w) s (c, msg ++ m)) w, Unit))
  | PWrite s m => with_obj w (a_pstates w) s (fun '(c, msg) =>
      (with_a_pstates (replace (a_pstates w) s (c, msg ++ m)) w, Wrote (length m)))
  | PWriteAll s m => with_obj w (a_pstates w) s (fun '(c, msg) =>
      (with_a_pstates (replace (a_pstates w) s (c, msg ++ m)) w, Unit))
  | PFlush s => with_obj w (a_pstates w) s (fun _ => (w, Unit))
  | PFinalize s => with_obj w (a_pstates w) s (fun '(c, msg) => new_hash w (phash_of f c msg))
  | PCount s => with_obj w (a_pstates w) s (fun '(c, msg) =>
      report w (count_of f dbg (leaves f * key_block_len f (pc_key c)) msg) Number)
  | PShowState s => with_obj w (a_pstates w) s (fun '(c, msg) =>
      report w (count_of f dbg (leaves f * key_block_len f (pc_key c)) msg)
        (fun n => Text (show_pstate n (pc_hash_length c))))
  | HashFrom b => new_hash w {| ah_array := b; ah_len := max_out f |}
  | AsBytes h => with_obj w (a_hashes w) h (fun x => (w, Bytes (visible x)))
  | AsArray h => with_obj w (a_hashes w) h (fun x =>
      if dbg && negb (Nat.eqb (ah_len x) (max_out f)) then (w, Panicked) else (w, Bytes (ah_array x)))
  | ToHex h => with_obj w (a_hashes w) h (fun x => (w, Text (hex (visible x))))
  | ShowHash h => with_obj w (a_hashes w) h (fun x => (w, Text ("Hash(0x" ++ hex (visible x) ++ ")")))
  | EqHash h h' => with_obj w (a_hashes w) h (fun x => with_obj w (a_hashes w) h' (fun y =>
      (w, Flag (if list_eq_dec Byte.byte_eq_dec (visible x) (visible y) then true else false))))
  | EqSlice h b => with_obj w (a_hashes w) h (fun x =>
      (w, Flag (if list_eq_dec Byte.byte_eq_dec (visible x) b then true else false)))
  end.

Fixpoint arun (w : aworld) (prog : list call) : list obs :=
  match prog with
  | [] => []
  | c :: r => let '(w', o) := astep w c in o :: arun w' r
  end.

(** What Rust's type checker ensures about the arguments of a call. *)
Definition well_typed (c : call) : Prop :=
  match c with
  | Set_ _ s => typed s
  | HashFrom b => length b = max_out f
  | _ => True
  end.

End Step.

(** The observations of a whole program. *)
Definition behaviour (f : flavour) (dbg : bool) (prog : list call) : list obs :=
  arun f dbg empty_aworld prog.
