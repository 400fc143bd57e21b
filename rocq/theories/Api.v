(** The modelled crate driven by arbitrary programs over its public API: a
    store of objects, each call executed by the model of the function that the
    call names.  (The call and observation types are the ones of Machine.v; the
    execution is entirely the model's.)

    Simplification: an observation of UB or Diverge ends in [Broken]; the store
    is then left as it was.  A panic unwinds out of the call, the objects keep
    the state they had when it unwound: setters report it (see [method]); the
    other calls that can panic (count, to_hash, as_array, and Debug of State) take &self. *)
From Coq Require Import String.
From Coq Require Import Arith NArith List Bool.
From Verif Require Import Base Guts Simd Impl Sched Lib Many Par.
From Verif Require Import Spec ApiSpec Machine.
Import ListNotations.
Open Scope N_scope.

(** The objects a program holds (types of blake2b/src/lib.rs:146-160, 389-398, 581-584, many.rs:273-281,
    blake2bp.rs:70-75, 218-230); a modelling device. *)
Record world := {
  w_params : list Lib.params; w_states : list state; w_jobs : list hash_many_job;
  w_pparams : list pparams; w_pstates : list pstate; w_hashes : list hash }.

(** A program that has called nothing yet; a modelling device for the types of blake2b/src/lib.rs:146-584. *)
Definition empty_world : world :=
  {| w_params := []; w_states := []; w_jobs := []; w_pparams := []; w_pstates := []; w_hashes := [] |}.

(** Update of the store's params; a modelling device (see [world], blake2b/src/lib.rs:146-584). *)
Definition with_w_params x w := {| w_params := x; w_states := w_states w; w_jobs := w_jobs w;
  w_pparams := w_pparams w; w_pstates := w_pstates w; w_hashes := w_hashes w |}.
(** Update of the store's states; a modelling device (see [world], blake2b/src/lib.rs:146-584). *)
Definition with_w_states x w := {| w_params := w_params w; w_states := x; w_jobs := w_jobs w;
  w_pparams := w_pparams w; w_pstates := w_pstates w; w_hashes := w_hashes w |}.
(** Update of the store's jobs; a modelling device (see [world], blake2b/src/lib.rs:146-584). *)
Definition with_w_jobs x w := {| w_params := w_params w; w_states := w_states w; w_jobs := x;
  w_pparams := w_pparams w; w_pstates := w_pstates w; w_hashes := w_hashes w |}.
(** Update of the store's pparams; a modelling device (see [world], blake2b/src/lib.rs:146-584). *)
Definition with_w_pparams x w := {| w_params := w_params w; w_states := w_states w; w_jobs := w_jobs w;
  w_pparams := x; w_pstates := w_pstates w; w_hashes := w_hashes w |}.
(** Update of the store's pstates; a modelling device (see [world], blake2b/src/lib.rs:146-584). *)
Definition with_w_pstates x w := {| w_params := w_params w; w_states := w_states w; w_jobs := w_jobs w;
  w_pparams := w_pparams w; w_pstates := x; w_hashes := w_hashes w |}.
(** Update of the store's hashes; a modelling device (see [world], blake2b/src/lib.rs:146-584). *)
Definition with_w_hashes x w := {| w_params := w_params w; w_states := w_states w; w_jobs := w_jobs w;
  w_pparams := w_pparams w; w_pstates := w_pstates w; w_hashes := x |}.

(** Running a call of lib.rs, many.rs or blake2bp.rs on [w] (see [step] for the lines): its observation, or
    the way it failed. *)
Definition finish {A} (w : world) (o : outcome A) (k : A -> world * obs) : world * obs :=
  match o with
  | Ret a => k a
  | Panic => (w, Panicked)
  | UB | Diverge => (w, Broken)
  end.

(** The receiver of a call (&self or &mut self, e.g. blake2b/src/lib.rs:208, 453). *)
Definition on_obj {A} (w : world) (l : list A) (i : nat) (k : A -> world * obs) : world * obs :=
  match nth_error l i with Some x => k x | None => (w, Inexpressible) end.

(** A [&mut self] builder method, lib.rs:238-339, blake2bp.rs:161-179. *)
Definition run_method {P} (m : method P) (p : P) (upd : P -> world) : world * obs :=
  let '(p', o) := m p in
  (upd p', match o with Ret _ => Unit | Panic => Panicked | _ => Broken end).

(** Which setter a setting calls: lib.rs:238-339. *)
Definition call_setter (v : variant) (s : setting) : method Lib.params :=
  match s with
  | HashLength n => Lib.hash_length v n
  | Key k => Lib.key v k
  | Salt s => Lib.salt v s
  | Personal s => Lib.personal v s
  | Fanout x => Lib.fanout x
  | MaxDepth x => Lib.max_depth x
  | MaxLeafLength x => Lib.max_leaf_length x
  | NodeOffset x => Lib.node_offset v x
  | NodeDepth x => Lib.node_depth x
  | InnerHashLength n => Lib.inner_hash_length v n
  | LastNode b => Lib.last_node b
  end.
(** Which setter a setting calls: blake2bp.rs:161-179. *)
Definition call_psetter (v : variant) (s : psetting) : method pparams :=
  match s with
  | PHashLength n => p_set_hash_length v n
  | PKey k => p_set_key v k
  end.

(** std::io::Write::write_all (not in /repo), the default method that the impls
    at lib.rs:546-556 and blake2bp.rs:415-424 inherit: write the rest until nothing is
    left; Ok(0) is an error (which the caller would see; [Panic] stands for it). *)
Fixpoint write_all_loop {S} (wr : S -> list byte -> outcome (S * nat)) (fuel : nat) (s : S) (buf : list byte)
    : outcome S :=
  match buf with
  | [] => Ret s
  | _ :: _ =>
      match fuel with
      | O => Diverge
      | S fuel' =>
          do '(s, n) <- wr s buf;
          if Nat.eqb n 0 then Panic
          else do rest <- slice_from buf n; write_all_loop wr fuel' s rest
      end
  end.
(** As [write_all_loop] (std, not in /repo; impls at lib.rs:546-556 and blake2bp.rs:415-424). *)
Definition write_all {S} (wr : S -> list byte -> outcome (S * nat)) (s : S) (buf : list byte) : outcome S :=
  write_all_loop wr (length buf) s buf.

(** Params::new() (lib.rs:165-182) followed by setters (238-339); one that panics is caught and the
    next one called. *)
Definition build (v : variant) (imp : platform) (ss : list setting) : Lib.params :=
  fold_left (fun p s => fst (call_setter v s p)) ss (params_new v imp).
(** As [build], blake2bp.rs:79-86 and 161-179. *)
Definition pbuild (v : variant) (imp : platform) (ss : list psetting) : pparams :=
  fold_left (fun p s => fst (call_psetter v s p)) ss (pparams_new v imp).

(** Successive updates, lib.rs:453-478. *)
Fixpoint update_all (v : variant) (e : env) (s : state) (chunks : list (list byte)) : outcome state :=
  match chunks with
  | [] => Ret s
  | x :: r => do s <- update v e s x; update_all v e s r
  end.
(** Successive updates, blake2bp.rs:301-361. *)
Fixpoint p_update_all (v : variant) (e : env) (s : pstate) (chunks : list (list byte)) : outcome pstate :=
  match chunks with
  | [] => Ret s
  | x :: r => do s <- p_update v e s x; p_update_all v e s r
  end.

(** The borrow checker's view of a batch (the &mut of many.rs:213-218, 386-390): all objects exist and
    are distinct. *)
Definition borrowable (n : nat) (refs : list nat) : bool :=
  no_repeats refs && forallb (fun r => Nat.ltb r n) refs.

Section Step.
Variables (v : variant) (e : env) (imp : platform).

(** A call that returns a Hash (lib.rs:208, 482; blake2bp.rs:123, 365). *)
Definition push_hash (w : world) (h : hash) : world * obs := (with_w_hashes (w_hashes w ++ [h]) w, Unit).
(** The state after a &mut self call (lib.rs:453, 506). *)
Definition put_state (w : world) (i : nat) (s : state) : world := with_w_states (set (w_states w) i s) w.
(** The state after a &mut self call (blake2bp.rs:301). *)
Definition put_pstate (w : world) (i : nat) (s : pstate) : world := with_w_pstates (set (w_pstates w) i s) w.

(** One call of the public API.  The functions called: lib.rs:113-660, many.rs:91-419,
    blake2bp.rs:52-480 (s: the same functions of blake2s). *)
Definition step (w : world) (c : call) : world * obs :=
  match c with
  | NewParams => (with_w_params (w_params w ++ [params_new v imp]) w, Unit)
  | CloneParams p => on_obj w (w_params w) p (fun x => (with_w_params (w_params w ++ [x]) w, Unit))
  | Set_ p s => on_obj w (w_params w) p (fun x =>
      run_method (call_setter v s) x (fun x' => with_w_params (set (w_params w) p x') w))
  | ForcePortable p => on_obj w (w_params w) p (fun x =>
      run_method force_portable x (fun x' => with_w_params (set (w_params w) p x') w))
  | ShowParams p => on_obj w (w_params w) p (fun x => (w, Text (params_debug x)))
  | OneShot m => finish w (blake2_default v e imp m) (push_hash w)
  | HashWith p m => on_obj w (w_params w) p (fun x => finish w (params_hash v e x m) (push_hash w))
  | NewState => (with_w_states (w_states w ++ [to_state v (params_new v imp)]) w, Unit)
  | ToState p => on_obj w (w_params w) p (fun x => (with_w_states (w_states w ++ [to_state v x]) w, Unit))
  | CloneState s => on_obj w (w_states w) s (fun x => (with_w_states (w_states w ++ [x]) w, Unit))
  | Update s m => on_obj w (w_states w) s (fun x =>
      finish w (update v e x m) (fun x' => (put_state w s x', Unit)))
  | Write s m => on_obj w (w_states w) s (fun x =>
      finish w (write v e x m) (fun '(x', n) => (put_state w s x', Wrote n)))
  | WriteAll s m => on_obj w (w_states w) s (fun x =>
      finish w (write_all (write v e) x m) (fun x' => (put_state w s x', Unit)))
  | Flush s => on_obj w (w_states w) s (fun x =>
      finish w (flush x) (fun x' => (put_state w s x', Unit)))
  | SetLastNode s b => on_obj w (w_states w) s (fun x => (put_state w s (set_last_node b x), Unit))
  | Finalize s => on_obj w (w_states w) s (fun x => finish w (finalize v e x) (push_hash w))
  | Count s => on_obj w (w_states w) s (fun x => finish w (count v e x) (fun n => (w, Number n)))
  | ShowState s => on_obj w (w_states w) s (fun x => finish w (state_debug v e x) (fun t => (w, Text t)))
  | UpdateMany xs =>
      if borrowable (length (w_states w)) (map fst (until_none xs))
      then finish w (update_many v e (w_states w) xs) (fun '(ss, n) => (with_w_states ss w, Pulled n))
      else (w, Inexpressible)
  | NewJob p m => on_obj w (w_params w) p (fun x =>
      finish w (hash_many_job_new v e x m) (fun j => (with_w_jobs (w_jobs w ++ [j]) w, Unit)))
  | CloneJob j => on_obj w (w_jobs w) j (fun x => (with_w_jobs (w_jobs w ++ [x]) w, Unit))
  | HashMany xs =>
      if borrowable (length (w_jobs w)) (until_none xs)
      then finish w (hash_many v e (w_jobs w) (map (option_map (fun r => (r, tt))) xs))
             (fun '(js, n) => (with_w_jobs js w, Pulled n))
      else (w, Inexpressible)
  | ToHash j => on_obj w (w_jobs w) j (fun x => finish w (to_hash v e x) (push_hash w))
  | ShowJob j => on_obj w (w_jobs w) j (fun x => (w, Text (hash_many_job_debug x)))
  | PNewParams => (with_w_pparams (w_pparams w ++ [pparams_new v imp]) w, Unit)
  | PCloneParams p => on_obj w (w_pparams w) p (fun x => (with_w_pparams (w_pparams w ++ [x]) w, Unit))
  | PSet p s => on_obj w (w_pparams w) p (fun x =>
      run_method (call_psetter v s) x (fun x' => with_w_pparams (set (w_pparams w) p x') w))
  | PForcePortable p => on_obj w (w_pparams w) p (fun x =>
      run_method p_force_portable x (fun x' => with_w_pparams (set (w_pparams w) p x') w))
  | PShowParams p => on_obj w (w_pparams w) p (fun x => (w, Text (pparams_debug x)))
  | POneShot m => finish w (blake2p_default v e imp m) (push_hash w)
  | PHashWith p m => on_obj w (w_pparams w) p (fun x => finish w (p_hash v e x m) (push_hash w))
  | PNewState => finish w (p_to_state v (pparams_new v imp)) (fun s => (with_w_pstates (w_pstates w ++ [s]) w, Unit))
  | PToState p => on_obj w (w_pparams w) p (fun x =>
      finish w (p_to_state v x) (fun s => (with_w_pstates (w_pstates w ++ [s]) w, Unit)))
  | PCloneState s => on_obj w (w_pstates w) s (fun x => (with_w_pstates (w_pstates w ++ [x]) w, Unit))
  | PUpdate s m => on_obj w (w_pstates w) s (fun x =>
      finish w (p_update v e x m) (fun x' => (put_pstate w s x', Unit)))
  | PWrite s m => on_obj w (w_pstates w) s (fun x =>
      finish w (p_write v e x m) (fun '(x', n) => (put_pstate w s x', Wrote n)))
  | PWriteAll s m => on_obj w (w_pstates w) s (fun x =>
      finish w (write_all (p_write v e) x m) (fun x' => (put_pstate w s x', Unit)))
  | PFlush s => on_obj w (w_pstates w) s (fun x => (put_pstate w s x, Unit))
  | PFinalize s => on_obj w (w_pstates w) s (fun x => finish w (p_finalize v e x) (push_hash w))
  | PCount s => on_obj w (w_pstates w) s (fun x => finish w (p_count v e x) (fun n => (w, Number n)))
  | PShowState s => on_obj w (w_pstates w) s (fun x => finish w (pstate_debug v e x) (fun t => (w, Text t)))
  | HashFrom b => push_hash w (hash_from v b)
  | AsBytes h => on_obj w (w_hashes w) h (fun x => finish w (as_bytes x) (fun b => (w, Bytes b)))
  | AsArray h => on_obj w (w_hashes w) h (fun x => finish w (as_array v e x) (fun b => (w, Bytes b)))
  | ToHex h => on_obj w (w_hashes w) h (fun x => finish w (to_hex v x) (fun t => (w, Text t)))
  | ShowHash h => on_obj w (w_hashes w) h (fun x => finish w (hash_debug v x) (fun t => (w, Text t)))
  | EqHash h h' => on_obj w (w_hashes w) h (fun x => on_obj w (w_hashes w) h' (fun y =>
      finish w (hash_eq x y) (fun b => (w, Flag b))))
  | EqSlice h b => on_obj w (w_hashes w) h (fun x => finish w (hash_eq_slice x b) (fun r => (w, Flag r)))
  end.

(** A program: calls of the functions listed at [step] in sequence (lib.rs:113-660). *)
Fixpoint run_from (w : world) (prog : list call) : list obs :=
  match prog with
  | [] => []
  | c :: r => let '(w', o) := step w c in o :: run_from w' r
  end.
End Step.

(** What is assumed about the machine: is_x86_feature_detected! tells the
    truth, a binary built for some features only runs on CPUs that have them,
    and a CPU with AVX2 has SSE4.1 (guts.rs:28-88). *)
Record honest (t : target) (e : env) : Prop := {
  honest_cpu_sse41 : t_cpu_sse41 t = true -> e_sse41 e = true;
  honest_cpu_avx2 : t_cpu_avx2 t = true -> e_avx2 e = true;
  honest_tf_sse41 : t_tf_sse41 t = true -> e_sse41 e = true;
  honest_tf_avx2 : t_tf_avx2 t = true -> e_avx2 e = true;
  honest_avx2_sse41 : e_avx2 e = true -> e_sse41 e = true }.

(** A whole program on a target: Params::new() (lib.rs:165-182) detects the back end (guts.rs:28-44). *)
Definition run_program (v : variant) (t : target) (e : env) (prog : list call) : list obs :=
  run_from v e (detect t) empty_world prog.
