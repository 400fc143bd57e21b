(** Model of guts::Implementation (blake2b/src/guts.rs:4-135, blake2s/src/guts.rs:4-133):
    back-end detection and dispatch. *)
From Coq Require Import Arith NArith List Bool.
From Verif Require Import Base Guts Portable Avx2b Sse41s Simd.
Import ListNotations.
Open Scope N_scope.

(** guts.rs:16-22. *)
Inductive platform := Portable | SSE41 | AVX2.

(** How the crate was built and what the CPU reports.  [t_x86] is
    cfg(any(target_arch = "x86", target_arch = "x86_64")); [t_tf_*] are
    cfg(target_feature = ...); [t_std] is cfg(feature = "std"); [t_cpu_*] is
    what is_x86_feature_detected! returns (guts.rs:28-88). *)
Record target := {
  t_x86 : bool;
  t_tf_sse41 : bool;
  t_tf_avx2 : bool;
  t_std : bool;
  t_cpu_sse41 : bool;
  t_cpu_avx2 : bool }.

(** guts.rs:50-66. *)
Definition sse41_if_supported (t : target) : option platform :=
  if t_tf_sse41 t then Some SSE41
  else if t_std t && t_cpu_sse41 t then Some SSE41
  else None.

(** guts.rs:68-84. *)
Definition avx2_if_supported (t : target) : option platform :=
  if t_tf_avx2 t then Some AVX2
  else if t_std t && t_cpu_avx2 t then Some AVX2
  else None.

(** guts.rs:28-44. *)
Definition detect (t : target) : platform :=
  if t_x86 t then
    match avx2_if_supported t with
    | Some i => i
    | None => match sse41_if_supported t with
              | Some i => i
              | None => Portable
              end
    end
  else Portable.

(** guts.rs:86-94 with avx2::DEGREE and sse41::DEGREE. *)
Definition degree (v : variant) (imp : platform) : nat :=
  match imp, v with
  | AVX2, V2b => s_degree avx2b
  | AVX2, V2s => s_degree avx2s
  | SSE41, V2b => s_degree sse41b
  | SSE41, V2s => s_degree sse41s
  | Portable, _ => 1
  end.

(** guts.rs:5-9. *)
Definition max_degree (v : variant) (x86 : bool) : nat :=
  if x86 then match v with V2b => 4 | V2s => 8 end else 1.

(** What the code runs on: [e_dbg] says whether debug assertions and overflow
    checks are compiled in; the other two say whether the executing CPU has
    SSE4.1 and AVX2 (guts.rs:28-88; debug_assert! in guts.rs, lib.rs, many.rs). *)
Record env := { e_dbg : bool; e_sse41 : bool; e_avx2 : bool }.

(** Calling a #[target_feature(enable = ...)] function on a CPU without that
    feature is undefined behaviour (the unsafe blocks of guts.rs:105-133; s: 105-131). *)
Definition target_feature {A} (available : bool) (x : outcome A) : outcome A :=
  if available then x else UB.

(** guts.rs:96-116; s: 96-114. *)
Definition compress1_loop (v : variant) (e : env) (imp : platform) (input : list byte)
    (words : list N) (count : N) (last_node finalize : bool) (st : stride)
    : outcome (list N) :=
  match v, imp with
  | V2b, AVX2 =>
      target_feature (e_avx2 e)
        (avx2_compress1_loop (e_dbg e) input words count last_node finalize st)
  | V2b, _ => portable_compress1_loop V2b (e_dbg e) input words count last_node finalize st
  | V2s, AVX2 | V2s, SSE41 =>
      target_feature (e_sse41 e)
        (sse41_compress1_loop (e_dbg e) input words count last_node finalize st)
  | V2s, Portable => portable_compress1_loop V2s (e_dbg e) input words count last_node finalize st
  end.

(** compress2_loop, guts.rs:118-126; s: compress4_loop, 116-124. *)
Definition compress_narrow_loop (v : variant) (e : env) (imp : platform) (jobs : list job)
    (finalize : bool) (st : stride) : outcome (list job) :=
  match imp with
  | AVX2 | SSE41 =>
      target_feature (e_sse41 e)
        (compressn_loop (match v with V2b => sse41b | V2s => sse41s end) (e_dbg e) jobs finalize st)
  | Portable => Panic
  end.

(** compress4_loop, guts.rs:128-134; s: compress8_loop, 126-132. *)
Definition compress_wide_loop (v : variant) (e : env) (imp : platform) (jobs : list job)
    (finalize : bool) (st : stride) : outcome (list job) :=
  match imp with
  | AVX2 =>
      target_feature (e_avx2 e)
        (compressn_loop (match v with V2b => avx2b | V2s => avx2s end) (e_dbg e) jobs finalize st)
  | _ => Panic
  end.
