(** Model of the program around the benchmarks: main, worker, run_algo and rate_f32 of
    benches/bench_multiprocess/src/main.rs, with the numbers of type f32.

    Left out: failures of writing to the standard output, and the environment variable being no UTF-8.  What a
    benchmark hashes is Bench.v's matter; here it is a time that a worker process measures.  (On a machine whose usize
    has 32 bits the product of main.rs:331 is rejected by the compiler, so usize has 64 bits here.) *)
From Coq Require Import String Ascii.
From Coq Require Import Arith NArith ZArith List Bool.
From Verif Require Import Base Lib Args Bench.
Import ListNotations.
Open Scope list_scope.
Open Scope N_scope.
Local Notation length := List.length.

(** main.rs:43. *)
Definition WORKERS : nat := 100.

(** ** f32 (core, not in /repo; IEEE 754 binary32, used at main.rs:301-303, 310, 363, 376, 380, 385)
    Only the values that are not negative. *)
(** A value that is not infinite is [m] times two to the [e]. *)
Inductive f32 := Finite (m : N) (e : Z) | Infinite | NaN.
(** Such a value as a fraction (for main.rs:301-303). *)
Definition fraction (m : N) (e : Z) : N * N :=
  if (e <? 0)%Z then (m, 2 ^ Z.to_N (- e)) else (m * 2 ^ Z.to_N e, 1).
(** The integer nearest to a/b, the even one if there are two (for main.rs:301-303, 363, 376, 385). *)
Definition nearest (a b : N) : N :=
  let q := a / b in
  let r := a mod b in
  match 2 * r ?= b with Lt => q | Gt => q + 1 | Eq => if N.even q then q else q + 1 end.
(** Rounding of num/den to the nearest f32, ties to even (the rounding of [as f32] and of [/], main.rs:302): the
    significand has 24 bits, the exponent is at least -149, and from 2^128 on the result is infinite. *)
Definition round_f32 (num den : N) : f32 :=
  if num =? 0 then Finite 0 0
  else
    let k := (Z.of_N (N.log2 num) - Z.of_N (N.log2 den))%Z in
    let below := if (k <? 0)%Z then num * 2 ^ Z.to_N (- k) <? den else num <? den * 2 ^ Z.to_N k in
    let e := Z.max (-149) (if below then k - 24 else k - 23) in
    let m := if (e <? 0)%Z then nearest (num * 2 ^ Z.to_N (- e)) den else nearest num (den * 2 ^ Z.to_N e) in
    let '(p, q) := fraction m e in
    if 2 ^ 128 * q <=? p then Infinite else Finite m e.
(** usize and u128 [as f32], main.rs:302. *)
Definition as_f32 (n : N) : f32 := round_f32 n 1.
(** Division, main.rs:302. *)
Definition div_f32 (x y : f32) : f32 :=
  match x, y with
  | NaN, _ | _, NaN | Infinite, Infinite => NaN
  | Infinite, Finite _ _ => Infinite
  | Finite _ _, Infinite => Finite 0 0
  | Finite m e, Finite m' e' =>
      let '(p, q) := fraction m e in
      let '(p', q') := fraction m' e' in
      if p' =? 0 then if p =? 0 then NaN else Infinite
      else round_f32 (p * q') (q * p')
  end.
(** The comparison [>], main.rs:380. *)
Definition gt_f32 (x y : f32) : bool :=
  match x, y with
  | NaN, _ | _, NaN => false
  | _, Infinite => false
  | Infinite, _ => true
  | Finite m e, Finite m' e' =>
      let '(p, q) := fraction m e in
      let '(p', q') := fraction m' e' in
      p' * q <? p * q'
  end.
(** One decimal digit (for main.rs:363, 376, 385). *)
Definition digit_char (d : N) : ascii := ascii_of_N (48 + d mod 10).
(** {:.3} of an f32, main.rs:363, 376, 385: the nearest number of thousandths. *)
Definition show_f32 (x : f32) : string :=
  match x with
  | NaN => "NaN"
  | Infinite => "inf"
  | Finite m e =>
      let '(p, q) := fraction m e in
      let t := nearest (1000 * p) q in
      dec (t / 1000) ++ String "." (String (digit_char (t / 100)) (String (digit_char (t / 10)) (String (digit_char t) "")))
  end%string.

(** rate_f32, main.rs:301-303. *)
Definition rate_f32 (ns : N) (input_len : N) : f32 := div_f32 (as_f32 input_len) (as_f32 ns).

(** ** Processes *)
(** The newline of println! (main.rs:308). *)
Definition newline : string := String "010" "".
(** How a process ends (main.rs:341-387): main returns, or a panic. *)
Inductive ending := Returned | Panicked.
(** What is seen of the program (main.rs:341-387): its standard output, how many processes it started, and its end. *)
Record report := { stdout : string; started : nat; ended : ending }.
(** What becomes of a process that is started (main.rs:318-321): it runs, and a benchmark takes so many nanoseconds
    in it by its clock (main.rs:73-78); it prints something else, which is ASCII (another program has taken its place,
    say); something ends it before it prints; or it cannot be started. *)
Inductive process := Up (time : algorithm -> N) | Printed (text : string) | Died | NoSpawn.

(** worker, main.rs:305-309. *)
Definition worker (time : algorithm -> N) (algo : string) : report :=
  match get_hash_bench algo with
  | Ret hash_bench => {| stdout := dec (time hash_bench) ++ newline; started := 0; ended := Returned |}
  | _ => {| stdout := ""; started := 0; ended := Panicked |}
  end%string.

(** White space of ASCII (str::trim, main.rs:324; the texts here are ASCII). *)
Definition is_space (c : ascii) : bool :=
  let n := N_of_ascii c in (n =? 32) || ((9 <=? n) && (n <=? 13)).
(** The front half of str::trim (main.rs:324). *)
Fixpoint trim_start (s : string) : string :=
  match s with String c r => if is_space c then trim_start r else s | EmptyString => EmptyString end.
(** The back half of str::trim (main.rs:324). *)
Fixpoint trim_end (s : string) : string :=
  match s with
  | EmptyString => EmptyString
  | String c r => match trim_end r with EmptyString => if is_space c then EmptyString else String c EmptyString | r => String c r end
  end.
(** str::trim (main.rs:324). *)
Definition trim (s : string) : string := trim_end (trim_start s).

Section Parent.
Variable dbg : bool.               (* overflow checks are on *)
Variable processes : nat -> process. (* what becomes of the i-th process started *)

(** One turn of the loop of run_algo, main.rs:316-332: the [i]-th process is started with BENCH_ALGO set to
    [algo_name]; it is this same program, so it runs worker (main.rs:342-345).  The status is not looked at. *)
Definition ask (algo_name : string) (i : nat) : outcome N :=
  match processes i with
  | NoSpawn => Panic
  | Died => Panic
  | Up time =>
      match from_str 128 (trim (stdout (worker time algo_name))) with
      | Some ns => Ret ns
      | None => Panic
      end
  | Printed text =>
      match from_str 128 (trim text) with
      | Some ns => Ret ns
      | None => Panic
      end
  end.
(** The loop of run_algo, main.rs:315-332: [n] turns to go, [i] processes started so far. *)
Fixpoint ask_all (algo_name : string) (n i : nat) (total_ns : N) : outcome N * nat :=
  match n with
  | O => (Ret total_ns, i)
  | S n' =>
      match ask algo_name i with
      | Ret ns =>
          let sum := total_ns + ns in
          if dbg && (2 ^ 128 <=? sum) then (Panic, S i)
          else ask_all algo_name n' (S i) (sum mod 2 ^ 128)
      | o => (o, match processes i with NoSpawn => i | _ => S i end)
      end
  end.
(** run_algo, main.rs:311-338.  (The sorting of _times at 333 has no effect.) *)
Definition run_algo (algo_name : string) (i : nat) : outcome f32 * nat :=
  let '(o, i) := ask_all algo_name WORKERS i 0 in
  ((do total_ns <- o; Ret (rate_f32 total_ns (N.of_nat WORKERS * N.of_nat OFFSET_PERIOD * BENCH_LEN))), i).

(** The loop over ALGOS, main.rs:368-377: what was printed, how many processes were started, and the throughputs. *)
Fixpoint run_all (algos : list (string * algorithm)) (i : nat) (out : string) (throughputs : list (f32 * string))
    : string * nat * outcome (list (f32 * string)) :=
  match algos with
  | [] => (out, i, Ret throughputs)
  | (algo_name, _) :: rest =>
      let out := (out ++ algo_name ++ ": ")%string in
      match run_algo algo_name i with
      | (Ret throughput, i) =>
          run_all rest i (out ++ show_f32 throughput ++ newline)%string (throughputs ++ [(throughput, algo_name)])
      | (Panic, i) => (out, i, Panic)
      | (UB, i) => (out, i, UB)
      | (Diverge, i) => (out, i, Diverge)
      end
  end.

(** {0:1$} of a string, main.rs:385: blanks up to the width. *)
Fixpoint pad (s : string) (width : nat) : string :=
  match width with
  | O => s
  | S w => match s with String c r => String c (pad r w) | EmptyString => String " " (pad EmptyString w) end
  end.
(** main.rs:382. *)
Definition max_name_len : nat := fold_right Nat.max 0%nat (map (fun x => String.length (fst x)) ALGOS).
(** The closure of sort_by, main.rs:380.  The sort of std asks only whether it answers Less. *)
Definition is_less (t1 t2 : f32 * string) : bool := gt_f32 (fst t1) (fst t2).

(** main, main.rs:341-387.  [bench_algo] is the environment variable, [own_time] what this process's clock will show
    if it is a worker, [arg] the first argument; [sort] is the sort of std, which gets the closure's answers. *)
Definition main (sort : (f32 * string -> f32 * string -> bool) -> list (f32 * string) -> list (f32 * string))
    (bench_algo : option string) (own_time : algorithm -> N) (arg : option string) : report :=
  match bench_algo with
  | Some name => worker own_time name
  | None =>
      match arg with
      | Some arg =>
          match choose arg with
          | Ret algo_name =>
              match run_algo algo_name 0 with
              | (Ret throughput, i) => {| stdout := show_f32 throughput ++ newline; started := i; ended := Returned |}
              | (_, i) => {| stdout := ""; started := i; ended := Panicked |}
              end
          | _ => {| stdout := ""; started := 0; ended := Panicked |}
          end
      | None =>
          match run_all ALGOS 0 "" [] with
          | (out, i, Ret throughputs) =>
              let line '(throughput, name) := pad name max_name_len ++ " " ++ show_f32 throughput ++ newline in
              {| stdout := out ++ newline ++ "In order:" ++ newline ++ String.concat "" (map line (sort is_less throughputs));
                 started := i; ended := Returned |}
          | (out, i, _) => {| stdout := out; started := i; ended := Panicked |}
          end
      end
  end%string.
End Parent.
