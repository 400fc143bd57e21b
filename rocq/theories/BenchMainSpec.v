(** What the benchmark program (BenchMain.v) is expected to report: C55. *)
From Coq Require Import String Ascii.
From Coq Require Import Arith NArith ZArith List Bool Permutation Sorted.
From Verif Require Import ArgsSpec Bench BenchMain.
Import ListNotations.
Open Scope list_scope.
Local Notation length := List.length.

(** The bytes that the timed runs of 100 workers hash together: 512 runs of a million bytes each. *)
Definition bytes_timed : Z := (100 * 512 * 1000000)%Z.

(** The time that an algorithm took in [n] processes from the [i]-th one on. *)
Fixpoint time_spent (times : nat -> algorithm -> N) (f : algorithm) (i n : nat) : N :=
  match n with O => 0 | S n' => times i f + time_spent times f (S i) n' end.
(** A duration on a clock of this kind: 64 bits of seconds, and less than a second of nanoseconds. *)
Definition measurable (times : nat -> algorithm -> N) : Prop := forall i f, (times i f < 2 ^ 64 * 1000000000)%N.

(** A text that is a number below 2^128, with white space around it. *)
Definition blank (s : string) : Prop :=
  forall c, In c (list_ascii_of_string s) -> In c [" "; "009"; "010"; "011"; "012"; "013"]%char.
Definition tells (text : string) (n : N) : Prop :=
  exists before body after, text = (before ++ body ++ after)%string /\ blank before /\ blank after /\ numeral 128 body = Some n.
(** A process gives these times: it measures them and says so, or it prints such a number anyhow. *)
Definition gives (p : process) (time : algorithm -> N) : Prop :=
  match p with Up own => own = time | Printed text => forall f, tells text (time f) | Died | NoSpawn => False end.
(** A process that gives no time. *)
Definition useless (p : process) : Prop :=
  match p with Up _ => False | Printed text => forall n, ~ tells text n | Died | NoSpawn => True end.

(** [s] is a decimal fraction with three digits behind the point, and this many thousandths. *)
Definition thousandths (s : string) (t : N) : Prop :=
  exists whole part di df,
    s = (whole ++ "." ++ part)%string /\ all_digits whole = Some di /\ all_digits part = Some df /\
    di <> [] /\ length df = 3%nat /\ decimal (di ++ df) = t.
(** [t] thousandths are the rate of [bytes_timed] in [ns] nanoseconds, up to half a thousandth and 3 parts in 2^24:
    |t/1000 - bytes/ns| <= 1/2000 + 3/2^24 * bytes/ns. *)
Definition close (t ns : N) : Prop :=
  (2 * 2 ^ 24 * Z.abs (Z.of_N t * Z.of_N ns - 1000 * bytes_timed) <= 2 ^ 24 * Z.of_N ns + 6 * 1000 * bytes_timed)%Z.
(** What is shown for an algorithm that took [ns] nanoseconds; [v] is the number shown, None is no time at all. *)
Definition shows (ns : N) (s : string) (v : option N) : Prop :=
  match v with
  | None => ns = 0%N /\ s = "inf"%string
  | Some t => (0 < ns)%N /\ thousandths s t /\ close t ns
  end.

(** A line of the report: an algorithm, the time it took, what is shown for it, and the number that this is. *)
Record entry := { e_name : string; e_time : N; e_shown : string; e_value : option N }.
(** [y] may stand behind [x]: its number is not larger, and it was not faster (up to the rounding). *)
Definition not_before (x y : entry) : Prop :=
  match e_value x, e_value y with Some a, Some b => (b <= a)%N | Some _, None => False | None, _ => True end /\
  (e_time x * (2 ^ 24 - 3) <= e_time y * (2 ^ 24 + 3))%N.

(** std's sort: the elements in another order, and in order if the comparison is one. *)
Definition orders {A} (less : A -> A -> bool) (l : list A) : Prop :=
  (forall x, In x l -> less x x = false) /\
  (forall x y z, In x l -> In y l -> In z l -> less x y = true -> less y z = true -> less x z = true) /\
  (forall x y z, In x l -> In y l -> In z l -> less x y = false -> less y z = false -> less x z = false).
Definition sorts {A} (sort : (A -> A -> bool) -> list A -> list A) : Prop :=
  forall less l, Permutation l (sort less l) /\
    (orders less l -> StronglySorted (fun x y => less y x = false) (sort less l)).

(** The blanks behind a name. *)
Definition padded (name : string) (s : string) : Prop :=
  exists blanks, s = (name ++ blanks)%string /\ String.length s = 21%nat /\ forall c, In c (list_ascii_of_string blanks) -> c = " "%char.

(** The lines of some algorithms, whose processes are the [i]-th and the following, a hundred for each. *)
Inductive measured (times : nat -> algorithm -> N) : nat -> list (string * algorithm) -> list entry -> Prop :=
| measured_nil i : measured times i [] []
| measured_cons i name f algos x xs :
    e_name x = name -> e_time x = time_spent times f i 100 -> shows (e_time x) (e_shown x) (e_value x) ->
    measured times (i + 100) algos xs -> measured times i ((name, f) :: algos) (x :: xs).
(** The first part of the report: a line for each algorithm, as soon as it is known. *)
Definition first_part (xs : list entry) : string :=
  String.concat "" (map (fun x => e_name x ++ ": " ++ e_shown x ++ newline)%string xs).
(** A line of the second part. *)
Definition second_line (x : entry) (line : string) : Prop :=
  exists s, padded (e_name x) s /\ line = (s ++ " " ++ e_shown x ++ newline)%string.
