(** How the command-line tool's options are written, and what they mean.
    Specification only; nothing here mentions the model of the argument parser. *)
From Coq Require Import String Ascii.
From Coq Require Import Arith NArith List Bool.
From Verif Require Import BinSpec.
Import ListNotations.
Open Scope list_scope.
Open Scope N_scope.
Local Notation length := List.length.

(** ** What can be given *)
Inductive flag := MmapFlag | BigFlag | SmallFlag | ParallelFlag | LastNodeFlag.
Inductive valued :=
| LengthOption | KeyOption | SaltOption | PersonalOption | FanoutOption | MaxDepthOption
| MaxLeafLengthOption | NodeOffsetOption | NodeDepthOption | InnerHashLengthOption.
Inductive item :=
| Flag (f : flag)
| Valued (v : valued) (text : string)
| Input (path : string).

(** ** How it is written *)
Definition long_flag (f : flag) : option string :=
  match f with MmapFlag => Some "--mmap" | LastNodeFlag => Some "--last-node" | _ => None end%string.
Definition letter (f : flag) : option ascii :=
  match f with BigFlag => Some "b" | SmallFlag => Some "s" | ParallelFlag => Some "p" | _ => None end%char.
Definition long_option (v : valued) : string :=
  match v with
  | LengthOption => "--length" | KeyOption => "--key" | SaltOption => "--salt" | PersonalOption => "--personal"
  | FanoutOption => "--fanout" | MaxDepthOption => "--max-depth" | MaxLeafLengthOption => "--max-leaf-length"
  | NodeOffsetOption => "--node-offset" | NodeDepthOption => "--node-depth"
  | InnerHashLengthOption => "--inner-hash-length"
  end%string.

(** A word that does not look like an option: no leading hyphen, or nothing else. *)
Definition plain (w : string) : Prop :=
  match w with
  | String c r => c <> "-"%char \/ r = ""%string
  | EmptyString => True
  end.
Definition no_equals_first (w : string) : Prop :=
  match w with String c _ => c <> "="%char | EmptyString => True end.
(** Letters behind one hyphen. *)
Inductive letters : list flag -> string -> Prop :=
| letters_nil : letters [] ""
| letters_cons f c fs s : letter f = Some c -> letters fs s -> letters (f :: fs) (String c s).

(** [spelled gs words]: these words, none of them "--", give these items. *)
Inductive spelled : list item -> list string -> Prop :=
| s_nil : spelled [] []
| s_input p gs ws : plain p -> spelled gs ws -> spelled (Input p :: gs) (p :: ws)
| s_long f w gs ws : long_flag f = Some w -> spelled gs ws -> spelled (Flag f :: gs) (w :: ws)
| s_short f fs s gs ws :
    letters (f :: fs) s -> spelled gs ws -> spelled (map Flag (f :: fs) ++ gs) (("-" ++ s)%string :: ws)
| s_equals v t gs ws :
    no_equals_first t -> spelled gs ws -> spelled (Valued v t :: gs) ((long_option v ++ "=" ++ t)%string :: ws)
| s_next v t gs ws :
    plain t -> spelled gs ws -> spelled (Valued v t :: gs) (long_option v :: t :: ws).
(** The whole command line: after a "--" there are only inputs. *)
Inductive command_line : list item -> list string -> Prop :=
| c_open gs ws : spelled gs ws -> command_line gs ws
| c_dashes gs ws ps : spelled gs ws -> command_line (gs ++ map Input ps) (ws ++ "--"%string :: ps).

(** Words that no option has: an unknown name, or an unknown letter. *)
Definition known_names : list string :=
  ["mmap"; "last-node"; "length"; "key"; "salt"; "personal"; "fanout"; "max-depth"; "max-leaf-length";
   "node-offset"; "node-depth"; "inner-hash-length"; "help"; "version"]%string.
Fixpoint up_to_equals (s : string) : string :=
  match s with
  | EmptyString => EmptyString
  | String c r => if Ascii.eqb c "=" then EmptyString else String c (up_to_equals r)
  end.
Inductive unknown : string -> Prop :=
| unknown_name c s :
    c <> "-"%char -> ~ In (up_to_equals (String c s)) known_names -> unknown ("--" ++ String c s)
| unknown_letter fs s c r :
    letters fs s -> ~ In c ["-"; "b"; "s"; "p"; "h"; "V"]%char -> unknown ("-" ++ s ++ String c r).

(** ** What it means *)
(** A decimal number below 2^[bits], perhaps with a plus sign. *)
Definition digit (c : ascii) : option N :=
  match c with
  | "0" => Some 0 | "1" => Some 1 | "2" => Some 2 | "3" => Some 3 | "4" => Some 4
  | "5" => Some 5 | "6" => Some 6 | "7" => Some 7 | "8" => Some 8 | "9" => Some 9
  | _ => None
  end%char.
Fixpoint all_digits (s : string) : option (list N) :=
  match s with
  | EmptyString => Some []
  | String c r => match digit c, all_digits r with Some d, Some ds => Some (d :: ds) | _, _ => None end
  end.
(** The last digit counts 1, the one before it 10, and so on. *)
Fixpoint decimal (ds : list N) : N :=
  match ds with [] => 0 | d :: r => d * 10 ^ N.of_nat (length r) + decimal r end.
Definition numeral (bits : N) (s : string) : option N :=
  let body := match s with String "+" r => r | _ => s end in
  match all_digits body with
  | Some (d :: ds) => if decimal (d :: ds) <? 2 ^ bits then Some (decimal (d :: ds)) else None
  | _ => None
  end.

Definition flag_eqb (f g : flag) : bool :=
  match f, g with
  | MmapFlag, MmapFlag | BigFlag, BigFlag | SmallFlag, SmallFlag
  | ParallelFlag, ParallelFlag | LastNodeFlag, LastNodeFlag => true
  | _, _ => false
  end.
Definition valued_eqb (v w : valued) : bool := String.eqb (long_option v) (long_option w).

Definition paths (gs : list item) : list string :=
  flat_map (fun i => match i with Input p => [p] | _ => [] end) gs.
Definition flags (f : flag) (gs : list item) : list item :=
  filter (fun i => match i with Flag g => flag_eqb f g | _ => false end) gs.
Definition texts (v : valued) (gs : list item) : list string :=
  flat_map (fun i => match i with Valued w t => if valued_eqb v w then [t] else [] | _ => [] end) gs.

(** Nothing may be given twice. *)
Definition flag_given (f : flag) (gs : list item) : option bool :=
  match flags f gs with [] => Some false | [_] => Some true | _ => None end.
Definition text_given (v : valued) (gs : list item) : option (option string) :=
  match texts v gs with [] => Some None | [t] => Some (Some t) | _ => None end.
Definition number_given (bits : N) (v : valued) (gs : list item) : option (option N) :=
  match text_given v gs with
  | Some (Some t) => option_map Some (numeral bits t)
  | Some None => Some None
  | None => None
  end.

Definition bind {A B} (x : option A) (k : A -> option B) : option B := match x with Some a => k a | None => None end.
Notation "'let?' x := e 'in' k" := (bind e (fun x => k)) (at level 200, x binder, e at level 100, k at level 200).
Definition meaning (gs : list item) : option options :=
  let? mmap := flag_given MmapFlag gs in
  let? big := flag_given BigFlag gs in
  let? small := flag_given SmallFlag gs in
  let? parallel := flag_given ParallelFlag gs in
  let? length := number_given 64 LengthOption gs in
  let? key := text_given KeyOption gs in
  let? salt := text_given SaltOption gs in
  let? personal := text_given PersonalOption gs in
  let? fanout := number_given 8 FanoutOption gs in
  let? max_depth := number_given 8 MaxDepthOption gs in
  let? max_leaf_length := number_given 32 MaxLeafLengthOption gs in
  let? node_offset := number_given 64 NodeOffsetOption gs in
  let? node_depth := number_given 8 NodeDepthOption gs in
  let? inner_hash_length := number_given 64 InnerHashLengthOption gs in
  let? last_node := flag_given LastNodeFlag gs in
  Some {| o_mmap := mmap; o_big := big; o_small := small; o_parallel := parallel;
          o_length := option_map N.to_nat length; o_key := key; o_salt := salt; o_personal := personal;
          o_fanout := fanout; o_max_depth := max_depth; o_max_leaf_length := max_leaf_length;
          o_node_offset := node_offset; o_node_depth := node_depth;
          o_inner_hash_length := option_map N.to_nat inner_hash_length; o_last_node := last_node |}.
