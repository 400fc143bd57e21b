(** What is wrong with the options of the tool and with the values given to the builders, values out of range included:
    C59.  Specification only. *)
From Coq Require Import String Ascii.
From Coq Require Import Arith NArith List Bool.
From Coq Require Import Init.Byte.
From Coq Require DecimalString.
From Verif Require Import Spec ApiSpec BinSpec.
Import ListNotations.
Open Scope list_scope.
Open Scope N_scope.
Local Notation length := List.length.

Definition numeral (n : N) : string := DecimalString.NilZero.string_of_uint (N.to_uint n).
(** The message about a value that is out of range: what it is, and the value, or its length if it is a string of bytes. *)
Definition bad_value (s : setting) : string :=
  match s with
  | HashLength n => "Bad hash length: " ++ numeral (N.of_nat n)
  | Key k => "Bad key length: " ++ numeral (N.of_nat (length k))
  | Salt b => "Bad salt length: " ++ numeral (N.of_nat (length b))
  | Personal b => "Bad personalization length: " ++ numeral (N.of_nat (length b))
  | NodeOffset x => "Bad node offset: " ++ numeral x
  | InnerHashLength n => "Bad inner hash length: " ++ numeral (N.of_nat n)
  | _ => ""
  end%string.
Definition bad_pvalue (s : psetting) : string :=
  match s with PHashLength n => bad_value (HashLength n) | PKey k => bad_value (Key k) end.

(** ** All that is wrong with the options, in the order in which the tool looks *)
Inductive fault :=
| Wrong (text : string)      (* malformed, or not supported: an error message *)
| Outside (text : string).   (* out of range: a panic *)
Definition range (f : flavour) (s : setting) : list fault := if legal f s then [] else [Outside (bad_value s)].
Definition number_range {A} (f : flavour) (x : option A) (k : A -> setting) : list fault :=
  match x with Some a => range f (k a) | None => [] end.
Definition hex_range (f : flavour) (x : option string) (k : list byte -> setting) : list fault :=
  match x with
  | Some s => match hex_bytes s with Some b => range f (k b) | None => [] end
  | None => []
  end.
Definition faults (o : options) : list fault :=
  let f := chosen o in
  let wrong := map Wrong in
  let unsupported (name : string) (present : bool) :=
    if o_parallel o && present then [Wrong (name ++ " not supported")%string] else [] in
  wrong (if o_big o && o_small o then ["-b and -s can't be used together"%string] else []) ++
  number_range f (o_length o) HashLength ++
  wrong (malformed (o_key o)) ++ hex_range f (o_key o) Key ++
  wrong (malformed (o_salt o)) ++ unsupported "--salt"%string (given (o_salt o)) ++ hex_range f (o_salt o) Salt ++
  wrong (malformed (o_personal o)) ++ unsupported "--personal"%string (given (o_personal o)) ++
    hex_range f (o_personal o) Personal ++
  unsupported "--fanout"%string (given (o_fanout o)) ++
  unsupported "--max-depth"%string (given (o_max_depth o)) ++
  unsupported "--max-leaf-length"%string (given (o_max_leaf_length o)) ++
  unsupported "--node-offset"%string (given (o_node_offset o)) ++ number_range f (o_node_offset o) NodeOffset ++
  unsupported "--node-depth"%string (given (o_node_depth o)) ++
  unsupported "--inner-hash-length"%string (given (o_inner_hash_length o)) ++
    number_range f (o_inner_hash_length o) InnerHashLength ++
  unsupported "--last-node"%string (o_last_node o).

(** The same options with another key. *)
Definition with_key (k : option string) (o : options) : options :=
  {| o_mmap := o_mmap o; o_big := o_big o; o_small := o_small o; o_parallel := o_parallel o;
     o_length := o_length o; o_key := k; o_salt := o_salt o; o_personal := o_personal o;
     o_fanout := o_fanout o; o_max_depth := o_max_depth o; o_max_leaf_length := o_max_leaf_length o;
     o_node_offset := o_node_offset o; o_node_depth := o_node_depth o;
     o_inner_hash_length := o_inner_hash_length o; o_last_node := o_last_node o |}.
