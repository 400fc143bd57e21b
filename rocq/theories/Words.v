(** More vocabulary for stating properties: the last accepted value of each
    setting, hexadecimal decoding.  Specification only. *)
From Coq Require Import String Ascii.
From Coq Require Import Arith NArith List Bool.
From Coq Require Import Init.Byte Strings.Byte.
From Verif Require Import Spec ApiSpec.
Import ListNotations.
Open Scope list_scope.
Open Scope N_scope.
Local Notation length := List.length.

(** Which setter a setting belongs to. *)
Inductive field :=
| fHashLength | fKey | fSalt | fPersonal | fFanout | fMaxDepth | fMaxLeafLength
| fNodeOffset | fNodeDepth | fInnerHashLength | fLastNode.
Definition field_of (s : setting) : field :=
  match s with
  | HashLength _ => fHashLength | Key _ => fKey | Salt _ => fSalt | Personal _ => fPersonal
  | Fanout _ => fFanout | MaxDepth _ => fMaxDepth | MaxLeafLength _ => fMaxLeafLength
  | NodeOffset _ => fNodeOffset | NodeDepth _ => fNodeDepth
  | InnerHashLength _ => fInnerHashLength | LastNode _ => fLastNode
  end.
Definition same_field (a b : field) : bool :=
  match a, b with
  | fHashLength, fHashLength | fKey, fKey | fSalt, fSalt | fPersonal, fPersonal
  | fFanout, fFanout | fMaxDepth, fMaxDepth | fMaxLeafLength, fMaxLeafLength
  | fNodeOffset, fNodeOffset | fNodeDepth, fNodeDepth
  | fInnerHashLength, fInnerHashLength | fLastNode, fLastNode => true
  | _, _ => false
  end.

(** The last accepted value given to a setter. *)
Definition last_accepted (f : flavour) (k : field) (ss : list setting) : option setting :=
  find (fun s => same_field (field_of s) k && legal f s) (rev ss).

Definition is_key (s : setting) : bool := same_field (field_of s) fKey.
Definition is_pkey (s : psetting) : bool := match s with PKey _ => true | _ => false end.

(** Lower-case hexadecimal digits and their values. *)
Definition digit_value (c : ascii) : option N :=
  let n := N_of_ascii c in
  if (48 <=? n) && (n <=? 57) then Some (n - 48)
  else if (97 <=? n) && (n <=? 102) then Some (n - 87)
  else None.
Fixpoint unhex (s : string) : option (list byte) :=
  match s with
  | EmptyString => Some []
  | String a (String b r) =>
      match digit_value a, digit_value b, unhex r with
      | Some x, Some y, Some bs =>
          match Byte.of_N (16 * x + y) with Some c => Some (c :: bs) | None => None end
      | _, _, _ => None
      end
  | String _ EmptyString => None
  end.

(** The public tree parameters of the nodes of BLAKE2bp / BLAKE2sp with digest
    length [n]: leaf [i], and the root. *)
Definition leaf_settings (f : flavour) (n i : nat) : list setting :=
  [HashLength n; Fanout (N.of_nat (leaves f)); MaxDepth 2; NodeOffset (N.of_nat i);
   InnerHashLength (max_out f); LastNode (Nat.eqb i (leaves f - 1))].
Definition root_settings (f : flavour) (n : nat) : list setting :=
  [HashLength n; Fanout (N.of_nat (leaves f)); MaxDepth 2; NodeDepth 1;
   InnerHashLength (max_out f); LastNode true].
