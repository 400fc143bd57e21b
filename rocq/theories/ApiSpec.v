(** What the public API of blake2b_simd / blake2s_simd promises, in terms of the
    published functions of Spec.v only.  Nothing here mentions the model. *)
From Coq Require Import Arith NArith List Bool.
From Coq Require Import Init.Byte.
From Verif Require Import Spec.
Import ListNotations.
Open Scope N_scope.

(** ** Builder settings of Params *)
Inductive setting :=
| HashLength (n : nat)
| Key (k : list byte)
| Salt (s : list byte)
| Personal (s : list byte)
| Fanout (x : N)
| MaxDepth (x : N)
| MaxLeafLength (x : N)
| NodeOffset (x : N)
| NodeDepth (x : N)
| InnerHashLength (n : nat)
| LastNode (b : bool).

(** What Rust's types guarantee about the arguments: u8, u32, u64. *)
Definition typed (s : setting) : Prop :=
  match s with
  | Fanout x | MaxDepth x | NodeDepth x => x < 2 ^ 8
  | MaxLeafLength x => x < 2 ^ 32
  | NodeOffset x => x < 2 ^ 64
  | _ => True
  end.

(** Salt and personalization take two words each. *)
Definition salt_len (f : flavour) : nat := 2 * word_len f.

(** The documented ranges. *)
Definition legal (f : flavour) (s : setting) : bool :=
  match s with
  | HashLength n => Nat.leb 1 n && Nat.leb n (max_out f)
  | Key k => Nat.leb (length k) (max_out f)
  | Salt s | Personal s => Nat.leb (length s) (salt_len f)
  | InnerHashLength n => Nat.leb n (max_out f)
  | NodeOffset x => match f with F2b => true | F2s => N.ltb x (2 ^ 48) end
  | _ => true
  end.

(** What is being computed: the parameters of the published function. *)
Record config := { c_params : params; c_key : list byte; c_last_node : bool }.

Definition default_config (f : flavour) : config :=
  {| c_params := sequential (max_out f) 0; c_key := []; c_last_node := false |}.

(** Each setting changes exactly one parameter. *)
Definition apply (s : setting) (c : config) : config :=
  let p := c_params c in
  let with_params q := {| c_params := q; c_key := c_key c; c_last_node := c_last_node c |} in
  match s with
  | HashLength n => with_params
      {| digest_length := N.of_nat n; key_length := key_length p; fanout := fanout p;
         depth := depth p; leaf_length := leaf_length p; node_offset := node_offset p;
         node_depth := node_depth p; inner_length := inner_length p; salt := salt p;
         personal := personal p |}
  | Key k =>
      {| c_params :=
           {| digest_length := digest_length p; key_length := N.of_nat (length k);
              fanout := fanout p; depth := depth p; leaf_length := leaf_length p;
              node_offset := node_offset p; node_depth := node_depth p;
              inner_length := inner_length p; salt := salt p; personal := personal p |};
         c_key := k; c_last_node := c_last_node c |}
  | Salt s => with_params
      {| digest_length := digest_length p; key_length := key_length p; fanout := fanout p;
         depth := depth p; leaf_length := leaf_length p; node_offset := node_offset p;
         node_depth := node_depth p; inner_length := inner_length p; salt := s;
         personal := personal p |}
  | Personal s => with_params
      {| digest_length := digest_length p; key_length := key_length p; fanout := fanout p;
         depth := depth p; leaf_length := leaf_length p; node_offset := node_offset p;
         node_depth := node_depth p; inner_length := inner_length p; salt := salt p;
         personal := s |}
  | Fanout x => with_params
      {| digest_length := digest_length p; key_length := key_length p; fanout := x;
         depth := depth p; leaf_length := leaf_length p; node_offset := node_offset p;
         node_depth := node_depth p; inner_length := inner_length p; salt := salt p;
         personal := personal p |}
  | MaxDepth x => with_params
      {| digest_length := digest_length p; key_length := key_length p; fanout := fanout p;
         depth := x; leaf_length := leaf_length p; node_offset := node_offset p;
         node_depth := node_depth p; inner_length := inner_length p; salt := salt p;
         personal := personal p |}
  | MaxLeafLength x => with_params
      {| digest_length := digest_length p; key_length := key_length p; fanout := fanout p;
         depth := depth p; leaf_length := x; node_offset := node_offset p;
         node_depth := node_depth p; inner_length := inner_length p; salt := salt p;
         personal := personal p |}
  | NodeOffset x => with_params
      {| digest_length := digest_length p; key_length := key_length p; fanout := fanout p;
         depth := depth p; leaf_length := leaf_length p; node_offset := x;
         node_depth := node_depth p; inner_length := inner_length p; salt := salt p;
         personal := personal p |}
  | NodeDepth x => with_params
      {| digest_length := digest_length p; key_length := key_length p; fanout := fanout p;
         depth := depth p; leaf_length := leaf_length p; node_offset := node_offset p;
         node_depth := x; inner_length := inner_length p; salt := salt p;
         personal := personal p |}
  | InnerHashLength n => with_params
      {| digest_length := digest_length p; key_length := key_length p; fanout := fanout p;
         depth := depth p; leaf_length := leaf_length p; node_offset := node_offset p;
         node_depth := node_depth p; inner_length := N.of_nat n; salt := salt p;
         personal := personal p |}
  | LastNode b => {| c_params := p; c_key := c_key c; c_last_node := b |}
  end.

(** A sequence of settings.  One outside of its range is refused and changes
    nothing. *)
Definition configure (f : flavour) (ss : list setting) (c : config) : config :=
  fold_left (fun c s => if legal f s then apply s c else c) ss c.

(** The digest a configuration gives for a message. *)
Definition digest (f : flavour) (c : config) (msg : list byte) : list byte :=
  blake2 f (c_params c) (c_key c) msg (c_last_node c).

(** ** BLAKE2bp / BLAKE2sp: only the digest length and the key can be set. *)
Inductive psetting :=
| PHashLength (n : nat)
| PKey (k : list byte).

Definition plegal (f : flavour) (s : psetting) : bool :=
  match s with
  | PHashLength n => Nat.leb 1 n && Nat.leb n (max_out f)
  | PKey k => Nat.leb (length k) (max_out f)
  end.

Record pconfig := { pc_hash_length : nat; pc_key : list byte }.

Definition pdefault_config (f : flavour) : pconfig :=
  {| pc_hash_length := max_out f; pc_key := [] |}.

Definition papply (s : psetting) (c : pconfig) : pconfig :=
  match s with
  | PHashLength n => {| pc_hash_length := n; pc_key := pc_key c |}
  | PKey k => {| pc_hash_length := pc_hash_length c; pc_key := k |}
  end.

Definition pconfigure (f : flavour) (ss : list psetting) (c : pconfig) : pconfig :=
  fold_left (fun c s => if plegal f s then papply s c else c) ss c.

Definition pdigest (f : flavour) (c : pconfig) (msg : list byte) : list byte :=
  blake2p f (pc_hash_length c) (pc_key c) msg.
