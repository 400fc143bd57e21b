(** Published vectors run through the specification and through the model of
    the code (every back end).  These are tests, not the proofs: they guard
    against a specification or model that is internally consistent but wrong.
    They are run by [Check], which leaves nothing in the compiled file. *)
From Coq Require Import String Ascii.
From Coq Require Import Arith NArith List Bool.
From Verif Require Import Base Guts Simd Impl Sched Lib Many Par.
From Verif Require Spec.
From Verif Require XofSpec Xof ApiSpec Docs.
Import ListNotations.
Open Scope N_scope.

Fixpoint hex_digit (l : list ascii) (c : ascii) : N :=
  match l with [] => 0 | d :: r => if Ascii.eqb c d then 0 else 1 + hex_digit r c end.
Fixpoint unhex_list (l : list ascii) : list byte :=
  match l with
  | a :: b :: r => n2b (16 * hex_digit hex_table a + hex_digit hex_table b) :: unhex_list r
  | _ => []
  end.
Definition unhex (s : string) : list byte := unhex_list (list_ascii_of_string s).
Definition str (s : string) : list byte := map (fun c => n2b (N_of_ascii c)) (list_ascii_of_string s).
(** 00 01 02 ... as in the official test vectors. *)
Definition count_up (n : nat) : list byte := map (fun i => n2b (N.of_nat i)) (seq 0 n).

Definition foo := str "foo".
Definition env_all (d : bool) := {| e_dbg := d; e_sse41 := true; e_avx2 := true |}.
Definition out (o : outcome hash) : outcome (list byte) := do h <- o; as_bytes h.
Definition imps := [Portable; SSE41; AVX2].

(* spec_2b_foo *)
Check (ltac:(vm_compute; reflexivity) : (Spec.rfc7693 Spec.F2b 64 [] foo =
  unhex "ca002330e69d3e6b84a46a56a6533fd79d51d97a3bb7cad6c2ff43b354185d6dc1e723fb3db4ae0737e120378424c714bb982d9dc5bbd7a0ab318240ddd18f8d")).
(* spec_2s_foo *)
Check (ltac:(vm_compute; reflexivity) : (Spec.rfc7693 Spec.F2s 32 [] foo =
  unhex "08d6cad88075de8f192db097573d0e829411cd91eb6ec65e8fc16c017edfdb74")).
(** RFC 7693 appendices A and B: "abc". *)
(* spec_2b_abc *)
Check (ltac:(vm_compute; reflexivity) : (Spec.rfc7693 Spec.F2b 64 [] (str "abc") =
  unhex "ba80a53f981c4d0d6a2797b69f12f6e94c212f14685ac4b74b12bb6fdbffa2d17d87c5392aab792dc252d5de4533cc9518d38aa8dbf1925ab92386edd4009923")).
(* spec_2s_abc *)
Check (ltac:(vm_compute; reflexivity) : (Spec.rfc7693 Spec.F2s 32 [] (str "abc") =
  unhex "508c5e8c327c14e2e1a72ba34eeb452f37458b209ed63a294d999b4c86675982")).

(** All parameters at once (the crates' own test_all_parameters). *)
Definition all_params : Spec.params := {|
  Spec.digest_length := 18; Spec.key_length := 3; Spec.fanout := 2; Spec.depth := 3;
  Spec.leaf_length := 0x04050607; Spec.node_offset := 0x08090a0b0c0d0e0f;
  Spec.node_depth := 16; Spec.inner_length := 17;
  Spec.salt := str "bazbazbazbazbazb"; Spec.personal := str "bing bing bing b" |}.
(* spec_2b_all *)
Check (ltac:(vm_compute; reflexivity) : (Spec.blake2 Spec.F2b all_params (str "bar") foo true =
  unhex "ec0f59cb65f92e7fcca1280ba859a6925ded")).
Definition all_params_s : Spec.params := {|
  Spec.digest_length := 18; Spec.key_length := 3; Spec.fanout := 2; Spec.depth := 3;
  Spec.leaf_length := 0x04050607; Spec.node_offset := 8834916224013;
  Spec.node_depth := 16; Spec.inner_length := 17;
  Spec.salt := str "bazbazba"; Spec.personal := str "bing bin" |}.
(* spec_2s_all *)
Check (ltac:(vm_compute; reflexivity) : (Spec.blake2 Spec.F2s all_params_s (str "bar") foo true =
  unhex "62361e5392ab0eb7dd27e48a6809ee82dc57")).

(* spec_2bp_foo *)
Check (ltac:(vm_compute; reflexivity) : (Spec.blake2p Spec.F2b 64 [] foo =
  unhex "8ca9ccee7946afcb686fe7556628b5ba1bf9a691da37ca58cd049354d99f37042c007427e5f219b9ab5063707ec6823872dee413ee014b4d02f2ebb6abb5f643")).
(* spec_2sp_foo *)
Check (ltac:(vm_compute; reflexivity) : (Spec.blake2p Spec.F2s 32 [] foo =
  unhex "050dc5786037ea72cb9ed9d0324afcab03c97ec02e8c47368fc5dfb4cf49d8c9")).
(* spec_2bp_keyed *)
Check (ltac:(vm_compute; reflexivity) : (Spec.blake2p Spec.F2b 18 (str "bar") foo =
  unhex "8c54e888a8a01c63da6585c058fe54ea81df")).
(* spec_2sp_keyed *)
Check (ltac:(vm_compute; reflexivity) : (Spec.blake2p Spec.F2s 18 (str "bar") foo =
  unhex "947d4c671e2794f5e1a57daeca97bb46ed66")).

(** The model on every back end. *)
(* model_one_shot *)
Check (ltac:(vm_compute; reflexivity) : (map (fun imp => (out (blake2_default V2b (env_all true) imp foo),
                   out (blake2_default V2s (env_all true) imp foo),
                   out (blake2p_default V2b (env_all true) imp foo),
                   out (blake2p_default V2s (env_all true) imp foo))) imps =
  map (fun _ => (Ret (Spec.rfc7693 Spec.F2b 64 [] foo), Ret (Spec.rfc7693 Spec.F2s 32 [] foo),
                 Ret (Spec.blake2p Spec.F2b 64 [] foo), Ret (Spec.blake2p Spec.F2s 32 [] foo))) imps)).

(* model_long *)
Check (ltac:(vm_compute; reflexivity) : (let m := count_up 700 in
  map (fun imp => (out (blake2_default V2b (env_all true) imp m),
                   out (blake2p_default V2b (env_all true) imp m))) imps =
  map (fun _ => (Ret (Spec.rfc7693 Spec.F2b 64 [] m), Ret (Spec.blake2p Spec.F2b 64 [] m))) imps)).
(* model_long_s *)
Check (ltac:(vm_compute; reflexivity) : (let m := count_up 700 in
  map (fun imp => (out (blake2_default V2s (env_all true) imp m),
                   out (blake2p_default V2s (env_all true) imp m))) imps =
  map (fun _ => (Ret (Spec.rfc7693 Spec.F2s 32 [] m), Ret (Spec.blake2p Spec.F2s 32 [] m))) imps)).

(** BLAKE2X: vectors of tests/blake2-kat.json, 71 and 100 bytes. *)
(* spec_2xs *)
Check (ltac:(vm_compute; reflexivity) : (XofSpec.blake2x Spec.F2s 71 [] (count_up 256) =
  unhex "bc3c10e1a08de16ce26134f363843f9243caf3bd1dcf445cfca839ee55cb5ca5f8994acd13509609578dd39d6b3c89901bf129a5bff17ffa1bb506ad7f63d0c18a570b8953a488")).
(* spec_2xs_keyed *)
Check (ltac:(vm_compute; reflexivity) : (XofSpec.blake2x Spec.F2s 100 (count_up 32) (count_up 256) =
  unhex "3366860c77804fe0b4f368b02bb5b0d150821d957e3ba37842da9fc8d336e9d702c8446ecafbd19d79b868702f32405853bc17695873a7306e0ce4573cd9ac0b7fc7dd35534d7635198d152a1802f7d8d6a4bb07600fcdaacfaa1c3f40a09bc02e974c99")).
(* spec_2xb_keyed *)
Check (ltac:(vm_compute; reflexivity) : (XofSpec.blake2x Spec.F2b 100 (count_up 64) (count_up 256) =
  unhex "cb859b35dc70e264efaad2a809fea1e71cd4a3f924be3b5a13f8687a1166b538c40b2ad51d5c3e47b0de482497382673140f547068ff0b3b0fb7501209e1bf36082509ae85f60bb98fd02ac50d883a1a8daa704952d83c1f6da60c9624bc7c99912930bf")).
(* model_2xb *)
Check (ltac:(vm_compute; reflexivity) : (Xof.xof V2b (env_all true) AVX2 71 [] (count_up 256) =
  Ret (unhex "2f28d45cdb35951f9e043335c0df22d53e238a7b2df3bfd74d5656bb7e65f24d12c35fe0254669622edb9f76fe2672a7978dff201aecfd2605b2b326a73a43fd470dff9d8d98bb"))).

(** The examples in the documentation with the literals that are in them: lib.rs:24-42, 132-144, 377-387; many.rs:21-43,
    359-385; blake2bp.rs:9-21, 45-51, 205-216; and in the other crate. *)
Definition words4 := map str ["foo"; "bar"; "baz"; "bing"]%string.
Definition three := map str ["foo"; "bar"; "baz"]%string.
Definition pass (f : platform -> outcome unit) : Prop := map f imps = [Ret tt; Ret tt; Ret tt].
Section DocTests.
Import ApiSpec Docs.
Open Scope string_scope.
Check (ltac:(vm_compute; reflexivity) : pass (fun i => doc_one_shot V2b (env_all true) i foo
  "ca002330e69d3e6b84a46a56a6533fd79d51d97a3bb7cad6c2ff43b354185d6dc1e723fb3db4ae0737e120378424c714bb982d9dc5bbd7a0ab318240ddd18f8d")).
Check (ltac:(vm_compute; reflexivity) : pass (fun i => doc_builder V2b (env_all true) i
  [HashLength 16; Key (str "The Magic Words are Squeamish Ossifrage"); Personal (str "L. P. Waterhouse")] three
  "ee8ff4e9be887297cf79348dc35dab56")).
Check (ltac:(vm_compute; reflexivity) : pass (fun i => doc_p_one_shot V2b (env_all true) i foo
  "8ca9ccee7946afcb686fe7556628b5ba1bf9a691da37ca58cd049354d99f37042c007427e5f219b9ab5063707ec6823872dee413ee014b4d02f2ebb6abb5f643")).
Check (ltac:(vm_compute; reflexivity) : pass (fun i => doc_p_builder V2b (env_all true) i
  [PHashLength 16; PKey (str "The Magic Words are Squeamish Ossifrage")] three "e69c7d2c42a5ac14948772231c68c552")).
Check (ltac:(vm_compute; reflexivity) : pass (fun i => doc_p_builder V2b (env_all true) i [] (firstn 2 three)
  "e654427b6ef02949471712263e59071abbb6aa94855674c1daeed6cfaf127c33dfa3205f7f7f71e4f0673d25fa82a368488911f446bccd323af3ab03f53e56e5")).
Check (ltac:(vm_compute; reflexivity) : pass (fun i => doc_one_shot V2s (env_all true) i foo
  "08d6cad88075de8f192db097573d0e829411cd91eb6ec65e8fc16c017edfdb74")).
Check (ltac:(vm_compute; reflexivity) : pass (fun i => doc_builder V2s (env_all true) i
  [HashLength 16; Key (str "Squeamish Ossifrage"); Personal (str "Shaftoe")] three "28325512782cbf5019424fa65da9a6c7")).
Check (ltac:(vm_compute; reflexivity) : pass (fun i => doc_p_one_shot V2s (env_all true) i foo
  "050dc5786037ea72cb9ed9d0324afcab03c97ec02e8c47368fc5dfb4cf49d8c9")).
Check (ltac:(vm_compute; reflexivity) : pass (fun i => doc_p_builder V2s (env_all true) i
  [PHashLength 16; PKey (str "Squeamish Ossifrage")] three "9a604f1653c25063debb3aeea79671c0")).
Check (ltac:(vm_compute; reflexivity) : pass (fun i => doc_p_builder V2s (env_all true) i [] (firstn 2 three)
  "268120e51df583c61d6bfb7915f1c8ead299696c42f413092cd0b2247e1a388d")).
Check (ltac:(vm_compute; repeat split; reflexivity) : pass (fun i => doc_state V2b (env_all true) i (firstn 2 three)) /\
  pass (fun i => doc_state V2s (env_all true) i (firstn 2 three)) /\
  pass (fun i => doc_update_many V2b (env_all true) i words4) /\ pass (fun i => doc_update_many V2s (env_all true) i words4) /\
  pass (fun i => doc_hash_many V2b (env_all true) i [HashLength 16] words4) /\
  pass (fun i => doc_hash_many V2s (env_all true) i [HashLength 16] words4)).
End DocTests.
