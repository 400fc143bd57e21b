(** Tests, not proofs: the meaning that Intrinsics.v and SnevesIntrinsics.v give to the x86 intrinsics, which is
    part of the trusted base, against what a processor answered.  Each pair below is an application of the model
    and the register that the intrinsic of the same name left on an AVX2 machine for the same operands; the pairs were
    printed by a C program (hardware/gen.py writes it, hardware/mkfile.py made this file of its output).  The program
    includes nothing of /repo.  A longer run of the same test, 4540 pairs with every value of every immediate
    operand, had no difference; this is an extract, with the immediates that the code uses and some more.
    No model of code and no property here. *)
From Coq Require Import NArith List Bool.
From Coq Require Import Init.Byte.
From Verif Require Import Base Intrinsics SnevesIntrinsics.
Import ListNotations.

(** A register from its bytes written as one number, most significant first (a modelling device for the tests). *)
Definition rg (n : nat) (x : N) : reg := to_le n x.
(** Equality of registers (a modelling device for the tests). *)
Definition same_reg (a b : reg) : bool :=
  Nat.eqb (length a) (length b) && forallb (fun '(x, y) => N.eqb (b2n x) (b2n y)) (combine a b).
(** All pairs are equal (a modelling device for the tests). *)
Definition agree (l : list (reg * reg)) : bool := forallb (fun '(a, b) => same_reg a b) l.

(** The comparison can fail. *)
Example agree_can_fail : agree [(rg 16 5, rg 16 6)] = false /\ agree [(rg 16 5, rg 32 5)] = false.
Proof. split; reflexivity. Qed.

Example hardware_mm_add_epi32 : agree [
  (mm_add_epi32 (rg 16 0xd92e7b23d6de2c136d1dbb302518ca4d) (rg 16 0xd92e7b23d6de2c13441771192518ca4d), rg 16 0xb25cf646adbc5826b1352c494a31949a);
  (mm_add_epi32 (rg 16 0x93e5affd99297c5c7f99b9e8eea0dafe) (rg 16 0x93e5affd0000000000000000eea0dafe), rg 16 0x27cb5ffa99297c5c7f99b9e8dd41b5fc)
  ] = true.
Proof. vm_compute. reflexivity. Qed.
Example hardware_mm256_add_epi32 : agree [
  (mm256_add_epi32 (rg 32 0x007f0001ff807f00807f807f018000007f8000007f017f01808080010100007f) (rg 32 0xd64a0290865df80677764d5a2a4d76c27f8000007f017f015529fec8cb7e4293), rg 32 0xd6c9029185de7706f7f5cdd92bcd76c2ff000000fe02fe02d5aa7ec9cc7e4312);
  (mm256_add_epi32 (rg 32 0xff7f01ff000001800001ff01000000018000ff7fff00ff007f7f007f7f7f7f01) (rg 32 0xff7f01ff000001800001ff01b9690b528000ff7f492b9ff7f5eef93b3ef2bab1), rg 32 0xfefe03fe000003000003fe02b9690b530001fefe482c9ef7756df9babe7239b2)
  ] = true.
Proof. vm_compute. reflexivity. Qed.
Example hardware_mm_add_epi64 : agree [
  (mm_add_epi64 (rg 16 0xf768ac64f074347029bab2e4b06384f1) (rg 16 0xf768ac64000000000000000000000000), rg 16 0xeed158c8f074347029bab2e4b06384f1);
  (mm_add_epi64 (rg 16 0x4d0e4157512bcdedca2caade5bf466c6) (rg 16 0xffffffffffffffffca2caadeffffffff), rg 16 0x4d0e4157512bcdec945955bd5bf466c5)
  ] = true.
Proof. vm_compute. reflexivity. Qed.
Example hardware_mm256_add_epi64 : agree [
  (mm256_add_epi64 (rg 32 0xf248584c025de1094d42d7eab51f43d684a67b956c800e6c63de4734070a434f) (rg 32 0xf248584c000000004d42d7ea00000000000000000000000063de473400000000), rg 32 0xe490b098025de1099a85afd4b51f43d684a67b956c800e6cc7bc8e68070a434f);
  (mm256_add_epi64 (rg 32 0x8149bb4f3e9b6c25db7b25a1e2c83ed546e567847ef4e78d66a6e2200ee73215) (rg 32 0x8149bb4f75392097a9c409e1eaad09bb46e567847ef4e78d527253f90ee73215), rg 32 0x0293769eb3d48cbc853f2f83cd7548908dcacf08fde9cf1ab91936191dce642a)
  ] = true.
Proof. vm_compute. reflexivity. Qed.
Example hardware_mm_cmpeq_epi32 : agree [
  (mm_cmpeq_epi32 (rg 16 0x8722712a852d088925d95d1d8e2da7fd) (rg 16 0x9c9f675c1986523825d95d1dd5ad05e8), rg 16 0x0000000000000000ffffffff00000000);
  (mm_cmpeq_epi32 (rg 16 0x6e9dc9fddd36e47df3610907128009b1) (rg 16 0x6e9dc9fddd36e47d07421bb1cf4765af), rg 16 0xffffffffffffffff0000000000000000)
  ] = true.
Proof. vm_compute. reflexivity. Qed.
Example hardware_mm256_cmpeq_epi32 : agree [
  (mm256_cmpeq_epi32 (rg 32 0x779b990bc915cc492d872e027f668ef32ac3ab005db66f9e117da5a8ba8601e4) (rg 32 0x81f2212f23e90187fa7d09197f668ef344150f2b5db66f9e164a914cfda6c74f), rg 32 0x000000000000000000000000ffffffff00000000ffffffff0000000000000000);
  (mm256_cmpeq_epi32 (rg 32 0x27ea9408f22b9f663ceeeeed9294fa6f3289f81ff606449b82a94b27651793f5) (rg 32 0x27ea9408ffffffff3ceeeeed9294fa6fffffffffffffffff82a94b27ffffffff), rg 32 0xffffffff00000000ffffffffffffffff0000000000000000ffffffff00000000)
  ] = true.
Proof. vm_compute. reflexivity. Qed.
Example hardware_mm_cmpeq_epi64 : agree [
  (mm_cmpeq_epi64 (rg 16 0x489acfe6fb01510cc9f8fe76ba398f43) (rg 16 0x489acfe600ff007f80800080ba398f43), rg 16 0x00000000000000000000000000000000);
  (mm_cmpeq_epi64 (rg 16 0x007f80ff80017f80ffff800000800080) (rg 16 0x7fffff0180017f80ffff800000ff0101), rg 16 0x00000000000000000000000000000000)
  ] = true.
Proof. vm_compute. reflexivity. Qed.
Example hardware_mm256_cmpeq_epi64 : agree [
  (mm256_cmpeq_epi64 (rg 32 0xd3c4d30a6784bc7aa32eaf592e7c6247dae6aae770fe6a2652553dc9f79a7acf) (rg 32 0x0000000000000000a32eaf5900000000dae6aae770fe6a2652553dc9f79a7acf), rg 32 0x00000000000000000000000000000000ffffffffffffffffffffffffffffffff);
  (mm256_cmpeq_epi64 (rg 32 0x13774000142bea374d4f72377fe5efc82500faf2d910410b9fdde4ccc47f8a2f) (rg 32 0x13774000ff630b1c9dd20e7e7fe5efc82500faf2d910410b6299243239df8041), rg 32 0x00000000000000000000000000000000ffffffffffffffff0000000000000000)
  ] = true.
Proof. vm_compute. reflexivity. Qed.
Example hardware_mm_unpacklo_epi32 : agree [
  (mm_unpacklo_epi32 (rg 16 0xf8725ffd37978771ee76639f66fd6922) (rg 16 0xf8725ffd00007fff0100ff007fff0100), rg 16 0x0100ff00ee76639f7fff010066fd6922);
  (mm_unpacklo_epi32 (rg 16 0x3fd7b3298f28013756e2a9bfc19f10ef) (rg 16 0x000000008f28013700000000c19f10ef), rg 16 0x0000000056e2a9bfc19f10efc19f10ef)
  ] = true.
Proof. vm_compute. reflexivity. Qed.
Example hardware_mm256_unpacklo_epi32 : agree [
  (mm256_unpacklo_epi32 (rg 32 0x01988da28616ab8bb9ad2063831f20ed11c014cf7ed20ff2baa562e4be64f219) (rg 32 0x000000008616ab8bb9ad2063000000000000000000000000baa562e4be64f219), rg 32 0xb9ad2063b9ad206300000000831f20edbaa562e4baa562e4be64f219be64f219);
  (mm256_unpacklo_epi32 (rg 32 0x018000007fff8001017f00007fffff7fff010001807f8080ff01ff8000ff7fff) (rg 32 0x80ca21a77fff80017d5f7ee0658582be898f9696807f8080447758e4ffd7316a), rg 32 0x7d5f7ee0017f0000658582be7fffff7f447758e4ff01ff80ffd7316a00ff7fff)
  ] = true.
Proof. vm_compute. reflexivity. Qed.
Example hardware_mm_unpackhi_epi32 : agree [
  (mm_unpackhi_epi32 (rg 16 0x360385e55bbe266361193d779614bfe5) (rg 16 0x360385e55bbe266361193d779614bfe5), rg 16 0x360385e5360385e55bbe26635bbe2663);
  (mm_unpackhi_epi32 (rg 16 0x33d020f7fd1068279f5ebed1a7056813) (rg 16 0x33d020f7007f80807f807fff0001ff01), rg 16 0x33d020f733d020f7007f8080fd106827)
  ] = true.
Proof. vm_compute. reflexivity. Qed.
Example hardware_mm256_unpackhi_epi32 : agree [
  (mm256_unpackhi_epi32 (rg 32 0x9a65fbc43722575291b24a57bd2dcb481a074253ebbacf2e3ad850de0368cfc8) (rg 32 0x9a65fbc4e9c73ca51315627ebd2dcb4850cc156f5df264cf71522cc61ba1f716), rg 32 0x9a65fbc49a65fbc4e9c73ca53722575250cc156f1a0742535df264cfebbacf2e);
  (mm256_unpackhi_epi32 (rg 32 0xffffffffffffffffffffffffffffffffffffffffffffffffffffffffffffffff) (rg 32 0x5181b321715493fb43633821ffffffff28a02a421414e22ebbdcb741ffffffff), rg 32 0x5181b321ffffffff715493fbffffffff28a02a42ffffffff1414e22effffffff)
  ] = true.
Proof. vm_compute. reflexivity. Qed.
Example hardware_mm_unpacklo_epi64 : agree [
  (mm_unpacklo_epi64 (rg 16 0x00000000000000000000000000000000) (rg 16 0x35e7b8183a8756c0a78e52ce00000000), rg 16 0xa78e52ce000000000000000000000000);
  (mm_unpacklo_epi64 (rg 16 0x00a09e8197185a75e229a9b84abcc087) (rg 16 0x9bb5011b97185a75e229a9b84abcc087), rg 16 0xe229a9b84abcc087e229a9b84abcc087)
  ] = true.
Proof. vm_compute. reflexivity. Qed.
Example hardware_mm256_unpacklo_epi64 : agree [
  (mm256_unpacklo_epi64 (rg 32 0x0000000000000000000000000000000000000000000000000000000000000000) (rg 32 0x06351d51795fcf0c1f1600547ffce3b31c0587cd00000000e64c7c074451f3bb), rg 32 0x1f1600547ffce3b30000000000000000e64c7c074451f3bb0000000000000000);
  (mm256_unpacklo_epi64 (rg 32 0x0000000000000000000000000000000000000000000000000000000000000000) (rg 32 0xffffffff00000000ffffffffffffffffffffffffffffffffffffffff00000000), rg 32 0xffffffffffffffff0000000000000000ffffffff000000000000000000000000)
  ] = true.
Proof. vm_compute. reflexivity. Qed.
Example hardware_mm_unpackhi_epi64 : agree [
  (mm_unpackhi_epi64 (rg 16 0x017f01800080800000ff8000ffff7f00) (rg 16 0x017f01800080800067788556072b6f97), rg 16 0x017f018000808000017f018000808000);
  (mm_unpackhi_epi64 (rg 16 0x150f0e48b05236390d104a5727c86c9d) (rg 16 0x150f0e48b0523639c42166ba21172215), rg 16 0x150f0e48b0523639150f0e48b0523639)
  ] = true.
Proof. vm_compute. reflexivity. Qed.
Example hardware_mm256_unpackhi_epi64 : agree [
  (mm256_unpackhi_epi64 (rg 32 0x1b936700df57932e6e18f0b132df0fd30f93f3a4bc189083b30a85d8aca39668) (rg 32 0x57db869b69be0cd82ccacd30b6a735fb293854ffbc18908385b1fd5eaca39668), rg 32 0x57db869b69be0cd81b936700df57932e293854ffbc1890830f93f3a4bc189083);
  (mm256_unpackhi_epi64 (rg 32 0x4dc4643454348460a77852b2a77e4f4f9a886279ecab407683e0ed56a5e64fa7) (rg 32 0x4dc464347575d7dc7c02cf83480bed9771dfcc06ecab40768f363764a5e64fa7), rg 32 0x4dc464347575d7dc4dc464345434846071dfcc06ecab40769a886279ecab4076)
  ] = true.
Proof. vm_compute. reflexivity. Qed.
Example hardware_mm_shuffle_epi8 : agree [
  (mm_shuffle_epi8 (rg 16 0xff018000007f7f0080ff017f01007f7f) (rg 16 0xff018000007f7f0080ff017fe933b266), rg 16 0x007f007f7fffff7f00007fff000100ff);
  (mm_shuffle_epi8 (rg 16 0x622342546cecc870cd9b723787b4d7d6) (rg 16 0x7f807f80ff807fff01807f7f80ffff01), rg 16 0x6200620000006200d7006262000000d7)
  ] = true.
Proof. vm_compute. reflexivity. Qed.
Example hardware_mm256_shuffle_epi8 : agree [
  (mm256_shuffle_epi8 (rg 32 0x55ce6a4eb1e75f7749338096246b0507b047a62b1dc59b4eb92bdbf8f5a49a7d) (rg 32 0x000000000000000000000000246b050700000000000000000000000000000000), rg 32 0x07070707070707070707070796b180497d7d7d7d7d7d7d7d7d7d7d7d7d7d7d7d);
  (mm256_shuffle_epi8 (rg 32 0x007f7f807f807f017f80ff000101ff7fff7fff7f7f00017f7fffff7f80000100) (rg 32 0x007f7f80b595941a7f80ff000101ff7fbb30ad407f00017f7fffff7f170a0eb8), rg 32 0x7f000000000000800000007fffff000000000000ff0001ffff0000ff7f007f00)
  ] = true.
Proof. vm_compute. reflexivity. Qed.
Example hardware_mm_xor_si128 : agree [
  (mm_xor_si128 (rg 16 0x6c2a4bc01ef36117033799cc19cfcc14) (rg 16 0x11d75e9a849e47bc0633d71219cfcc14), rg 16 0x7dfd155a9a6d26ab05044ede00000000);
  (mm_xor_si128 (rg 16 0x6cf12a34d3f34fc60722e4cfd73c14fe) (rg 16 0x6cf12a348d09f1423e6f2d3ed73c14fe), rg 16 0x000000005efabe84394dc9f100000000)
  ] = true.
Proof. vm_compute. reflexivity. Qed.
Example hardware_mm256_xor_si256 : agree [
  (mm256_xor_si256 (rg 32 0x95aa8be7c5f4d553b93b4a55f0e0bca11ef9549f9fc728071f05101a82ebff96) (rg 32 0x9e7766c3f82bb1ff8c4b4893f0e0bca11ef9549fe777c0c6c07edb9e4d07aa1f), rg 32 0x0bdded243ddf64ac357002c6000000000000000078b0e8c1df7bcb84cfec5589);
  (mm256_xor_si256 (rg 32 0x0a8fb00fa14f29edbe36bffc167e4cceb7b9945c2f626c6067f4a484cb7720b5) (rg 32 0xc92d77a3832e3dcbbe36bffc111a0e2ab7b9945c2f626c6031da8f85cb7720b5), rg 32 0xc3a2c7ac2261142600000000076442e40000000000000000562e2b0100000000)
  ] = true.
Proof. vm_compute. reflexivity. Qed.
Example hardware_mm_or_si128 : agree [
  (mm_or_si128 (rg 16 0xbea5f135e1986502a24a331cf784180e) (rg 16 0xbea5f13563ef06497ae156c2f6bf3fc7), rg 16 0xbea5f135e3ff674bfaeb77def7bf3fcf);
  (mm_or_si128 (rg 16 0xff00ff80ff80007fff80807f00007f00) (rg 16 0xff00ff80018000ffff80807fff7fff01), rg 16 0xff00ff80ff8000ffff80807fff7fff01)
  ] = true.
Proof. vm_compute. reflexivity. Qed.
Example hardware_mm256_or_si256 : agree [
  (mm256_or_si256 (rg 32 0x0000000000000000000000000000000000000000000000000000000000000000) (rg 32 0x000000000000000000000000e20849961d53d4940000000000000000833d92f4), rg 32 0x000000000000000000000000e20849961d53d4940000000000000000833d92f4);
  (mm256_or_si256 (rg 32 0xffffffffffffffffffffffffffffffffffffffffffffffffffffffffffffffff) (rg 32 0xffffffffb602be53ffffffff8844f4d1ffffffffabb11cd02105679d62466959), rg 32 0xffffffffffffffffffffffffffffffffffffffffffffffffffffffffffffffff)
  ] = true.
Proof. vm_compute. reflexivity. Qed.
Example hardware_mm_and_si128 : agree [
  (mm_and_si128 (rg 16 0x31090f809f34555d722d7c0a440de4fd) (rg 16 0x388ffcee9f34555d30b334e3440de4fd), rg 16 0x30090c809f34555d30213402440de4fd);
  (mm_and_si128 (rg 16 0xdfab7bcdadb91aca12d7c70954cbec4b) (rg 16 0xffffffffadb91acaffffffffffffffff), rg 16 0xdfab7bcdadb91aca12d7c70954cbec4b)
  ] = true.
Proof. vm_compute. reflexivity. Qed.
Example hardware_mm256_and_si256 : agree [
  (mm256_and_si256 (rg 32 0x9c39931479de063e8033128b88111417e8cbd747730a66dda6235f37ba05d87f) (rg 32 0x6071aa7c79de063e9bebbb6788111417e8cbd747d096433fa6235f37891e3d55), rg 32 0x0031821479de063e8023120388111417e8cbd7475002421da6235f3788041855);
  (mm256_and_si256 (rg 32 0x7f0001800101ffff80807fffff0100807f7f01007f80010001ff000080ff8080) (rg 32 0x7f0001805e99e3c2ff03a4c4c8b495b47f7f0100388fd54c01ff00000234d341), rg 32 0x7f0001800001e3c2800024c4c80000807f7f01003880010001ff000000348000)
  ] = true.
Proof. vm_compute. reflexivity. Qed.
Example hardware_mm_andnot_si128 : agree [
  (mm_andnot_si128 (rg 16 0x7f7f01017f01018001807f0180000000) (rg 16 0x01017f01807f00ff01807f0180000000), rg 16 0x00007e00807e007f0000000000000000);
  (mm_andnot_si128 (rg 16 0xffffffffffffffffffffffffffffffff) (rg 16 0x0000000000000000ffffffffffffffff), rg 16 0x00000000000000000000000000000000)
  ] = true.
Proof. vm_compute. reflexivity. Qed.
Example hardware_mm256_andnot_si256 : agree [
  (mm256_andnot_si256 (rg 32 0x0000000000000000000000000000000000000000000000000000000000000000) (rg 32 0x4a3ed2654988fe59640f0732000000000000000000000000d3606a9400000000), rg 32 0x4a3ed2654988fe59640f0732000000000000000000000000d3606a9400000000);
  (mm256_andnot_si256 (rg 32 0x9be903a1585116727f7a1be116ca701b0ac5e662b220328810568db57949a506) (rg 32 0x007f807f58511672017f800016ca701bff00ff007f7f807fff017fff007f8001), rg 32 0x0016805e000000000005800000000000f50019004d5f8077ef01724a00360001)
  ] = true.
Proof. vm_compute. reflexivity. Qed.
Example hardware_mm256_sub_epi64 : agree [
  (mm256_sub_epi64 (rg 32 0x406cce7ebce18543e77468f3986ac0cf6eb4bc517aefe2418a642f427b4fae0c) (rg 32 0x406cce7eceb690cc4093732d9f2162986eb4bc51a4765a2cc7079f4a7b4fae0c), rg 32 0xffffffffee2af477a6e0f5c5f9495e37ffffffffd6798815c35c8ff800000000);
  (mm256_sub_epi64 (rg 32 0x0080017f80017f01ff01ff8001007fff80ff7fff01007f00ff01800080ff0080) (rg 32 0x8578535980017f01ff01ff8001007fffb22e8f7101007f00ff01800080ff0080), rg 32 0x7b07ae26000000000000000000000000ced0f08e000000000000000000000000)
  ] = true.
Proof. vm_compute. reflexivity. Qed.
Example hardware_mm256_sub_epi32 : agree [
  (mm256_sub_epi32 (rg 32 0x800000ff7f80008000ff7f7f01ffff7f010080ff0101ffff8080ff7f0100ffff) (rg 32 0x7d80922eb704a46100ff7f7f01ffff7f010080ff0101ffffe3a652390100ffff), rg 32 0x027f6ed1c87b5c1f000000000000000000000000000000009cdaad4600000000);
  (mm256_sub_epi32 (rg 32 0x2dcde246537448299950ffd8fd6e19ce36151d7a81bd45bc75a3b65ec2a79e34) (rg 32 0xcd4fdbeb53744829b2e20297c1545a0436151d7a1c249149d91001be6f61f5e1), rg 32 0x607e065b00000000e66efd413c19bfca000000006598b4739c93b4a05345a853)
  ] = true.
Proof. vm_compute. reflexivity. Qed.
Example hardware_mm256_cmpgt_epi64 : agree [
  (mm256_cmpgt_epi64 (rg 32 0x3973ea74fa806030817139675c743a85cae17bb8d5be4b2be571600eaf9946f6) (rg 32 0x00000000000000000000000000000000cae17bb8000000000000000000000000), rg 32 0xffffffffffffffff0000000000000000ffffffffffffffff0000000000000000);
  (mm256_cmpgt_epi64 (rg 32 0x0000000000000000000000000000000000000000000000000000000000000000) (rg 32 0x80ff800000000000000000007fff0100008000ff7f00018000000000ffff017f), rg 32 0xffffffffffffffff000000000000000000000000000000000000000000000000)
  ] = true.
Proof. vm_compute. reflexivity. Qed.
Example hardware_mm256_max_epu32 : agree [
  (mm256_max_epu32 (rg 32 0xaf0c07e3898049c2944c5e842538f90a3ae10ae462b5827c1139a7b633b416fa) (rg 32 0xaf0c07e3898049c2a9efb8566c16439f6ea8b82675c9e5511139a7b633b416fa), rg 32 0xaf0c07e3898049c2a9efb8566c16439f6ea8b82675c9e5511139a7b633b416fa);
  (mm256_max_epu32 (rg 32 0x0369454db2787cbcf6a5ac1eabcfb37db9ae9b24487990b932da66301147b686) (rg 32 0x80ff807fb2787cbcf6a5ac1eabcfb37d00800101808080ff0001ff80017f7f7f), rg 32 0x80ff807fb2787cbcf6a5ac1eabcfb37db9ae9b24808080ff32da66301147b686)
  ] = true.
Proof. vm_compute. reflexivity. Qed.
Example hardware_mm256_min_epu32 : agree [
  (mm256_min_epu32 (rg 32 0xffffffffffffffffffffffffffffffffffffffffffffffffffffffffffffffff) (rg 32 0xffffffff0000000000000000ffffffff000000000000000000000000ffffffff), rg 32 0xffffffff0000000000000000ffffffff000000000000000000000000ffffffff);
  (mm256_min_epu32 (rg 32 0x2f50a8d41ca0a20d06ed83ccfdab2c17d41d59accff80da7a46c0ea5078a6002) (rg 32 0x2f50a8d41ca0a20d06ed83cc438cb98ed41d59ac8475a94eb0d8b9b7078a6002), rg 32 0x2f50a8d41ca0a20d06ed83cc438cb98ed41d59ac8475a94ea46c0ea5078a6002)
  ] = true.
Proof. vm_compute. reflexivity. Qed.
Example hardware_mm_srli_epi32 : agree [
  (mm_srli_epi32 (rg 16 0x2107370da56cebc7b06dffe27cb30e52) 7%N, rg 16 0x00420e6e014ad9d70160dbff00f9661c);
  (mm_srli_epi32 (rg 16 0xb5767bde860a800f72c0d1c0741eb3cd) 8%N, rg 16 0x00b5767b00860a800072c0d100741eb3);
  (mm_srli_epi32 (rg 16 0x02a92d90994588f4506eff988ed9a668) 12%N, rg 16 0x00002a9200099458000506ef0008ed9a);
  (mm_srli_epi32 (rg 16 0x0c9847de5de017b86b1a6ce7a3527ff8) 16%N, rg 16 0x00000c9800005de000006b1a0000a352);
  (mm_srli_epi32 (rg 16 0xabcbadd42ecbed5631b44d9a44044d39) 20%N, rg 16 0x00000abc000002ec0000031b00000440);
  (mm_srli_epi32 (rg 16 0xf93d3821a2180a35dc76451307677810) 24%N, rg 16 0x000000f9000000a2000000dc00000007);
  (mm_srli_epi32 (rg 16 0x5a8b25726eb227feb5394b725b01db45) 25%N, rg 16 0x0000002d000000370000005a0000002d)
  ] = true.
Proof. vm_compute. reflexivity. Qed.
Example hardware_mm256_srli_epi32 : agree [
  (mm256_srli_epi32 (rg 32 0xc1827a0249d1c5c64dc4d6a2d8cc89d2a990e815a60588b9d018641623898707) 7%N, rg 32 0x018304f40093a38b009b89ad01b19913015321d0014c0b1101a030c80047130e);
  (mm256_srli_epi32 (rg 32 0x4871f4b2f286877224a488c920b5c178c2aff0f200e9a1e2a6cf19112c3b657b) 8%N, rg 32 0x004871f400f286870024a4880020b5c100c2aff00000e9a100a6cf19002c3b65);
  (mm256_srli_epi32 (rg 32 0xe639e494ca8c2de79ab6ba34c0804ed13edbb9c3a4165aeb4e587abb5668ba21) 12%N, rg 32 0x000e639e000ca8c20009ab6b000c08040003edbb000a41650004e5870005668b);
  (mm256_srli_epi32 (rg 32 0x94d841672dfc2ee0877b82a58c9c5b1d8400660981c3aebd79fabb42034c59f4) 16%N, rg 32 0x000094d800002dfc0000877b00008c9c00008400000081c3000079fa0000034c);
  (mm256_srli_epi32 (rg 32 0xd4dfecec370dfed4c9c2e42824a86820be6242c57ab483dcd09715bbc0e216be) 20%N, rg 32 0x00000d4d0000037000000c9c0000024a00000be6000007ab00000d0900000c0e);
  (mm256_srli_epi32 (rg 32 0xd51cf7ab661ce86e2dfe340727712e3cebc6a99614cd66760445fbcbe1215af2) 24%N, rg 32 0x000000d5000000660000002d00000027000000eb0000001400000004000000e1);
  (mm256_srli_epi32 (rg 32 0xedbf6a1a43679c83dfc27f9b9d1ad7ca9882c4a02c868c5f0361aba44a19d047) 25%N, rg 32 0x00000076000000210000006f0000004e0000004c000000160000000100000025)
  ] = true.
Proof. vm_compute. reflexivity. Qed.
Example hardware_mm_slli_epi32 : agree [
  (mm_slli_epi32 (rg 16 0xe0708c12a5d12204a01ae966aebb48fa) 7%N, rg 16 0x38460900e89102000d74b3005da47d00);
  (mm_slli_epi32 (rg 16 0xfe2446193fde5c1d6868e3cfe86b6695) 8%N, rg 16 0x24461900de5c1d0068e3cf006b669500);
  (mm_slli_epi32 (rg 16 0x192e6730ee33694a516c9671ff54075c) 12%N, rg 16 0xe67300003694a000c96710004075c000);
  (mm_slli_epi32 (rg 16 0x9e4ea37796e45115441d4fd9e28372d4) 16%N, rg 16 0xa3770000511500004fd9000072d40000);
  (mm_slli_epi32 (rg 16 0x4ced652f72954fc2a710c8764d6da684) 20%N, rg 16 0x52f00000fc2000008760000068400000);
  (mm_slli_epi32 (rg 16 0x2ffe09b2fa94256b3eb4133acdaadc5e) 24%N, rg 16 0xb20000006b0000003a0000005e000000);
  (mm_slli_epi32 (rg 16 0x63b000331099748af047672d9b8ff866) 25%N, rg 16 0x66000000140000005a000000cc000000)
  ] = true.
Proof. vm_compute. reflexivity. Qed.
Example hardware_mm256_slli_epi32 : agree [
  (mm256_slli_epi32 (rg 32 0x53bf27b4d443d331141112ecc9523930e82398385bbaa87ef6e6b3aa5819994d) 7%N, rg 32 0xdf93da0021e9988008897600a91c980011cc1c00dd543f007359d5000ccca680);
  (mm256_slli_epi32 (rg 32 0x307a7a4168ce9165bb8315537defa63c8afe4e3b7a3630854c9bf502a92e56b8) 8%N, rg 32 0x7a7a4100ce91650083155300efa63c00fe4e3b00363085009bf502002e56b800);
  (mm256_slli_epi32 (rg 32 0xec2baf9b596e1532ac257d1f7c776f2b3d9538c9d90f874e572c756bfa1b3607) 12%N, rg 32 0xbaf9b000e153200057d1f00076f2b000538c9000f874e000c756b000b3607000);
  (mm256_slli_epi32 (rg 32 0x53b22fd2bb19652023a8fe13f50122a970656847b04d554b7d2d10d0d2a2055d) 16%N, rg 32 0x2fd2000065200000fe13000022a9000068470000554b000010d00000055d0000);
  (mm256_slli_epi32 (rg 32 0x029cdaad742ccfc2afcac819fc79ea657a7681223b99c5de54ee1b9b8445fefc) 20%N, rg 32 0xaad00000fc20000081900000a6500000122000005de00000b9b00000efc00000);
  (mm256_slli_epi32 (rg 32 0x8ac75ec0156e3d7bd0e25f8a2dab9510eec9b52a6dab4aea99d2d6f33808fa99) 24%N, rg 32 0xc00000007b0000008a000000100000002a000000ea000000f300000099000000);
  (mm256_slli_epi32 (rg 32 0xb99788e3a926d58145c033b480e87d35590004c85360a3ff9dc9b37255b94daa) 25%N, rg 32 0xc600000002000000680000006a00000090000000fe000000e400000054000000)
  ] = true.
Proof. vm_compute. reflexivity. Qed.
Example hardware_mm_srli_epi64 : agree [
  (mm_srli_epi64 (rg 16 0xa611ea4d9fe5c13c1d09bafcff1ec09c) 1%N, rg 16 0x5308f526cff2e09e0e84dd7e7f8f604e);
  (mm_srli_epi64 (rg 16 0x2bd0d70d957b8f58c81760498a0346f7) 16%N, rg 16 0x00002bd0d70d957b0000c81760498a03);
  (mm_srli_epi64 (rg 16 0x9f579d531f6647b118fd52a58eb8fcc2) 24%N, rg 16 0x0000009f579d531f00000018fd52a58e);
  (mm_srli_epi64 (rg 16 0xc9b98537cee0a465f39e8b5fb8c4981b) 32%N, rg 16 0x00000000c9b9853700000000f39e8b5f);
  (mm_srli_epi64 (rg 16 0x27d2f08e4d16a151d1e6683988f1c5a3) 40%N, rg 16 0x000000000027d2f00000000000d1e668);
  (mm_srli_epi64 (rg 16 0x237c87b8b59c1506e6843e93cab9c88c) 48%N, rg 16 0x000000000000237c000000000000e684);
  (mm_srli_epi64 (rg 16 0x5fb3acffc8ccaec9ce3c5a549d38d331) 63%N, rg 16 0x00000000000000000000000000000001)
  ] = true.
Proof. vm_compute. reflexivity. Qed.
Example hardware_mm256_srli_epi64 : agree [
  (mm256_srli_epi64 (rg 32 0x9e726d8b228cc44393c311903f7a714d438c6dcedd780122d321ad6d4493d349) 1%N, rg 32 0x4f3936c59146622149e188c81fbd38a621c636e76ebc00916990d6b6a249e9a4);
  (mm256_srli_epi64 (rg 32 0x58720f906a6f75a9ae9672f738ef1410e41e8ce447ea016fa63e240bb828b830) 16%N, rg 32 0x000058720f906a6f0000ae9672f738ef0000e41e8ce447ea0000a63e240bb828);
  (mm256_srli_epi64 (rg 32 0x0827639054ce3961ae61e8e8dc44f42480a8be1c73d1c7cc392d8c20bfd9890e) 24%N, rg 32 0x0000000827639054000000ae61e8e8dc00000080a8be1c73000000392d8c20bf);
  (mm256_srli_epi64 (rg 32 0xf1ba4e36af34e80fd7b55916359cb5a153b58706d569b520080b9767876465e0) 32%N, rg 32 0x00000000f1ba4e3600000000d7b559160000000053b5870600000000080b9767);
  (mm256_srli_epi64 (rg 32 0x246816ed2c040ec26d38064644df52c4df8e620a80b56bc7803741f3a3ac2af8) 40%N, rg 32 0x000000000024681600000000006d38060000000000df8e620000000000803741);
  (mm256_srli_epi64 (rg 32 0x757a20c3fe3c48f1f07acc56f01b22e1e9e166403235c3b5687c0369f8ecada5) 48%N, rg 32 0x000000000000757a000000000000f07a000000000000e9e1000000000000687c);
  (mm256_srli_epi64 (rg 32 0x2401c336a553495f3135f509ef4e1586d316707bcd18ee130066307c1372c802) 63%N, rg 32 0x0000000000000000000000000000000000000000000000010000000000000000)
  ] = true.
Proof. vm_compute. reflexivity. Qed.
Example hardware_mm_slli_epi64 : agree [
  (mm_slli_epi64 (rg 16 0xdb6a3e6aea5f0c6a03cbea941b272b0f) 1%N, rg 16 0xb6d47cd5d4be18d40797d528364e561e);
  (mm_slli_epi64 (rg 16 0xabfc4b979e9a8cbc2d337a2c30b42c38) 16%N, rg 16 0x4b979e9a8cbc00007a2c30b42c380000);
  (mm_slli_epi64 (rg 16 0x450f1e0b286bd0e9c56d3a1626280362) 24%N, rg 16 0x0b286bd0e90000001626280362000000);
  (mm_slli_epi64 (rg 16 0xe25330c3a60eb299814482e2965c1cdc) 32%N, rg 16 0xa60eb29900000000965c1cdc00000000);
  (mm_slli_epi64 (rg 16 0x28af7a00a8b676ae0ad3067f8ca6f253) 40%N, rg 16 0xb676ae0000000000a6f2530000000000);
  (mm_slli_epi64 (rg 16 0x2dd07d1b6c52ea3e20bbacd9a0123552) 48%N, rg 16 0xea3e0000000000003552000000000000);
  (mm_slli_epi64 (rg 16 0x0e83ae7fc89155e05a3cdc8506936f6c) 63%N, rg 16 0x00000000000000000000000000000000)
  ] = true.
Proof. vm_compute. reflexivity. Qed.
Example hardware_mm256_slli_epi64 : agree [
  (mm256_slli_epi64 (rg 32 0xa5afeb30e358d1ca9b82335be68cfc394826b925072220279bc8222348846b2e) 1%N, rg 32 0x4b5fd661c6b1a394370466b7cd19f872904d724a0e44404e379044469108d65c);
  (mm256_slli_epi64 (rg 32 0x42890797211f722d82c41d31f649175c869f502d2561058eabb36a3673c60f69) 16%N, rg 32 0x0797211f722d00001d31f649175c0000502d2561058e00006a3673c60f690000);
  (mm256_slli_epi64 (rg 32 0xf10f9078bdc132190386f17bbbc47063720fc292547f3955bbbd80bd465abab5) 24%N, rg 32 0x78bdc132190000007bbbc4706300000092547f3955000000bd465abab5000000);
  (mm256_slli_epi64 (rg 32 0x38c06ef771241dad7af0e3b88822613c1fe1da7658f5f83ccf2ffbeb383bf9e0) 32%N, rg 32 0x71241dad000000008822613c0000000058f5f83c00000000383bf9e000000000);
  (mm256_slli_epi64 (rg 32 0x7710f00c055c83f6f33d22b88f6932a2e72643ebef87f42a336ca1577a1cdd1e) 40%N, rg 32 0x5c83f600000000006932a2000000000087f42a00000000001cdd1e0000000000);
  (mm256_slli_epi64 (rg 32 0x2177f7b806540ccd2166a09b6247e092126fe629ea08745dbc15a4c64aba47ff) 48%N, rg 32 0x0ccd000000000000e092000000000000745d00000000000047ff000000000000);
  (mm256_slli_epi64 (rg 32 0x3d7b8546c5f3e8844f007a52bf0bd3af5ad010a4738ae99e67f0626e6cfbbff4) 63%N, rg 32 0x0000000000000000800000000000000000000000000000000000000000000000)
  ] = true.
Proof. vm_compute. reflexivity. Qed.
Example hardware_mm_blend_epi16 : agree [
  (mm_blend_epi16 (rg 16 0x7281d1e72955d877551da445464cd58c) (rg 16 0xc025d746599324940835df1a30d0894d) 204%N, rg 16 0xc025d7462955d8770835df1a464cd58c);
  (mm_blend_epi16 (rg 16 0xbbd279825cc38126df62bdff7ce43b99) (rg 16 0x2ddc77a6ee5caef3e304a76cf11d2583) 240%N, rg 16 0x2ddc77a6ee5caef3df62bdff7ce43b99);
  (mm_blend_epi16 (rg 16 0x1239886e7141bafdc2b8bd7744cdd16a) (rg 16 0xc95209f659a1dfb0b6aae8f027d7cf45) 51%N, rg 16 0x1239886e59a1dfb0c2b8bd7727d7cf45);
  (mm_blend_epi16 (rg 16 0xd3076517e82153829abd647f68953bbd) (rg 16 0x3a0c097987597558027f2b5802230e8b) 3%N, rg 16 0xd3076517e82153829abd647f02230e8b);
  (mm_blend_epi16 (rg 16 0x2a1caa84f5d595a3b225abf04c652d2a) (rg 16 0xd84e1a6048fbaea843861a202e875387) 60%N, rg 16 0x2a1caa8448fbaea843861a204c652d2a);
  (mm_blend_epi16 (rg 16 0xf12f76efe7614d2130f1249f750897c5) (rg 16 0x710c750f1da9d8847bea376e620646de) 192%N, rg 16 0x710c750fe7614d2130f1249f750897c5);
  (mm_blend_epi16 (rg 16 0xcb9eaded731f5043859f685e62e86c94) (rg 16 0xa4650fec7d594d79a619962da11c9ca1) 15%N, rg 16 0xcb9eaded731f5043a619962da11c9ca1)
  ] = true.
Proof. vm_compute. reflexivity. Qed.
Example hardware_mm256_blend_epi32 : agree [
  (mm256_blend_epi32 (rg 32 0x9911ee204213448e2ce9351aa1e4bed6f4a2e6718122f7dfc62336269ff3b93d) (rg 32 0x73f2c5842e3bea7c3fb9addac6587a56d053a124364593101a30c94a2bdfae23) 204%N, rg 32 0x73f2c5842e3bea7c2ce9351aa1e4bed6d053a12436459310c62336269ff3b93d);
  (mm256_blend_epi32 (rg 32 0xa274a713148205b076001cd660ae58a0a44cf0820e7ead36fb634267c9ee935e) (rg 32 0xe91847a358b01cac7a449ddfc2a6819d4d571a7dd206743891c1c9b4bf9abb88) 240%N, rg 32 0xe91847a358b01cac7a449ddfc2a6819da44cf0820e7ead36fb634267c9ee935e);
  (mm256_blend_epi32 (rg 32 0x36b49fb0a3f09ec1f49fcdec651afe2224bd740d0da73c33207fb8ae6decf0ad) (rg 32 0x67d527c250ddbb701d7133b6945e2fdb430cddec113fb9b96a6a7406d5e4f723) 51%N, rg 32 0x36b49fb0a3f09ec11d7133b6945e2fdb24bd740d0da73c336a6a7406d5e4f723);
  (mm256_blend_epi32 (rg 32 0x6ed7778d8445d90fe04e496d4fec6e0b6a1c1bb939085d54c14905fb5fa89aa7) (rg 32 0xd1ac6e57eba348d4232ce200fa1ad98b6eec386759765976827954ae022f1bef) 15%N, rg 32 0x6ed7778d8445d90fe04e496d4fec6e0b6eec386759765976827954ae022f1bef);
  (mm256_blend_epi32 (rg 32 0x2577564af165f18df2f8e1f5d55e973fa162482be46f529e9bdfb6d15274657d) (rg 32 0x3b925dce50ae70a7ccbb4a025098ddcdb5f41503ee4dc8b4abd9b533ce23c4b4) 60%N, rg 32 0x2577564af165f18dccbb4a025098ddcdb5f41503ee4dc8b49bdfb6d15274657d)
  ] = true.
Proof. vm_compute. reflexivity. Qed.
Example hardware_mm_alignr_epi8 : agree [
  (mm_alignr_epi8 (rg 16 0xc682aa3bf4a6b30aba8cfde1f5a50d45) (rg 16 0x62260bc152fd93aa8d06b922c6bd0885) 4%nat, rg 16 0xf5a50d4562260bc152fd93aa8d06b922);
  (mm_alignr_epi8 (rg 16 0xde4c2d49363e87df1d70749f4b471e6b) (rg 16 0x0b133f521c2b139a405b2fd8c5fe1462) 8%nat, rg 16 0x1d70749f4b471e6b0b133f521c2b139a);
  (mm_alignr_epi8 (rg 16 0xd1c8a6de3db865b7655c3652ed3956a7) (rg 16 0xe707e111e41eb34d5c54590cf777e481) 12%nat, rg 16 0x3db865b7655c3652ed3956a7e707e111);
  (mm_alignr_epi8 (rg 16 0x60d4b9020250c459fe48184bcaac0be0) (rg 16 0x51ac86a2a7026c8961c0a152f5aad1c2) 1%nat, rg 16 0xe051ac86a2a7026c8961c0a152f5aad1)
  ] = true.
Proof. vm_compute. reflexivity. Qed.
Example hardware_mm256_alignr_epi8 : agree [
  (mm256_alignr_epi8 (rg 32 0x8e84216d99fc1231bce52983e2de3a8dc034442c02da96d42adb4c17fb2a8cfa) (rg 32 0x5eaf9429f0ed6e11292c0df4e311847fc0b4431b974a173cf2cda2e98eda69bd) 8%nat, rg 32 0xbce52983e2de3a8d5eaf9429f0ed6e112adb4c17fb2a8cfac0b4431b974a173c);
  (mm256_alignr_epi8 (rg 32 0x528464f6ed76c41ea0f0d5326ce3c4209a52711f848072f2725354ac855f3d45) (rg 32 0x913fea68a20ea05bc5a990ff4739c2bc30af53a8fe32bc89fcf0f04655cfa23d) 4%nat, rg 32 0x6ce3c420913fea68a20ea05bc5a990ff855f3d4530af53a8fe32bc89fcf0f046)
  ] = true.
Proof. vm_compute. reflexivity. Qed.
Example hardware_mm_shuffle_epi32 : agree [
  (mm_shuffle_epi32 (rg 16 0x6b05d7207d96996160b85965f6b9bde9) 27%N, rg 16 0xf6b9bde960b859657d9699616b05d720);
  (mm_shuffle_epi32 (rg 16 0x04a08f2cda19880062339238793c6924) 57%N, rg 16 0x793c692404a08f2cda19880062339238);
  (mm_shuffle_epi32 (rg 16 0x220dcfc4a5883e6b34725b67065cb3d4) 78%N, rg 16 0x34725b67065cb3d4220dcfc4a5883e6b);
  (mm_shuffle_epi32 (rg 16 0xb744bbbe52c5da1b0d0bbadb4b8a38d9) 147%N, rg 16 0x52c5da1b0d0bbadb4b8a38d9b744bbbe);
  (mm_shuffle_epi32 (rg 16 0x07edd3fe319e513f384c4d50534882bd) 228%N, rg 16 0x07edd3fe319e513f384c4d50534882bd);
  (mm_shuffle_epi32 (rg 16 0x15f3abdbc6f42f7bb67b027947d8781d) 45%N, rg 16 0x47d8781dc6f42f7b15f3abdbb67b0279);
  (mm_shuffle_epi32 (rg 16 0x9dd828ad2da92a8523655c137ae71971) 198%N, rg 16 0x9dd828ad7ae7197123655c132da92a85)
  ] = true.
Proof. vm_compute. reflexivity. Qed.
Example hardware_mm256_shuffle_epi32 : agree [
  (mm256_shuffle_epi32 (rg 32 0xef7a2ee884dd6b7556cf613418ab14911d503efe1754db36a6dd9c584f7de425) 27%N, rg 32 0x18ab149156cf613484dd6b75ef7a2ee84f7de425a6dd9c581754db361d503efe);
  (mm256_shuffle_epi32 (rg 32 0xfd326381fac33386621d242b4f23dcd5cd1371a9887fabba932cd06533cb7201) 57%N, rg 32 0x4f23dcd5fd326381fac33386621d242b33cb7201cd1371a9887fabba932cd065);
  (mm256_shuffle_epi32 (rg 32 0x2e43015be0e0528dd0bb57b289711b7aa43926175e0c41dff7224840f22095e5) 78%N, rg 32 0xd0bb57b289711b7a2e43015be0e0528df7224840f22095e5a43926175e0c41df);
  (mm256_shuffle_epi32 (rg 32 0x5edcd60b418e71b5bf40acf7689f64e2a29c2bb5154e01712fc23a3b854f78dc) 147%N, rg 32 0x418e71b5bf40acf7689f64e25edcd60b154e01712fc23a3b854f78dca29c2bb5)
  ] = true.
Proof. vm_compute. reflexivity. Qed.
Example hardware_mm_shufflehi_epi16 : agree [
  (mm_shufflehi_epi16 (rg 16 0xa4f78310cd9694c07ff3bfe43c8d9616) 27%N, rg 16 0x94c0cd968310a4f77ff3bfe43c8d9616);
  (mm_shufflehi_epi16 (rg 16 0x1f8b08bb82dd776ab82cb8e89cb7e76d) 57%N, rg 16 0x776a1f8b08bb82ddb82cb8e89cb7e76d);
  (mm_shufflehi_epi16 (rg 16 0x64bd34f95f37f1acae759cdf10d1b8ae) 78%N, rg 16 0x5f37f1ac64bd34f9ae759cdf10d1b8ae)
  ] = true.
Proof. vm_compute. reflexivity. Qed.
Example hardware_mm256_permute4x64_epi64 : agree [
  (mm256_permute4x64_epi64 (rg 32 0xcbe18b393dbf4d62d9da1b5812a97d1f8fb4505d4ea04fd793e0d7ad4316f98a) 27%N, rg 32 0x93e0d7ad4316f98a8fb4505d4ea04fd7d9da1b5812a97d1fcbe18b393dbf4d62);
  (mm256_permute4x64_epi64 (rg 32 0x6c793eeb2ea6123ea4f1777b663296760a69601140aaa43abe05c25fc7c80a82) 57%N, rg 32 0xbe05c25fc7c80a826c793eeb2ea6123ea4f1777b663296760a69601140aaa43a);
  (mm256_permute4x64_epi64 (rg 32 0x853551c6f05974ecc21b06eff5f0899b13c17baa7cd87bcca93b7407b9d59fe1) 78%N, rg 32 0x13c17baa7cd87bcca93b7407b9d59fe1853551c6f05974ecc21b06eff5f0899b);
  (mm256_permute4x64_epi64 (rg 32 0x2b918cabb7c6706b94be3afc3356bcb294e9d2dd02bc5e2e2f22016cec9f2ee1) 147%N, rg 32 0x94be3afc3356bcb294e9d2dd02bc5e2e2f22016cec9f2ee12b918cabb7c6706b);
  (mm256_permute4x64_epi64 (rg 32 0xcda470c00e1dbf54ea587784cfb8e4655201cd71b80bd552ad3aa846a7bb3abd) 228%N, rg 32 0xcda470c00e1dbf54ea587784cfb8e4655201cd71b80bd552ad3aa846a7bb3abd);
  (mm256_permute4x64_epi64 (rg 32 0x29361e54e5fcba40a3e271669a9e8c4438f74494a05745845f59225865f1fe15) 45%N, rg 32 0x5f59225865f1fe15a3e271669a9e8c4429361e54e5fcba4038f74494a0574584);
  (mm256_permute4x64_epi64 (rg 32 0xe1682c998e9551193d0b2421beac430dada0675d7ae82ce175080b5a23884b10) 198%N, rg 32 0xe1682c998e95511975080b5a23884b10ada0675d7ae82ce13d0b2421beac430d)
  ] = true.
Proof. vm_compute. reflexivity. Qed.
Example hardware_mm_shuffle_ps : agree [
  (mm_shuffle_ps (rg 16 0x8f7064e9c0edc349f72e9d74921e028f) (rg 16 0xb60df8b2ecbce16f307217ca9c447e8a) 27%N, rg 16 0x9c447e8a307217cac0edc3498f7064e9);
  (mm_shuffle_ps (rg 16 0x30b47f656bf15ed94e50cffeb1516bcd) (rg 16 0x574046829a00dfa16fc090f63eb28d87) 57%N, rg 16 0x3eb28d87574046826bf15ed94e50cffe);
  (mm_shuffle_ps (rg 16 0xc6de71a24c58d24f3360dfdfefde3095) (rg 16 0x3413e3660832f8e162f352615d334c8e) 78%N, rg 16 0x62f352615d334c8ec6de71a24c58d24f);
  (mm_shuffle_ps (rg 16 0x1e33814e9d5021f535beb158749c6fde) (rg 16 0x72ec9900805dfa862c81822b697f6519) 147%N, rg 16 0x805dfa862c81822b749c6fde1e33814e);
  (mm_shuffle_ps (rg 16 0x12b36b730bfbe737a83a04723ad37cbe) (rg 16 0x6cd0d05b8cf3dfe125d59f72c8d2c6a0) 228%N, rg 16 0x6cd0d05b8cf3dfe1a83a04723ad37cbe);
  (mm_shuffle_ps (rg 16 0x43f06250f9840604dcbc283c7dec6e19) (rg 16 0x184122ac76a6e2c30b9701c94968de99) 45%N, rg 16 0x4968de9976a6e2c343f06250dcbc283c);
  (mm_shuffle_ps (rg 16 0x3ed4ca5bbc0c99222e3b539c97169228) (rg 16 0x8ec9c1f5a466c274de36c4e3f999ed3c) 198%N, rg 16 0x8ec9c1f5f999ed3c2e3b539cbc0c9922)
  ] = true.
Proof. vm_compute. reflexivity. Qed.
Example hardware_mm_slli_si128 : agree [
  (mm_slli_si128 (rg 16 0x798b4cd9574eb98dc7e14e6786e51538) 4%nat, rg 16 0x574eb98dc7e14e6786e5153800000000);
  (mm_slli_si128 (rg 16 0xbac0099acf373420e19be31129d5083e) 8%nat, rg 16 0xe19be31129d5083e0000000000000000);
  (mm_slli_si128 (rg 16 0x80e1d5944624632e29714d0d082df240) 12%nat, rg 16 0x082df240000000000000000000000000)
  ] = true.
Proof. vm_compute. reflexivity. Qed.
Example hardware_mm_srli_si128 : agree [
  (mm_srli_si128 (rg 16 0x5f94fe8e6e20db33391d9cd13118a07b) 4%nat, rg 16 0x000000005f94fe8e6e20db33391d9cd1);
  (mm_srli_si128 (rg 16 0x95a23abc75aefd302b8c99a6e9900adf) 8%nat, rg 16 0x000000000000000095a23abc75aefd30);
  (mm_srli_si128 (rg 16 0x5983280741456883eede7b8cd37ebf9d) 12%nat, rg 16 0x00000000000000000000000059832807)
  ] = true.
Proof. vm_compute. reflexivity. Qed.
Example hardware_mm256_permute2x128_si256 : agree [
  (mm256_permute2x128_si256 (rg 32 0x267b2912eeac48c760caccce92bf64d9c8c86116d6f35e35993159eccc6384b8) (rg 32 0xeec270de06ca69882a9a93a872494f34acf46c4f2d575a5ebc9faaf3eb89b858) 32%N, rg 32 0xacf46c4f2d575a5ebc9faaf3eb89b858c8c86116d6f35e35993159eccc6384b8);
  (mm256_permute2x128_si256 (rg 32 0x52ccb188ec4fcc4af80a3f10be1d6d92e57e2ed6ec320c7b81ce743000c0e106) (rg 32 0x60abfc6b456b417f3a5938a2efece6e4dc8c8582aa1334be18a69463deab2e61) 49%N, rg 32 0x60abfc6b456b417f3a5938a2efece6e452ccb188ec4fcc4af80a3f10be1d6d92);
  (mm256_permute2x128_si256 (rg 32 0xdc13a5041dcad4fb9cad79d2194676d32cd2f6090fe72226e4591d5817f6e4aa) (rg 32 0x9bf03b0cddfe34cf32fb35c0ff21d185c406a1c132bffcfad81c300d06ab7167) 3%N, rg 32 0x2cd2f6090fe72226e4591d5817f6e4aa9bf03b0cddfe34cf32fb35c0ff21d185);
  (mm256_permute2x128_si256 (rg 32 0x86540f7d1ea44b0794179bf44aebdc0ecc789da91a9734c1efb37ef2018dd717) (rg 32 0x149b44c24f24a8a720cb00533e1afc8a09bd9359e54eb1c5e07e3348a673c379) 131%N, rg 32 0x00000000000000000000000000000000149b44c24f24a8a720cb00533e1afc8a);
  (mm256_permute2x128_si256 (rg 32 0x673e0a7c4dbe455d808de54ac9a05e42a7e05d31841b00759d4e6e3df949eb3e) (rg 32 0x66aecb0f3be6d11ae87e402acd2e03256a525ccdb22f36e251ee9032a59c039c) 40%N, rg 32 0x6a525ccdb22f36e251ee9032a59c039c00000000000000000000000000000000);
  (mm256_permute2x128_si256 (rg 32 0xca84fd83dae320e63c2dc29bf66090e3a6df6d3c9590d69522c541b9e8b1df7b) (rg 32 0xbffe8c0cd308825847f493efe4a69341d29d4fc82b3fc0afc3f60361dd507634) 18%N, rg 32 0xca84fd83dae320e63c2dc29bf66090e3d29d4fc82b3fc0afc3f60361dd507634)
  ] = true.
Proof. vm_compute. reflexivity. Qed.
Example hardware_mm256_broadcastsi128_si256 : agree [
  (mm256_broadcastsi128_si256 (rg 16 0xdde8bed467c09e712d2f64d2ef0ada6d), rg 32 0xdde8bed467c09e712d2f64d2ef0ada6ddde8bed467c09e712d2f64d2ef0ada6d);
  (mm256_broadcastsi128_si256 (rg 16 0x18ba4fcaf3ce9cca58aa6d43e362546c), rg 32 0x18ba4fcaf3ce9cca58aa6d43e362546c18ba4fcaf3ce9cca58aa6d43e362546c)
  ] = true.
Proof. vm_compute. reflexivity. Qed.
Example hardware_mm256_blendv_epi8 : agree [
  (mm256_blendv_epi8 (rg 32 0x98ff796e2898b11c511b69ff13e4fca1c580a8da7a57d6b3d3e43a9d237337c7) (rg 32 0x80ff7f80807f0080511b69ffff7f8001ff00808001ff7f00d3e43a9d237337c7) (rg 32 0x80017f0180ff80ff01ff7f80807f7f00008001ff7f800100ff01808080ff0001), rg 32 0x80ff796e807f0080511b69ffffe4fca1c500a8807affd6b3d3e43a9d237337c7);
  (mm256_blendv_epi8 (rg 32 0x807f018000ff008000ff7f00800180ffffff0101017f80ffff807fff8001ff80) (rg 32 0x000000000000000000ff7f000000000000000000000000000000000000000000) (rg 32 0xdf5fb3c32b16772c8b8c90a5653398b6cb3c839c17e8aefa7b62dc2884540b16), rg 32 0x007f000000ff008000ff7f008001000000ff000001000000ff8000ff0001ff80)
  ] = true.
Proof. vm_compute. reflexivity. Qed.
Example hardware_mm_set1_epi32 : agree [
  (mm_set1_epi32 2147483648%N, rg 16 0x80000000800000008000000080000000);
  (mm_set1_epi32 4294967295%N, rg 16 0xffffffffffffffffffffffffffffffff)
  ] = true.
Proof. vm_compute. reflexivity. Qed.
Example hardware_mm_set1_epi64x : agree [
  (mm_set1_epi64x 18198157818014315232%N, rg 16 0xfc8cd81e153db2e0fc8cd81e153db2e0);
  (mm_set1_epi64x 0%N, rg 16 0x00000000000000000000000000000000)
  ] = true.
Proof. vm_compute. reflexivity. Qed.
Example hardware_mm256_set1_epi32 : agree [
  (mm256_set1_epi32 2470966731%N, rg 32 0x9347f5cb9347f5cb9347f5cb9347f5cb9347f5cb9347f5cb9347f5cb9347f5cb);
  (mm256_set1_epi32 4294967295%N, rg 32 0xffffffffffffffffffffffffffffffffffffffffffffffffffffffffffffffff)
  ] = true.
Proof. vm_compute. reflexivity. Qed.
Example hardware_mm256_set1_epi64x : agree [
  (mm256_set1_epi64x 9223372036854775808%N, rg 32 0x8000000000000000800000000000000080000000000000008000000000000000);
  (mm256_set1_epi64x 10649849763186074779%N, rg 32 0x93cbddef2dfbe49b93cbddef2dfbe49b93cbddef2dfbe49b93cbddef2dfbe49b)
  ] = true.
Proof. vm_compute. reflexivity. Qed.
Example hardware_mm_setr_epi32 : agree [
  (mm_setr_epi32 4294967295%N 0%N 0%N 2101666509%N, rg 16 0x7d44e2cd0000000000000000ffffffff);
  (mm_setr_epi32 0%N 0%N 2147483648%N 2147483648%N, rg 16 0x80000000800000000000000000000000)
  ] = true.
Proof. vm_compute. reflexivity. Qed.
Example hardware_mm256_setr_epi32 : agree [
  (mm256_setr_epi32 0%N 2147483648%N 3339178071%N 4294967295%N 0%N 2147483648%N 0%N 2147483648%N, rg 32 0x80000000000000008000000000000000ffffffffc707d0578000000000000000);
  (mm256_setr_epi32 2147483648%N 710372218%N 1599346158%N 4294967295%N 0%N 110242385%N 0%N 4294967295%N, rg 32 0xffffffff0000000006922a5100000000ffffffff5f5415ee2a576b7a80000000)
  ] = true.
Proof. vm_compute. reflexivity. Qed.
Example hardware_mm256_setr_epi64x : agree [
  (mm256_setr_epi64x 0%N 9223372036854775808%N 413903508707532554%N 0%N, rg 32 0x000000000000000005be7b0c57ccdf0a80000000000000000000000000000000);
  (mm256_setr_epi64x 15119230729472104018%N 0%N 9223372036854775808%N 18446744073709551615%N, rg 32 0xffffffffffffffff80000000000000000000000000000000d1d24c3e4b5ad652)
  ] = true.
Proof. vm_compute. reflexivity. Qed.
Example hardware_mm_set_epi64x : agree [
  (mm_set_epi64x 0%N 18446744073709551615%N, rg 16 0x0000000000000000ffffffffffffffff);
  (mm_set_epi64x 0%N 9223372036854775808%N, rg 16 0x00000000000000008000000000000000)
  ] = true.
Proof. vm_compute. reflexivity. Qed.
Example hardware_mm256_set_epi64x : agree [
  (mm256_set_epi64x 0%N 18446744073709551615%N 9223372036854775808%N 9223372036854775808%N, rg 32 0x0000000000000000ffffffffffffffff80000000000000008000000000000000);
  (mm256_set_epi64x 0%N 0%N 0%N 6822072393379092591%N, rg 32 0x0000000000000000000000000000000000000000000000005eacdeb2675c186f)
  ] = true.
Proof. vm_compute. reflexivity. Qed.
Example hardware_mm_set_epi32 : agree [
  (mm_set_epi32 4294967295%N 4294967295%N 1094884846%N 4294967295%N, rg 16 0xffffffffffffffff41429deeffffffff);
  (mm_set_epi32 4294967295%N 2147483648%N 3712145653%N 3286822116%N, rg 16 0xffffffff80000000dd42d8f5c3e8ece4)
  ] = true.
Proof. vm_compute. reflexivity. Qed.
Example hardware_mm256_set_epi32 : agree [
  (mm256_set_epi32 4294967295%N 0%N 2147483648%N 4294967295%N 4294967295%N 1210862300%N 4294967295%N 0%N, rg 32 0xffffffff0000000080000000ffffffffffffffff482c4adcffffffff00000000);
  (mm256_set_epi32 4294967295%N 2617749440%N 4294967295%N 2147483648%N 81188376%N 0%N 2147483648%N 4294967295%N, rg 32 0xffffffff9c07afc0ffffffff8000000004d6d6180000000080000000ffffffff)
  ] = true.
Proof. vm_compute. reflexivity. Qed.
Example hardware_set_epi8 : agree [
  (set_epi8 [187; 59; 188; 175; 61; 92; 218; 128; 44; 228; 255; 156; 187; 21; 175; 215]%N, rg 16 0xbb3bbcaf3d5cda802ce4ff9cbb15afd7);
  (set_epi8 [134; 92; 243; 255; 168; 68; 125; 132; 50; 120; 126; 126; 17; 100; 121; 66; 253; 179; 255; 191; 29; 98; 118; 217; 243; 96; 23; 175; 21; 43; 140; 178]%N, rg 32 0x865cf3ffa8447d8432787e7e11647942fdb3ffbf1d6276d9f36017af152b8cb2);
  (set_epi8 [162; 28; 74; 140; 63; 190; 177; 175; 78; 233; 235; 22; 173; 155; 164; 51]%N, rg 16 0xa21c4a8c3fbeb1af4ee9eb16ad9ba433);
  (set_epi8 [161; 28; 180; 206; 182; 185; 230; 140; 70; 36; 156; 43; 99; 220; 20; 20; 144; 92; 210; 46; 68; 127; 52; 71; 226; 0; 121; 26; 115; 5; 121; 78]%N, rg 32 0xa11cb4ceb6b9e68c46249c2b63dc1414905cd22e447f3447e200791a7305794e)
  ] = true.
Proof. vm_compute. reflexivity. Qed.
Example hardware_mm256_setr_epi8 : agree [
  (mm256_setr_epi8 [60; 248; 76; 89; 49; 76; 192; 64; 155; 111; 171; 240; 40; 245; 173; 203; 106; 176; 10; 251; 250; 102; 101; 60; 235; 114; 51; 172; 76; 52; 97; 162]%N, rg 32 0xa261344cac3372eb3c6566fafb0ab06acbadf528f0ab6f9b40c04c31594cf83c);
  (mm256_setr_epi8 [193; 76; 80; 203; 245; 142; 2; 118; 161; 155; 249; 17; 186; 223; 64; 230; 66; 169; 3; 250; 76; 4; 172; 244; 203; 190; 14; 252; 23; 63; 240; 39]%N, rg 32 0x27f03f17fc0ebecbf4ac044cfa03a942e640dfba11f99ba176028ef5cb504cc1)
  ] = true.
Proof. vm_compute. reflexivity. Qed.
Example hardware_mm256_setzero_si256 : agree [
  (mm256_setzero_si256, rg 32 0x0000000000000000000000000000000000000000000000000000000000000000);
  (mm256_setzero_si256, rg 32 0x0000000000000000000000000000000000000000000000000000000000000000)
  ] = true.
Proof. vm_compute. reflexivity. Qed.
Example hardware_mm256_i32gather_epi64 : agree [
  (mm256_i32gather_epi64 (rg 64 0x8ed743ce4a59fbfc45cf15ff351dd6de01b9d3f9438a0e4b7c6b6aec458a158ad20e8c81e0f90840162a2060d9b068285afa600c9aaf8af1ecc4981635d228b9) (rg 16 0x00000001000000030000000100000004) 8, rg 32 0x5afa600c9aaf8af1d20e8c81e0f908405afa600c9aaf8af17c6b6aec458a158a);
  (mm256_i32gather_epi64 (rg 64 0x9ca8a9ad39c6b2b403a838bd8a7659fa0e5fa5ee3114cd92ede8f15699c799d6071c928ccd0bae717b717a6ad840b03fd326dc6ff9b19de3e328e58577a4cc2d) (rg 16 0x00000001000000000000000200000002) 8, rg 32 0xd326dc6ff9b19de3e328e58577a4cc2d7b717a6ad840b03f7b717a6ad840b03f)
  ] = true.
Proof. vm_compute. reflexivity. Qed.
Example hardware_mm_i32gather_epi32 : agree [
  (mm_i32gather_epi32 (rg 64 0x3aa508e12e98be85da4bc8b97add22d7daa8421bd7fc0389184bab3c36e16b3cab6ab01555f0ed49699ad06cf7f42f115cd6183f74a076a82f08466e5d32baeb) (rg 16 0x000000050000000e0000000f0000000c) 4, rg 16 0x699ad06c2e98be853aa508e17add22d7);
  (mm_i32gather_epi32 (rg 64 0x41432f0162db97d2d15eafe04a1d0c2b65d180f2ae8c5b78e6ea274932b28224ad30ea791e19bc0882970cd5b10983c325b887260d81a984d16ebf013570a0ec) (rg 16 0x00000000000000050000000e00000008) 4, rg 16 0x3570a0ec82970cd562db97d232b28224)
  ] = true.
Proof. vm_compute. reflexivity. Qed.
Example hardware_mm256_i32gather_epi32 : agree [
  (mm256_i32gather_epi32 (rg 64 0x4c9c5769a43fe511af59d2803809a721a95de12ea66fafe1753e7fd1d7043342f2e3236ed91e4aebb23abb5f773bc6e3f082e57b781da5ee921a4d077a12bb3d) (rg 32 0x0000000e0000000800000009000000040000000e000000080000000800000008) 4, rg 32 0xa43fe511d7043342753e7fd1773bc6e3a43fe511d7043342d7043342d7043342);
  (mm256_i32gather_epi32 (rg 64 0x49dffdc8e47e7972bea8513093ed5ffed846c1f1f1d32a41bd7b2535fce731335ee5c2a550f1cd53f3a1dea639e03272753775266be6367b7986dc1e09a3ba0d) (rg 32 0x000000030000000900000002000000020000000a0000000b0000000700000006) 4, rg 32 0x75377526bd7b25356be6367b6be6367bf1d32a41d846c1f15ee5c2a550f1cd53)
  ] = true.
Proof. vm_compute. reflexivity. Qed.
