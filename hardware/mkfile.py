#!/usr/bin/env python3
"""Turns the lines that the program written by gen.py prints into theories/IntrinsicTests.v.  Usage: mkfile.py LINES > FILE"""
import sys
from collections import OrderedDict
groups = OrderedDict()
for l in open(sys.argv[1]):
    a, b = l.strip().split(' = ')
    groups.setdefault(a.split()[0], []).append((a, b))
print('''(** Tests, not proofs: the meaning that Intrinsics.v and SnevesIntrinsics.v give to the x86 intrinsics, which is
    part of the trusted base, against what a processor answered.  Each pair below is an application of the model
    and the register that the intrinsic of the same name left on an AVX2 machine for the same operands; the pairs were
    printed by a C program (hardware/gen.py writes it, hardware/mkfile.py made this file of its output).  The program
    includes nothing of /repo.  A longer run of the same test, 4540 pairs with every value of every immediate
    operand, had no difference; this is an extract, with the immediates that the code uses and some more.
    No model of code and no property here. *)
From Coq Require Import NArith List Bool.
From Coq Require Import Init.Byte.
From Verif Require Import Base Intrinsics SnevesIntrinsics.
Import ListNotations.

(** A register from its bytes written as one number, most significant first (a modelling device for the tests). *)
Definition rg (n : nat) (x : N) : reg := to_le n x.
(** Equality of registers (a modelling device for the tests). *)
Definition same_reg (a b : reg) : bool :=
  Nat.eqb (length a) (length b) && forallb (fun '(x, y) => N.eqb (b2n x) (b2n y)) (combine a b).
(** All pairs are equal (a modelling device for the tests). *)
Definition agree (l : list (reg * reg)) : bool := forallb (fun '(a, b) => same_reg a b) l.

(** The comparison can fail. *)
Example agree_can_fail : agree [(rg 16 5, rg 16 6)] = false /\\ agree [(rg 16 5, rg 32 5)] = false.
Proof. split; reflexivity. Qed.
''')
for name, pairs in groups.items():
    print('Example hardware_%s : agree [' % name)
    print(';\n'.join('  (%s, %s)' % p for p in pairs))
    print('  ] = true.\nProof. vm_compute. reflexivity. Qed.')
