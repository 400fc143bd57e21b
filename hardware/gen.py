#!/usr/bin/env python3
"""Writes a C program that runs every intrinsic of Intrinsics.v and SnevesIntrinsics.v on this machine's CPU and prints
the operands and results as Coq examples.  Usage: gen.py SEED ROUNDS ALL_IMMEDIATES > hw.c; gcc -O1 -mavx2 hw.c; ./a.out"""
import random, sys
seed, rounds, allimm = int(sys.argv[1]), int(sys.argv[2]), int(sys.argv[3])
R = random.Random(seed)
def reg(n, kind):
    if kind == 0: return [R.randrange(256) for _ in range(n)]
    if kind == 1: return [R.choice([0, 255, 128, 127, 1]) for _ in range(n)]
    return [R.choice([0, 255])] * n
def pair(n):
    a = reg(n, R.choice([0, 0, 0, 1, 2])); b = reg(n, R.choice([0, 0, 0, 1, 2]))
    for i in range(0, n, 4):
        if R.random() < 0.4: b[i:i+4] = a[i:i+4]
    return a, b
out = []
def c_reg(name, l): out.append('  static const unsigned char %s[%d] = {%s};' % (name, len(l), ','.join(map(str, l))))
cnt = 0
def test(coq, width, args, call, imms='', rtype=None):
    """args: list of byte lists; call: C expression over r0.. ; coq: Coq expression with {0}.. for the registers"""
    global cnt
    cnt += 1
    out.append('{')
    names = []
    for i, a in enumerate(args):
        c_reg('a%d' % i, a)
        n = len(a)
        if n == 16: out.append('  __m128i r%d = _mm_loadu_si128((const __m128i *)a%d);' % (i, i))
        elif n == 32: out.append('  __m256i r%d = _mm256_loadu_si256((const __m256i *)a%d);' % (i, i))
    out.append('  unsigned char res[32];')
    if width == 16: out.append('  _mm_storeu_si128((__m128i *)res, %s);' % call)
    else: out.append('  _mm256_storeu_si256((__m256i *)res, %s);' % call)
    text = coq.format(*['(rg %d 0x%s)' % (len(a), bytes(reversed(a)).hex()) for a in args]).replace('%', '%%')
    out.append('  printf("  %s = rg %d 0x"); for (int i = %d; i >= 0; i--) printf("%%02x", res[i]); printf("\\n");' % (text, width, width - 1))
    out.append('}')
def two(name, w):
    for _ in range(rounds):
        a, b = pair(w)
        test('%s {0} {1}' % name, w, [a, b], '_%s(r0, r1)' % name)
def one_imm(name, w, imms, cast='%N'):
    for k in imms:
        test('%s {0} %d%s' % (name, k, cast), w, [reg(w, 0)], '_%s(r0, %d)' % (name, k))
def two_imm(name, w, imms, cast='%N'):
    for k in imms:
        test('%s {0} {1} %d%s' % (name, k, cast), w, [reg(w, 0), reg(w, 0)], '_%s(r0, r1, %d)' % (name, k))
def imm(n, some): return range(n) if allimm else some
for n in ['add_epi32', 'add_epi64', 'cmpeq_epi32', 'cmpeq_epi64', 'unpacklo_epi32', 'unpackhi_epi32', 'unpacklo_epi64', 'unpackhi_epi64', 'shuffle_epi8']:
    two('mm_' + n, 16); two('mm256_' + n, 32)
for n in ['xor', 'or', 'and', 'andnot']:
    two('mm_%s_si128' % n, 16); two('mm256_%s_si256' % n, 32)
for n in ['sub_epi64', 'sub_epi32', 'cmpgt_epi64', 'max_epu32', 'min_epu32']:
    two('mm256_' + n, 32)
for b, ks in [(32, [7, 8, 12, 16, 20, 24, 25]), (64, [1, 16, 24, 32, 40, 48, 63])]:
    for d in ['srli', 'slli']:
        one_imm('mm_%s_epi%d' % (d, b), 16, imm(b, ks)); one_imm('mm256_%s_epi%d' % (d, b), 32, imm(b, ks))
S = [0x1b, 0x39, 0x4e, 0x93, 0xe4, 0x2d, 0xc6]
two_imm('mm_blend_epi16', 16, imm(256, [0xcc, 0xf0, 0x33, 0x03, 0x3c, 0xc0, 0x0f]))
two_imm('mm256_blend_epi32', 32, imm(256, [0xcc, 0xf0, 0x33, 0x0f, 0x3c]))
two_imm('mm_alignr_epi8', 16, imm(17, [4, 8, 12, 1]), '%nat'); two_imm('mm256_alignr_epi8', 32, imm(17, [8, 4]), '%nat')
one_imm('mm_shuffle_epi32', 16, imm(256, S)); one_imm('mm256_shuffle_epi32', 32, imm(256, S[:4]))
one_imm('mm_shufflehi_epi16', 16, imm(256, S[:3])); one_imm('mm256_permute4x64_epi64', 32, imm(256, S))
for k in imm(256, S):
    test('mm_shuffle_ps {0} {1} %d%%N' % k, 16, [reg(16, 0), reg(16, 0)], '_mm_castps_si128(_mm_shuffle_ps(_mm_castsi128_ps(r0), _mm_castsi128_ps(r1), %d))' % k)
one_imm('mm_slli_si128', 16, imm(17, [4, 8, 12]), '%nat'); one_imm('mm_srli_si128', 16, imm(17, [4, 8, 12]), '%nat')
two_imm('mm256_permute2x128_si256', 32, imm(256, [0x20, 0x31, 0x03, 0x83, 0x28, 0x12]))
for _ in range(rounds):
    test('mm256_broadcastsi128_si256 {0}', 32, [reg(16, 0)], '_mm256_broadcastsi128_si256(r0)')
    a, b = pair(32); test('mm256_blendv_epi8 {0} {1} {2}', 32, [a, b, reg(32, R.choice([0, 1]))], '_mm256_blendv_epi8(r0, r1, r2)')
    def num(bits): return R.choice([R.getrandbits(bits), 0, 2**bits - 1, 2**(bits-1)])
    for name, w, bits, n in [('mm_set1_epi32', 16, 32, 1), ('mm_set1_epi64x', 16, 64, 1), ('mm256_set1_epi32', 32, 32, 1), ('mm256_set1_epi64x', 32, 64, 1),
                             ('mm_setr_epi32', 16, 32, 4), ('mm256_setr_epi32', 32, 32, 8), ('mm256_setr_epi64x', 32, 64, 4), ('mm_set_epi64x', 16, 64, 2),
                             ('mm256_set_epi64x', 32, 64, 4), ('mm_set_epi32', 16, 32, 4), ('mm256_set_epi32', 32, 32, 8)]:
        xs = [num(bits) for _ in range(n)]
        ty = 'int' if bits == 32 else 'long long'
        test(name + ''.join(' %d%%N' % x for x in xs), w, [], '_%s(%s)' % (name, ', '.join('(%s)%dULL' % (ty, x) for x in xs)))
    for name, w in [('mm_set_epi8', 16), ('mm256_set_epi8', 32), ('mm256_setr_epi8', 32)]:
        xs = reg(w, 0)
        coq = {'mm_set_epi8': 'set_epi8', 'mm256_set_epi8': 'set_epi8'}.get(name, name)
        test(coq + ' [%s]%%N' % '; '.join(map(str, xs)), w, [], '_%s(%s)' % (name, ', '.join('(char)%d' % x for x in xs)))
    test('mm256_setzero_si256', 32, [], '_mm256_setzero_si256()')
    for name, w, ity, n, sz, scale, cty in [('mm256_i32gather_epi64', 32, 16, 4, 8, 8, 'long long'), ('mm_i32gather_epi32', 16, 16, 4, 4, 4, 'int'), ('mm256_i32gather_epi32', 32, 32, 8, 4, 4, 'int')]:
        lim = (32 if False else 64) // scale - 1
        mem = reg(64, 0)
        idx = []
        for _ in range(n): idx += list(R.randrange(lim + 1).to_bytes(4, 'little'))
        test('%s {0} {1} %d' % (name, scale), w, [mem, idx], '_%s((const %s *)a0, r1, %d)' % (name, cty, scale))
print('#include <immintrin.h>\n#include <stdio.h>\nint main(void) {')
print('\n'.join(out)); print('return 0; }')
sys.stderr.write('%d cases\n' % cnt)
