#!/usr/bin/env python3
"""Generate a property file from a lemma file.

For every `Lemma X_thm ... Proof.` of the lemma file (with the doc comment above
it) emit `Theorem X ... Proof. exact X_thm... Qed. Print Assumptions X.`; blocks
`(*@PROP` ... `@*)` are copied verbatim.

usage: gen_prop.py lemma_file.v prop_file.v
"""
import re, sys, os
src, dst = sys.argv[1:3]
t = open(src).read()
mod = os.path.basename(src)[:-2]
out = []
pat = re.compile(r'\(\*@PROP\n(?P<raw>.*?)@\*\)|(?P<doc>\(\*\*(?:(?!\*\)).)*?\*\)\s*\n)?(?P<lem>Lemma (?P<name>\w+)_thm\b(?P<st>.*?)\nProof\.)', re.S)
for m in pat.finditer(t):
    if m.group('raw') is not None:
        out.append(m.group('raw').rstrip() + '\n')
    else:
        n = m.group('name')
        out.append((m.group('doc') or '') + f"Theorem {n}{m.group('st')}\nProof. exact {n}_thm. Qed.\nPrint Assumptions {n}.\n")
open(dst, 'w').write('\n'.join(out))
print(dst, len(re.findall('Theorem ', '\n'.join(out))))
