#!/usr/bin/env python3
"""Write a Properties*.v file from a template.

A template line of the form
    @@ NAME
is replaced by the theorem NAME: its statement is that of the lemma NAME_fact, which some file
under theories/ proves; its proof is `exact NAME_fact.`; Print Assumptions follows.
Everything else is copied."""
import re, sys, glob

facts = {}
for f in glob.glob('/verif/rocq/theories/*.v'):
    s = open(f).read()
    for m in re.finditer(r'^Lemma (\w+)_fact\b(.*?)^Proof\.', s, re.S | re.M):
        facts[m.group(1)] = m.group(2).rstrip()

out = []
for line in open(sys.argv[1]):
    m = re.match(r'@@ (\w+)\s*$', line)
    if not m:
        out.append(line)
        continue
    n = m.group(1)
    out.append('Theorem %s%s\nProof. exact %s_fact. Qed.\nPrint Assumptions %s.\n' % (n, facts[n], n, n))
open(sys.argv[2], 'w').write(''.join(out))
