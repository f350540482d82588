#!/usr/bin/env python3
"""Transcribe the tables of util/math_tables.cc into theories/Model/MathTables.v (millionths)."""
import re
src = open('/repo/util/math_tables.cc').read()
out = ['(* The tables of util/math_tables.cc, transcribed by tools/gentables.py.  Every entry is a decimal',
       '   literal with six decimals; it is kept as its number of millionths. *)',
       'From Coq Require Import Floats.SpecFloat.',
       'From Verif.Common Require Import Base F32.',
       'Open Scope Z_scope.', '',
       '(* the float closest to n / 1000000, which is what a compiler makes of the literal *)',
       'Definition micro (n : Z) : f32 :=',
       '  match n with',
       '  | 0 => S754_zero false',
       '  | Z.pos p => fdiv (S754_finite false p 0) (S754_finite false 1000000 0)',
       '  | Z.neg p => fdiv (S754_finite true p 0) (S754_finite false 1000000 0)',
       '  end.', '']
for m in re.finditer(r'InterpArray<float, 2048> (\w+) = \{(.*?)\};', src, re.S):
    name, first, last = m.group(1), src.count('\n', 0, m.start()) + 1, src.count('\n', 0, m.end()) + 1
    ents = [x.strip() for x in m.group(2).replace('\n', ' ').split(',')]
    ents = [x for x in ents if x]
    assert len(ents) == 2048
    ns, neg0 = [], []
    for i, x in enumerate(ents):
        mm = re.fullmatch(r'(-?)(\d+)\.(\d{6})f', x)
        v = int(mm.group(2) + mm.group(3))
        if mm.group(1) and v == 0: neg0.append(i)
        ns.append(-v if mm.group(1) else v)
    out.append('(* %s, lines %d-%d *)' % (name, first, last))
    out.append('Definition %s_micros : list Z := [' % name)
    rows = []
    for i in range(0, 2048, 16):
        rows.append('  ' + '; '.join(str(n) for n in ns[i:i+16]))
    out.append(';\n'.join(rows) + '].')
    if neg0:
        assert len(neg0) == 1
        out.append('(* entry %d is the literal -0.000000f *)' % neg0[0])
        out.append('Definition %s : list f32 := zupd (map micro %s_micros) %d (S754_zero true).' % (name, name, neg0[0]))
    else:
        out.append('Definition %s : list f32 := map micro %s_micros.' % (name, name))
    out.append('')
open('/verif/rocq/theories/Model/MathTables.v', 'w').write('\n'.join(out))
