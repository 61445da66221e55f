#!/usr/bin/env python3
"""Transcribes the constants of /repo/.../ntt/private/math/params/params_{32,64}_*.rs into Rocq lists."""
import re, os
P = '/repo/concrete-core/src/backends/ntt/private/math/params/'
OUT = os.path.join(os.path.dirname(os.path.abspath(__file__)), '../rocq/theories/')
for w in (32, 64):
    o = [f'(** * The tables of the transform for {w}-bit words.  Generated by tools/gen_ntt_tables.py. *)',
         'From Coq Require Import ZArith List.', 'Import ListNotations.', 'Local Open Scope Z_scope.', '']
    for n in (128, 256, 512, 1024, 2048, 4096):
        f = f'params_{w}_{n}.rs'
        src = open(P + f).read()
        o.append(f'(** {P}{f} *)')
        for m in re.finditer(r'pub const (\w+): u\d+ = (\d+);', src):
            o.append(f'Definition {m.group(1)} : Z := {m.group(2)}.')
        for m in re.finditer(r'pub const (\w+): \[u\d+; \d+\] = \[([^\]]*)\];', src):
            l = re.findall(r'\d+', m.group(2))
            o.append(f'Definition {m.group(1)} : list Z := [')
            for i in range(0, len(l), 8):
                o.append('  ' + '; '.join(l[i:i+8]) + (';' if i + 8 < len(l) else ''))
            o.append('].')
        o.append('')
    open(OUT + f'NttTables{w}.v', 'w').write('\n'.join(o))
