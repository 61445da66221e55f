#!/usr/bin/env python3
"""Writes rocq/theories/CudaFftTable.v from concrete-cuda/cuda/src/fft/twiddles.cu: each decimal constant rounded to a double,
as the compiler does, times 2^64."""
import re, os
from fractions import Fraction
src = open('/repo/concrete-cuda/cuda/src/fft/twiddles.cu').read()
pairs = re.findall(r'\{\s*(-?[0-9.e-]+)\s*,\s*(-?[0-9.e-]+)\s*\}', src)
assert len(pairs) == 4096
def z(s):
    v = Fraction(float(s)) * 2**64
    assert v.denominator == 1
    return int(v)
rows = [(z(a), z(b)) for a, b in pairs]
out = os.path.join(os.path.dirname(__file__), '..', 'rocq', 'theories', 'CudaFftTable.v')
with open(out, 'w') as f:
    f.write('(** * The constants of the Fourier transforms of the CUDA backend\n    /repo/concrete-cuda/cuda/src/fft/twiddles.cu:3-4099: the table negtwiddles, each constant rounded to a double, as the compiler does,\n    and multiplied by 2^64.  Written by tools/gen_twiddles.py. *)\n')
    f.write('From Coq Require Import ZArith List.\nImport ListNotations.\nLocal Open Scope Z_scope.\n')
    f.write('Definition negtwiddles_scaled : list (Z * Z) :=\n[' + ';\n'.join('(%d,%d)' % r for r in rows) + '].\n')
