#!/usr/bin/env python3
"""Writes rocq/theories/GridTables.v from the decimal literals of _grid_cache.py (read as text)."""
import re, os
from decimal import Decimal
root = os.path.dirname(os.path.dirname(os.path.abspath(__file__)))
src = open('/repo/gconv/geometry/groups/_grid_cache.py').read()
lines = src.split('\n')
def lineno(pos): return src.count('\n', 0, pos) + 1
# literals kept as Decimal via a wrapper
i = src.index('= {', src.index('_grid_cache:')) + 2
t = re.sub(r'-?\d+\.\d+(?:e[+-]?\d+)?', lambda m: 'D("%s")' % m.group(0), src[i:]).replace('Tensor(', '(')
d = eval(t, {'D': Decimal})['so3']
pos = {}
for par in ('quat', 'matrix'):
    p = src.index('"%s": {' % par)
    for k in range(1, 25):
        m = re.compile(r'\b%d: Tensor\(' % k).search(src, p)
        pos[par, k] = lineno(m.start()); p = m.end()
def z(x):
    v = x * 10**11
    assert v == int(v)
    v = int(v)
    return str(v) if v >= 0 else '(%d)' % v
o = []
o.append('''(** The pre-computed grids of gconv/geometry/groups/_grid_cache.py:29-2016, generated from the
    decimal literals of the source by tools/gen_tables.py. Numbers are numerators over 10^11. *)
From Coq Require Import ZArith.
From Verif Require Import Prelude RMath Mat.

Record ZQ := zq { zw : Z; zx : Z; zy : Z; zz : Z }.
Record ZM := zm { z00 : Z; z01 : Z; z02 : Z; z10 : Z; z11 : Z; z12 : Z; z20 : Z; z21 : Z; z22 : Z }.
''')
for k in range(1, 25):
    o.append('(** _grid_cache.py:%d, "quat" grid of size %d. *)' % (pos['quat', k], k))
    o.append('Definition zquat_%d : list ZQ :=\n  [%s].\n' % (k, ';\n   '.join('zq ' + ' '.join(map(z, q)) for q in d['quat'][k])))
for k in range(1, 25):
    tb = d['matrix'][k]
    o.append('(** _grid_cache.py:%d, "matrix" grid of size %d%s. *)' % (pos['matrix', k], k,
        ' (a (3,3) tensor in the source, without a batch axis)' if k == 1 else ''))
    if k == 1:
        tb = [tb]
    o.append('Definition zmat_%d : list ZM :=\n  [%s].\n' % (k, ';\n   '.join('zm ' + ' '.join(z(x) for r in m for x in r) for m in tb)))
for nm, ty in (('zquat', 'ZQ'), ('zmat', 'ZM')):
    o.append('Definition %s (n : nat) : list %s :=\n  match n with\n%s\n  | _ => []\n  end.\n' % (
        nm, ty, '\n'.join('  | %d => %s_%d' % (k, nm, k) for k in range(1, 25))))
o.append('''Local Open Scope R_scope.
(** The tensor entry written in the source. *)
Definition dec11 (z : Z) : R := IZR z / 10 ^ 11.
Definition gq_of (q : ZQ) : Q4 := mkQ (dec11 (zw q)) (dec11 (zx q)) (dec11 (zy q)) (dec11 (zz q)).
Definition gm_of (m : ZM) : M3 :=
  mkM3 (dec11 (z00 m)) (dec11 (z01 m)) (dec11 (z02 m)) (dec11 (z10 m)) (dec11 (z11 m)) (dec11 (z12 m))
       (dec11 (z20 m)) (dec11 (z21 m)) (dec11 (z22 m)).
(** The rows of the tabulated grids (sizes 1..24; empty otherwise). *)
Definition table_quat (n : nat) : list Q4 := map gq_of (zquat n).
Definition table_matrix (n : nat) : list M3 := map gm_of (zmat n).
''')
open(os.path.join(root, 'rocq/theories/GridTables.v'), 'w').write('\n'.join(o))
for k in range(1,25): assert len(d['quat'][k])==k and (k==1 or len(d['matrix'][k])==k)
