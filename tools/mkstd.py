#!/usr/bin/env python3
"""Writes the coefficient tables of the two standards in the layout in which they are printed (one
row per term, per component, per pair) to rocq/theories/StdDetail.v and StdGerg.v.  The numbers are
those of /repo/src read as text; the Coq side shows that the program's arrays hold them."""
import re, os
OUT = os.path.join(os.path.dirname(os.path.abspath(__file__)), '..', 'rocq', 'theories')
def num(s):
    s = s.strip().replace('_', '')
    neg = s.startswith('-'); s = s.lstrip('-')
    m = re.fullmatch(r'(\d+)(?:\.(\d*))?(?:[eE]([+-]?\d+))?', s)
    fp = (m.group(2) or '').rstrip('0'); v = int(m.group(1) + fp); e = int(m.group(3) or 0) - len(fp)
    if v == 0: return (0, 0)
    return (-v if neg else v, e)
def lit(p): return 'L %s %s' % tuple('(%d)' % z if z < 0 else '%d' % z for z in p)
def const(src, name):
    body = re.search(r'const %s: [^=]* = (\[.*?\n?\]);' % name, src, re.S).group(1)
    st = [[]]
    for t in re.findall(r'\[|\]|[^\s,\[\]]+', re.sub(r'//.*', '', body)):
        if t == '[': st.append([])
        elif t == ']': x = st.pop(); st[-1].append(x)
        else: st[-1].append(num(t))
    return st[0][0]
NAMES = ['methane', 'nitrogen', 'carbon dioxide', 'ethane', 'propane', 'isobutane', 'n-butane', 'isopentane', 'n-pentane', 'hexane', 'heptane',
  'octane', 'nonane', 'decane', 'hydrogen', 'oxygen', 'carbon monoxide', 'water', 'hydrogen sulfide', 'helium', 'argon']
one = (1, 0)
# ---------------------------------------------------------------- DETAIL
d = open('/repo/src/detail.rs').read()
C = {n: const(d, n) for n in 'AN BN KN UN FN GN QN SN WN MMI EI KI GI QI FI SI WI EIJ UIJ KIJ GIJ'.split()}
o = '''(* The tables of the DETAIL equation as printed in AGA Report No. 8 Part 1 / ISO 20765-1: one row per
   term, per component and per pair.  Written by tools/mkstd.py; shares nothing with the model. *)
From Coq Require Import ZArith List.
From Verif Require Import FArith.
Import ListNotations.

(* term n: a_n, u_n, then b_n, k_n and the flags g_n, q_n, f_n, s_n, w_n *)
Definition TERMS : list (lit * lit * list nat) := ([
'''
i = lambda p: str(p[0] * 10 ** p[1])
o += ';\n'.join('  (%s, %s, [%s])' % (lit(C['AN'][n]), lit(C['UN'][n]), '; '.join(i(C[k][n]) for k in ('BN', 'KN', 'GN', 'QN', 'FN', 'SN', 'WN'))) for n in range(58))
o += '])%nat.\n(* component i: E_i, K_i, G_i, Q_i, F_i, S_i, W_i *)\nDefinition COMPONENTS : list (list lit) := [\n'
o += ';\n'.join('  (* %s *) [%s]' % (NAMES[k], '; '.join(lit(C[a + 'I'][k]) for a in 'EKGQFSW')) for k in range(21))
o += '].\n(* pairs with a parameter other than 1: E*_ij, U_ij, K_ij, G*_ij *)\nDefinition PAIRS : list (nat * nat * list lit) := ([\n'
rows = []
for a in range(21):
    for b in range(21):
        v = [C[k + 'IJ'][a][b] for k in 'EUKG']
        if v != [one] * 4:
            assert a < b
            rows.append('  (%d, %d, [%s])' % (a, b, '; '.join(map(lit, v))))
o += ';\n'.join(rows) + '])%nat.\n'
o += '(* molar masses, g/mol *)\nDefinition MASSES : list lit := [%s].\n' % '; '.join(map(lit, C['MMI']))
open(OUT + '/StdDetail.v', 'w').write(o)
# ---------------------------------------------------------------- GERG
g = open('/repo/src/gerg2008.rs').read()
L = g.split('\n')
A = {n: {} for n in 'coik doik toik dijk tijk cijk eijk gijk nijk bijk bvij gvij btij gtij'.split()}
rng = None
for k in range(2433, len(L)):
    s = L[k].strip()
    m = re.match(r'for i in 1\.\.=(\w+) \{', s)
    if m: rng = range(1, 22) if m.group(1) == 'MAXFLDS' else [1, 2, 4]
    m = re.match(r'(?:self\.)?(\w+)\[(\w+)\]\[(\d+)\] = ([-\d._eE+]+);', s)
    if m and m.group(1) in A:
        for q in (rng if m.group(2) == 'i' else [int(m.group(2))]): A[m.group(1)][q, int(m.group(3))] = num(m.group(4))
    if 'Pure fluid parameters' in s: pass
    if re.match(r'fn ', s) and k > 2440: break
G = {n: const(g, n) for n in 'KPOL KEXP KPOLIJ KEXPIJ DC TC NOIK FIJ MNUMB'.split()}
I = lambda p: p[0] * 10 ** p[1]
z = (0, 0)
o = '''(* The tables of GERG-2008 as printed in Kunz and Wagner, J. Chem. Eng. Data 57 (2012): one row per
   term, per component and per pair; components numbered 1..21.  Written by tools/mkstd.py; shares
   nothing with the model. *)
From Coq Require Import ZArith List.
From Verif Require Import FArith.
Import ListNotations.

(* critical density (mol/l) and temperature (K); the first row is not used *)
Definition CRIT : list (lit * lit) := [
'''
o += '  (L 0 0, L 0 0);\n' + ';\n'.join('  (* %s *) (%s, %s)' % (NAMES[k - 1], lit(G['DC'][k]), lit(G['TC'][k])) for k in range(1, 22)) + '].\n'
o += '''(* residual Helmholtz energy of pure component i: coefficient n, exponents d of delta and t of tau, and
   c of the factor exp(-delta^c), 0 where there is none *)
Definition PURE : list (list (lit * nat * lit * nat)) := ([
  [];
'''
rows = []
for k in range(1, 22):
    p, e = I(G['KPOL'][k]), I(G['KEXP'][k])
    t = []
    for q in range(1, p + e + 1):
        c = I(A['coik'].get((k, q), z)); assert (c == 0) == (q <= p)
        t.append('    (%s, %d, %s, %d)' % (lit(G['NOIK'][k][q]), I(A['doik'][k, q]), lit(A['toik'][k, q]), c))
    rows.append('  (* %s *) [\n%s]' % (NAMES[k - 1], ';\n'.join(t)))
o += ';\n'.join(rows) + '])%nat.\n'
o += '''(* departure function m: n, d, t, eta, epsilon, beta, gamma; eta = beta = 0 for polynomial terms.
   1 methane-ethane, 2 methane-propane, 3 methane-nitrogen, 4 methane-carbon dioxide, 5 nitrogen-carbon
   dioxide, 6 nitrogen-ethane, 7 methane-hydrogen, 10 generalized *)
Definition DEPARTURE : list (nat * list (lit * nat * lit * list lit)) := ([
'''
used = sorted({I(v) for r in G['MNUMB'] for v in r if I(v)})
rows = []
for m in used:
    p, e = I(G['KPOLIJ'][m]), I(G['KEXPIJ'][m]); t = []
    for q in range(1, p + e + 1):
        w = [A[n].get((m, q), z) for n in ('cijk', 'eijk', 'bijk', 'gijk')]
        if q <= p: assert w == [z] * 4, (m, q, w)
        t.append('    (%s, %d, %s, [%s])' % (lit(A['nijk'][m, q]), I(A['dijk'][m, q]), lit(A['tijk'][m, q]), '; '.join(map(lit, w))))
    rows.append('  (%d, [\n%s])' % (m, ';\n'.join(t)))
o += ';\n'.join(rows) + '])%nat.\n'
o += '(* pairs with a departure function: F_ij and its number *)\nDefinition DEPARTS : list (nat * nat * lit * nat) := ([\n'
o += ';\n'.join('  (%d, %d, %s, %d)' % (a, b, lit(G['FIJ'][a][b]), I(G['MNUMB'][a][b])) for b in range(1, 22) for a in range(1, b) if I(G['MNUMB'][a][b])) + '])%nat.\n'
o += '(* parameters of the reducing functions of the pair i < j: beta_v, gamma_v, beta_T, gamma_T *)\nDefinition REDUCING : list (nat * nat * list lit) := ([\n'
o += ';\n'.join('  (%d, %d, [%s])' % (a, b, '; '.join(lit(A[n].get((a, b), one)) for n in ('bvij', 'gvij', 'btij', 'gtij'))) for a in range(1, 22) for b in range(a + 1, 22)) + '])%nat.\n'
open(OUT + '/StdGerg.v', 'w').write(o)
for n in ('bvij', 'gvij', 'btij', 'gtij'): print(n, len(A[n]), [(a, b) for a in range(1, 22) for b in range(a + 1, 22) if (a, b) not in A[n]])
