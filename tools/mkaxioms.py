#!/usr/bin/env python3
"""Regenerate the last section of DESIGN.md from what Print Assumptions says about every theorem of the Props files
(run after make in rocq/; takes some minutes)."""
import collections, glob, os, re, subprocess, tempfile
ROOT = os.path.dirname(os.path.dirname(os.path.abspath(__file__)))
TH = ROOT + '/rocq/theories'
tmp = tempfile.mkdtemp()
groups = collections.defaultdict(list)
for f in sorted(glob.glob(TH + '/Props*.v')):
    b = os.path.basename(f)[:-2]
    for n in re.findall(r'^Theorem (C\d\d\w*)', open(f).read(), re.M):
        q = tmp + '/axq.v'
        open(q, 'w').write(f'From Verif Require {b}.\nPrint Assumptions {b}.{n}.\n')
        o = subprocess.run(['coqc', '-Q', TH, 'Verif', q], capture_output=True, text=True)
        if o.returncode:
            raise SystemExit(f'{b}.{n}: {o.stderr}')
        ax = [l.split(' :')[0].split()[0] for l in o.stdout.splitlines()
              if re.match(r"^[A-Za-z_][\w.']*\s*(:|$)", l) and not l.startswith(('Axioms', 'Closed'))]
        groups[tuple(sorted(ax))].append(n)
REALS = {'ClassicalDedekindReals.sig_forall_dec', 'ClassicalDedekindReals.sig_not_dec', 'Classical_Prop.classic',
         'FunctionalExtensionality.functional_extensionality_dep'}
out = []
for ax, names in sorted(groups.items(), key=lambda g: len(g[0])):
    logic = [a for a in ax if a in REALS]
    rest = [a for a in ax if a not in REALS]
    head = ', '.join(f'`{a}`' for a in logic) or 'none (closed under the global context)'
    mods = sorted({a.split('.')[0] for a in rest})
    if rest:
        head += '; and the primitive types, operations and specification axioms of ' + ', '.join(f'`Coq …{m}`' for m in mods)
    out.append(f'* **{head}**\n')
    if rest:
        out.append('  Primitives and their specifications in full: ' + ', '.join(f'`{a}`' for a in rest) + '.\n')
    out.append('  Theorems: ' + ', '.join(f'`{n}`' for n in sorted(names)) + '.\n')
d = open(ROOT + '/DESIGN.md').read()
mark = '## Axioms per theorem'
i = d.index(mark)
intro = ('As printed by `Print Assumptions` (regenerate with `tools/mkaxioms.py`). All are axioms or primitives of the\n'
         'Coq standard library; the primitive integers and floats come in through the computations of the `interval` tactic.\n')
open(ROOT + '/DESIGN.md', 'w').write(d[:i] + mark + '\n\n' + intro + '\n' + '\n'.join(out))
print({len(k): len(v) for k, v in groups.items()})
