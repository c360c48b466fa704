#!/usr/bin/env python3
# Prints the table IG of rocq/theories/SpecIdeal.v from the numbers in /repo/src/detail.rs.
import re
s = open('/repo/src/detail.rs').read()
n = {}
for i, j, v in re.findall(r'self\.n0i\[(\d+)\]\[(\d+)\] = (-?[\d.]+);', s):
    n[int(i), int(j)] = v
m = re.search(r'const TH0I[^=]*=\s*\[(.*?)\];', s, re.S).group(1)
th = [[v.strip() for v in r.split(',') if v.strip()] for r in re.findall(r'\[([^\[\]]*)\]', m)]
def lit(v):
    neg = v.startswith('-'); v = v.lstrip('-')
    a, _, b = v.partition('.')
    b = b.rstrip('0')
    x = int(a + b); 
    if x == 0: return 'L 0 0'
    if neg: x = -x
    return 'L %s %s' % (x if x >= 0 else '(%d)' % x, '0' if not b else '(%d)' % -len(b))
names = 'methane nitrogen carbon_dioxide ethane propane isobutane n_butane isopentane n_pentane hexane heptane octane nonane decane hydrogen oxygen carbon_monoxide water hydrogen_sulfide helium argon'.split()
rows = []
for i in range(21):
    rows.append('  (* %s *) [%s;\n    %s]' % (names[i], '; '.join(lit(n[i, j]) for j in range(7)), '; '.join(lit(th[i][j]) for j in range(3, 7))))
print(';\n'.join(rows))
