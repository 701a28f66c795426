"""Prints the assumptions of every theorem in MANIFEST.json (needs a finished build in rocq/theories).  Writes ASSUMPTIONS.txt.
usage: python3 -B tools/assumptions.py"""
import re, json, glob, os, subprocess, tempfile, collections
root = os.path.dirname(os.path.dirname(os.path.abspath(__file__)))
th = root + '/rocq/theories'
names = []
for f in sorted(glob.glob(th + '/Prop_*.v')):
    m = os.path.basename(f)[:-2]
    for n in re.findall(r'^Theorem (C\d\d_\w+)', open(f).read(), re.M): names.append((m, n))
src = 'From Coq Require Import String.\n' + ''.join('From Verif Require %s.\n' % m for m in sorted({m for m, _ in names}))
for m, n in names: src += 'Goal True. idtac "@@%s". exact Logic.I. Qed.\nPrint Assumptions Verif.%s.%s.\n' % (n, m, n)
d = tempfile.mkdtemp(); open(d + '/A.v', 'w').write(src)
out = subprocess.run(['coqc', '-Q', th, 'Verif', d + '/A.v'], capture_output=True, text=True).stdout
sets = collections.OrderedDict()
for part in out.split('@@')[1:]:
    n, _, rest = part.partition('\n')
    ax = tuple(sorted(set(re.findall(r'^([A-Za-z_][\w.\']*)\s*(?::|$)', rest, re.M)) - {'Axioms', 'Closed', 'Warning'}))
    sets.setdefault(ax, []).append(n.strip())
with open(root + '/ASSUMPTIONS.txt', 'w') as f:
    f.write('Print Assumptions, grouped (generated by tools/assumptions.py; %d theorems)\n' % len(names))
    for ax, ns in sorted(sets.items()):
        f.write('\n== ' + (', '.join(ax) if ax else 'closed under the global context') + '\n' + '\n'.join('  ' + n for n in ns) + '\n')
print(len(names), [(a, len(b)) for a, b in sets.items()])
