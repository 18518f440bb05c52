#!/usr/bin/env python3
"""Write ASSUMPTIONS.md: what `Print Assumptions` lists for each theorem of the manifest.

Needs a built rocq/ directory; compiles a scratch file outside it."""
import json, os, re, subprocess, tempfile
root = os.path.dirname(os.path.dirname(os.path.abspath(__file__)))
claims = json.load(open(root + '/MANIFEST.json'))['claims']
mods = [m[:-2] for m in sorted(os.listdir(root + '/rocq/theories')) if m.startswith('Properties') and m.endswith('.v')]
names = [(c['property'], t) for c in claims for t in c['theorems']]
d = tempfile.mkdtemp()
with open(d + '/scratch.v', 'w') as f:
    f.write('From Verif Require ' + ' '.join(mods) + '.\n')
    where = {}
    for m in mods:
        for x in re.finditer(r'^(?:Theorem|Lemma) (\w+)', open(root + '/rocq/theories/%s.v' % m).read(), re.M):
            where[x.group(1)] = m
    for _, t in names:
        f.write('Goal True. idtac "@@ %s". exact I. Qed.\nPrint Assumptions %s.%s.\n' % (t, where[t], t))
out = subprocess.run(['coqc', '-q', '-Q', root + '/rocq/theories', 'Verif', d + '/scratch.v'], capture_output=True, text=True)
if out.returncode:
    raise SystemExit(out.stderr)
groups, cur = {}, None
for block in out.stdout.split('@@ ')[1:]:
    t, _, body = block.partition('\n')
    ax = tuple(sorted(re.findall(r'^([A-Za-z_][\w.]*)\s*(?::|$)', body, re.M)))
    ax = tuple(a for a in ax if a not in ('Axioms', 'Closed'))
    groups.setdefault(ax, []).append(t.strip())
with open(root + '/ASSUMPTIONS.md', 'w') as f:
    f.write('# What `Print Assumptions` lists\n\nWritten by `tools/assumptions.py`.\n')
    for ax, ts in sorted(groups.items(), key=lambda g: (len(g[0]), g[0])):
        f.write('\n## ' + (', '.join('`%s`' % a for a in ax) if ax else 'Closed under the global context') + '\n\n')
        f.write(', '.join(ts) + '\n')
for ax, ts in groups.items():
    print(len(ts), ax)
