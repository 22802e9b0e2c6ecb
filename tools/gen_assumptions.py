#!/usr/bin/env python3
"""Write ASSUMPTIONS.md: what Print Assumptions lists for each theorem of MANIFEST.json.
Run after a build, from /verif."""
import json, re, subprocess, os, tempfile
root = os.path.dirname(os.path.dirname(os.path.abspath(__file__)))
order = [l.strip()[9:-2] for l in open(root + '/rocq/_CoqProject') if l.strip().endswith('.v')]
where = {}
for f in order:
    for m in re.finditer(r"^Theorem ([\w']+)", open(f'{root}/rocq/theories/{f}.v').read(), re.M):
        where[m.group(1)] = f
man = json.load(open(root + '/MANIFEST.json'))
names = []
for c in man['claims']:
    for t in c['theorems']:
        if t not in names: names.append(t)
body = ''.join(f'From Verif Require {f}.\n' for f in order)
for n in names:
    body += f'Goal True. idtac "@@{n}". exact I. Qed.\nPrint Assumptions Verif.{where[n]}.{n}.\n'
with tempfile.TemporaryDirectory() as d:
    open(d + '/Z.v', 'w').write(body)
    p = subprocess.run(['coqc', '-R', root + '/rocq/theories', 'Verif', d + '/Z.v'], capture_output=True, text=True)
    assert p.returncode == 0, p.stderr
out = {}
for x in p.stdout.split('@@')[1:]:
    n = x.split()[0]
    out[n] = sorted(set(re.findall(r"^([A-Z][\w'.]+)\s*(?::|$)", x.split('\n', 1)[1], re.M)) - {'Axioms', 'Closed'})
groups = {}
for n in names: groups.setdefault(tuple(out[n]), []).append(n)
with open(root + '/ASSUMPTIONS.md', 'w') as o:
    o.write('# What `Print Assumptions` lists for each theorem\n\nGenerated by tools/gen_assumptions.py.\n')
    for g, ns in sorted(groups.items(), key=lambda x: len(x[0])):
        o.write('\n## ' + ('Closed under the global context' if not g else ', '.join(f'`{a}`' for a in g)) + f' ({len(ns)} theorems)\n\n')
        for n in ns: o.write(f'* `{n}` (`{where[n]}.v`)\n')
print({k: len(v) for k, v in groups.items()})
