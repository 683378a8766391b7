"""Collect Print Assumptions for every theorem named in MANIFEST.json (run after the build, from /verif).
Writes the table of section 5 of DESIGN.md to standard output."""
import json, os, re, subprocess, tempfile
claims = json.load(open('MANIFEST.json'))['claims']
where = {}
for f in sorted(os.listdir('rocq/theories')):
    if f.startswith('Prop') and f.endswith('.v'):
        for m in re.finditer(r'^(?:Theorem|Lemma)\s+(\w+)', open('rocq/theories/' + f).read(), re.M):
            where[m.group(1)] = f[:-2]
names = [t for c in claims for t in c['theorems']]
src = 'From Verif Require ' + ' '.join(sorted(set(where.values()))) + '.\n'
src += ''.join('Check "@@%s". Print Assumptions %s.%s.\n' % (n, where[n], n) for n in names)
src = 'From Coq Require Import String. Open Scope string_scope.\n' + src
with tempfile.TemporaryDirectory() as d:
    open(d + '/pa.v', 'w').write(src)
    out = subprocess.run(['coqc', '-Q', 'rocq/theories', 'Verif', d + '/pa.v'], capture_output=True, text=True)
    assert out.returncode == 0, out.stderr
groups = {}
for part in out.stdout.split('"@@')[1:]:
    n = part.split('"')[0]
    ax = sorted(set(re.findall(r'^([\w.]+)\s*\n?\s*:', part.split('\n', 2)[2], re.M)) - {'Axioms'})
    groups.setdefault(tuple(a.split('.')[-1] for a in ax), []).append(n)
for ax, ns in sorted(groups.items(), key=lambda x: len(x[0])):
    print('* **' + (', '.join('`%s`' % a for a in ax) or 'no axioms (closed under the global context)') + '**: ' + ', '.join(ns) + '.')
