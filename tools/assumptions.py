#!/usr/bin/env python3
"""Rewrite the generated part of DESIGN.md: what Print Assumptions lists for each theorem of MANIFEST.json.
Needs the compiled files in rocq/theories.  Works in a temporary directory.
With --new, theorems already listed keep their set and only the others are asked for."""
import json, os, re, subprocess, sys, tempfile
V = '/verif'
man = json.load(open(V + '/MANIFEST.json'))['claims']
where = {}
for f in sorted(os.listdir(V + '/rocq/theories')):
    if f.endswith('.v'):
        for t in re.findall(r'^\s*(?:Theorem|Lemma|Corollary)\s+(\w+)', open(V + '/rocq/theories/' + f).read(), re.M):
            where.setdefault(t, f[:-2])
res = {}
if '--new' in sys.argv:
    old = open(V + '/DESIGN.md').read(); old = old[old.index('<!-- assumptions:'):old.index('<!-- end of assumptions -->')]
    known = {m[0]: () if m[1].startswith('closed') else tuple(re.findall(r'`([^`]*)`', m[1])) for m in re.findall(r'^\| (A\d+) \| (.*) \|$', old, re.M)}
    for row in re.findall(r'^\| C\d+ \| (.*) \|$', old, re.M):
        for part in row.split('; '):
            k, l = part.split(': ', 1)
            for t in re.findall(r'`(\w+)`', l): res[t] = known[k]
todo = {}
for c in man:
    for t in c['theorems']:
        if t not in res: todo.setdefault(where[t], []).append(t)
for m, ts in todo.items():
    with tempfile.TemporaryDirectory() as d:
        with open(d + '/q.v', 'w') as o:
            o.write('From Verif Require %s.\n' % m)
            for t in ts:
                o.write('Goal True. idtac "@@%s". exact I. Qed.\nPrint Assumptions %s.%s.\n' % (t, m, t))
        out = subprocess.run(['coqc', '-Q', V + '/rocq/theories', 'Verif', d + '/q.v'], capture_output=True, text=True)
        if out.returncode: raise SystemExit(m + out.stderr)
        parts = re.split(r'^@@(\w+)$', out.stdout, flags=re.M)
        for t, body in zip(parts[1::2], parts[2::2]):
            res[t] = tuple(sorted(set(re.findall(r'^([A-Za-z_][\w.\']*)(?=\s*:|\s*$)', body, re.M)) - {'Axioms', 'Closed'})) if 'Closed under' not in body else ()
sets = sorted(set(res.values()), key=lambda s: (len(s), s))
name = {s: 'A%d' % i for i, s in enumerate(sets)}
L = ['<!-- assumptions: generated by tools/assumptions.py -->', '',
     '| set | what `Print Assumptions` lists |', '|---|---|']
for s in sets:
    L.append('| %s | %s |' % (name[s], ', '.join('`%s`' % a for a in s) or 'closed under the global context'))
L += ['', '| property | theorems, by set |', '|---|---|']
for c in man:
    g = {}
    for t in c['theorems']: g.setdefault(name[res[t]], []).append(t)
    L.append('| %s | %s |' % (c['property'], '; '.join('%s: %s' % (k, ', '.join('`%s`' % t for t in v)) for k, v in sorted(g.items()))))
L += ['', '<!-- end of assumptions -->']
p = V + '/DESIGN.md'; s = open(p).read()
new = '\n'.join(L)
if '<!-- assumptions:' in s:
    a = s.index('<!-- assumptions:'); b = s.index('<!-- end of assumptions -->') + len('<!-- end of assumptions -->')
    s = s[:a] + new + s[b:]
else:
    s = s.rstrip('\n') + '\n\n' + new + '\n'
open(p, 'w').write(s)
print(len(res), 'theorems,', len(sets), 'sets')
