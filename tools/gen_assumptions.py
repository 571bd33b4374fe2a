#!/usr/bin/env python3
"""Regenerates the last two sections of DESIGN.md.  Usage: gen_assumptions.py [assumptions.json]
The json file maps theorem names to the axioms Print Assumptions lists for them."""
import json, re, os, glob, sys, collections
ROOT = os.path.dirname(os.path.dirname(os.path.abspath(__file__)))
J = os.path.join(ROOT, 'tools', 'assumptions.json')
if len(sys.argv) > 1:
    json.dump(json.load(open(sys.argv[1])), open(J, 'w'), indent=0, sort_keys=True)
ax = {k: tuple(v) for k, v in json.load(open(J)).items()}
mods = {}
for f in sorted(glob.glob(ROOT + '/rocq/theories/*_Props.v')):
    m = os.path.basename(f)[:-len('_Props.v')]
    mods[m] = re.findall(r'^Theorem (C\d+_\w+)', open(f).read(), re.M)
out = ['## Modelled and not modelled', '', 'What a model file covers, and what it leaves out, is stated in its header and at each definition (which cite files and lines). In short:', '',
       '| model | properties | source files of `/repo/hermespy` |', '|---|---|---|']
pys = []
for d, _, fs in os.walk('/repo/hermespy'):
    pys += [os.path.relpath(os.path.join(d, f), '/repo/hermespy') for f in fs if f.endswith('.py') and f != '__init__.py']
cited = set()
for f in sorted(glob.glob(ROOT + '/rocq/theories/*_Model.v')):
    m = os.path.basename(f)[:-len('_Model.v')]
    files = set()
    for c in re.findall(r'[\w/]+\.py', open(f).read()):
        c = re.sub(r'^/?(repo/)?(hermespy/)?', '', c)
        hits = [p for p in pys if p == c or p.endswith('/' + c)]
        if len(hits) > 1:
            dirs = {os.path.dirname(x) for x in files}
            hits = [h for h in hits if os.path.dirname(h) in dirs] or hits
        if len(hits) == 1: files.add(hits[0])
    cited |= files
    cl = sorted({t.split('_')[0] for t in mods.get(m, [])}, key=lambda c: int(c[1:]))
    out.append(f"| {m} | {', '.join(cl)} | {', '.join('`%s`' % x for x in sorted(files))} |")
out += ['', 'Common to all models: numbers are exact (no floating point rounding, except where a refutation names binary64 arithmetic), array libraries are replaced by lists and functions with their indexing rules written out, random draws and external libraries are parameters the theorems quantify over, and logging, plotting, progress output, documentation, process scheduling by ray and the HDF5 file format are left out.', '',
        'Files without any model: ' + ', '.join('`%s`' % p for p in sorted(set(pys) - cited)) + '.', '']
out += ['## Assumptions', '', 'Every theorem is followed by `Print Assumptions` in its `_Props.v` file. The axioms listed are those of the standard library only:', '',
        '* `ClassicalDedekindReals.sig_forall_dec`, `ClassicalDedekindReals.sig_not_dec`: decidability used by the construction of the real numbers;',
        '* `FunctionalExtensionality.functional_extensionality_dep`: used by the real numbers and for functions as arrays;',
        '* `Classical_Prop.classic`: excluded middle, used by the analysis of the standard library and Coquelicot.', '',
        'No axiom, parameter or hypothesis is added by this development. By set of axioms:', '']
groups = collections.defaultdict(list)
missing = []
for m, ts in mods.items():
    for t in ts:
        if t in ax: groups[ax[t]].append(t)
        else: missing.append(t)
for k in sorted(groups, key=lambda k: (len(k), k)):
    name = ', '.join('`%s`' % x for x in k) if k else 'none (closed under the global context)'
    by = collections.defaultdict(list)
    for t in groups[k]: by[t.split('_')[0]].append(t)
    out += [f'### {name}', '', f'{len(groups[k])} theorems:', '']
    out += ['* ' + ', '.join('`%s`' % t for t in by[c]) for c in sorted(by, key=lambda c: int(c[1:]))] + ['']
if missing: print('missing', missing)
p = os.path.join(ROOT, 'DESIGN.md')
s = open(p).read()
i = s.find('\n## Modelled and not modelled')
if i >= 0: s = s[:i + 1]
if not s.endswith('\n'): s += '\n'
if not s.endswith('\n\n'): s += '\n'
open(p, 'w').write(s + '\n'.join(out))
