"""Regenerate /verif/MANIFEST.json from the theorem names in the *Props.v files.

A claim is "partial" when one of its theorems ends in _partial or _refuted, else "proved".
Notes come from tools/notes.json; a claim listed there under "not_applicable" needs no theorem.
"""
import glob, json, os, re
root = os.path.dirname(os.path.dirname(os.path.abspath(__file__)))
notes = json.load(open(os.path.join(root, 'tools', 'notes.json')))
thms = {}
for f in sorted(glob.glob(os.path.join(root, 'rocq/theories/*Props*.v'))):
    for m in re.finditer(r'^Theorem (C\d+_\w+)', open(f).read(), re.M):
        thms.setdefault(m.group(1).split("_")[0], []).append(m.group(1))
ids = [json.loads(l)['id'] for l in open(os.path.join(root, 'properties.jsonl'))]
claims = []
for i in ids:
    note = notes.get(i, '')
    if i in thms:
        st = 'partial' if any(t.endswith(('_partial', '_refuted')) for t in thms[i]) else 'proved'
        claims.append(dict(property=i, status=st, theorems=thms[i], note=note))
    elif i in notes.get('not_applicable', {}):
        claims.append(dict(property=i, status='not_applicable', theorems=[], note=notes['not_applicable'][i]))
json.dump({'claims': claims}, open(os.path.join(root, 'MANIFEST.json'), 'w'), indent=1)
missing = [i for i in ids if i not in {c['property'] for c in claims}]
print(len(claims), 'claims; no claim yet for', missing, '; unknown', sorted(set(thms) - set(ids)))
