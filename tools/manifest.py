"""Regenerate MANIFEST.json from the theorem names in rocq/theories/*Props.v and notes.json."""
import json, re, glob, os
root = os.path.dirname(os.path.dirname(os.path.abspath(__file__)))
notes = json.load(open(root + '/tools/notes.json'))
thms = {}
for f in sorted(glob.glob(root + '/rocq/theories/*.v')):
    for m in re.finditer(r'^\s*Theorem (c(\d\d\d?)_\w+)', open(f).read(), re.M):
        thms.setdefault('C' + m.group(2), []).append(m.group(1))
claims = []
for l in open(root + '/properties.jsonl'):
    d = json.loads(l)
    i = d['id']
    t = thms.get(i, [])
    n = notes.get(i, {})
    if isinstance(n, str):
        n = {'note': n}
    st = n.get('status')
    if not st:
        if not t:
            continue
        st = 'partial' if any(x.endswith('_partial') or x.endswith('_refuted') for x in t) else 'proved'
    claims.append({'property': i, 'status': st, 'theorems': t, 'note': n.get('note', '')})
extra = set(thms) - {c['property'] for c in claims}
if extra:
    print('theorems without property:', extra)
json.dump({'claims': claims}, open(root + '/MANIFEST.json', 'w'), indent=1)
print(len(claims), 'claims;', sum(c['status'] == 'proved' for c in claims), 'proved')
