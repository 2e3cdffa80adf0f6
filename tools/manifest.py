"""Regenerates /verif/MANIFEST.json and rocq/_CoqProject from the theorem names in Properties*.v.

A theorem named Cnn_... belongs to property Cnn.  NOTES holds the status and note of a property."""
import glob, json, os, re, sys
root = os.path.dirname(os.path.dirname(os.path.abspath(__file__)))
th = os.path.join(root, 'rocq', 'theories')
notes = json.load(open(os.path.join(root, 'tools', 'notes.json')))
props = [json.loads(l) for l in open(os.path.join(root, 'properties.jsonl'))]
names = {}
for f in sorted(glob.glob(th + '/Properties*.v')):
    for m in re.finditer(r'^Theorem (C\d+)_(\w+)', open(f).read(), re.M):
        names.setdefault(m.group(1), []).append(m.group(1) + '_' + m.group(2))
claims = []
for p in props:
    i = p['id']
    if i not in names:
        print('no theorem for', i, p['title'], file=sys.stderr)
        continue
    n = notes.get(i, {})
    st = n.get('status', 'partial' if any(x.endswith('_partial') for x in names[i]) else 'proved')
    claims.append({'property': i, 'status': st, 'theorems': names[i], 'note': n.get('note', '')})
json.dump({'claims': claims}, open(os.path.join(root, 'MANIFEST.json'), 'w'), indent=1)
files = sorted(os.path.basename(f) for f in glob.glob(th + '/*.v'))
open(os.path.join(root, 'rocq', '_CoqProject'), 'w').write('-Q theories Verif\n' + ''.join('theories/%s\n' % f for f in files))
