#!/usr/bin/env python3
"""Update or append entries of properties.jsonl from a JSON file of {id: fields}."""
import json, sys, os
root = os.path.join(os.path.dirname(__file__), '..')
path = os.path.join(root, 'properties.jsonl')
ps = [json.loads(l) for l in open(path) if l.strip()]
upd = json.load(open(sys.argv[1]))
for k, f in upd.items():
    for p in ps:
        if p['id'] == k:
            p.update(f); break
    else:
        assert set(f) == {'title', 'statement', 'quantifier', 'why_tests_cant', 'anchors'}, k
        ps.append({'id': k, **f})
ps.sort(key=lambda p: int(p['id'][1:]))
open(path, 'w').write(''.join(json.dumps(p) + '\n' for p in ps))
print(len(ps))
