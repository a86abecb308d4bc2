"""Edit properties.jsonl: python3 tools/restate.py ID field <<< text"""
import json, sys
p = '/verif/properties.jsonl'
rows = [json.loads(l) for l in open(p)]
text = sys.stdin.read().strip()
hit = False
for r in rows:
    if r['id'] == sys.argv[1]:
        r[sys.argv[2]] = text
        hit = True
assert hit
open(p, 'w').write(''.join(json.dumps(r) + '\n' for r in rows))
