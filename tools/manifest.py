"""Add or replace claims in MANIFEST.json: manifest.py ID STATUS 'note' theorem..."""
import json, sys
pid, status, note, thms = sys.argv[1], sys.argv[2], sys.argv[3], sys.argv[4:]
m = json.load(open('/verif/MANIFEST.json'))
m['claims'] = [c for c in m['claims'] if c['property'] != pid]
m['claims'].append({"property": pid, "status": status, "theorems": thms, "note": note})
m['claims'].sort(key=lambda c: c['property'])
open('/verif/MANIFEST.json', 'w').write(
    '{"claims": [\n' + ',\n'.join(json.dumps(c) for c in m['claims']) + '\n]}\n')
