#!/usr/bin/env python3
"""Update tools/claims.json: reads a JSON object {"Cxx": [status, note, [extra theorems]]} on stdin."""
import json, os, sys
p = os.path.join(os.path.dirname(os.path.abspath(__file__)), 'claims.json')
d = json.load(open(p)); d.update(json.load(sys.stdin))
open(p, 'w').write("{\n" + ",\n".join(json.dumps(k) + ": " + json.dumps(d[k], ensure_ascii=False) for k in sorted(d)) + "\n}\n")
