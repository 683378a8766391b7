#!/usr/bin/env python3
"""Writes MANIFEST.json from the claims table in tools/claims.txt:
   id | status | theorem names (comma separated) | note"""
import json, os
here = os.path.dirname(os.path.abspath(__file__))
claims = []
for line in open(os.path.join(here, 'claims.txt')):
    line = line.rstrip('\n')
    if not line or line.startswith('#'):
        continue
    pid, status, thms, note = [x.strip() for x in line.split('|', 3)]
    claims.append({'property': pid, 'status': status,
                   'theorems': [t.strip() for t in thms.split(',') if t.strip()], 'note': note})
json.dump({'claims': claims}, open(os.path.join(here, '..', 'MANIFEST.json'), 'w'), indent=1)
