#!/usr/bin/env python3
"""Regenerates MANIFEST.json (theorem names are collected from rocq/theories/*Theorems*.v by
their Cnn_ prefix; statuses and notes are in tools/status.json) and rocq/_CoqProject's list."""
import json, re, glob, os
root = os.path.dirname(os.path.dirname(os.path.abspath(__file__)))
thms = {}
for f in sorted(glob.glob(root + '/rocq/theories/*Theorems*.v')):
    for m in re.finditer(r'^Theorem (C\d\d)(\w+)', open(f).read(), re.M):
        thms.setdefault(m.group(1), []).append(m.group(1) + m.group(2))
status = json.load(open(root + '/tools/status.json'))
claims = []
for line in open(root + '/properties.jsonl'):
    pid = json.loads(line)['id']
    st = status.get(pid)
    if st is None:
        continue
    claims.append({'property': pid, 'status': st['status'], 'theorems': thms.get(pid, []), 'note': st['note']})
    if st['status'] != 'not_applicable':
        assert thms.get(pid), pid
json.dump({'claims': claims}, open(root + '/MANIFEST.json', 'w'), indent=1)
missing = [p for p in thms if p not in status]
if missing:
    print('theorems without status:', missing)
print(len(claims), 'claims', sum(len(c['theorems']) for c in claims), 'theorems')
