#!/usr/bin/env python3
"""Writes MANIFEST.json from tools/claims.txt and checks that every theorem exists.

claims.txt has one block per property:
  C01 proved
  T theorem_name
  N note
"""
import json, re, glob, sys
names = set()
for f in glob.glob('/verif/rocq/theories/Prop*.v'):
    names |= set(re.findall(r'^Theorem\s+(\w+)', open(f).read(), re.M))
claims, cur, used = [], None, set()
for l in open('/verif/tools/claims.txt'):
    l = l.rstrip('\n')
    if not l.strip():
        continue
    k, _, v = l.partition(' ')
    if k == 'T':
        for t in v.split():
            if t not in names:
                sys.exit('no theorem ' + t)
            cur['theorems'].append(t)
            used.add(t)
    elif k == 'N':
        cur['note'] += (' ' if cur['note'] else '') + v
    else:
        cur = {'property': k, 'status': v, 'theorems': [], 'note': ''}
        claims.append(cur)
for n in sorted(names - used):
    print('unclaimed theorem', n)
json.dump({'claims': claims}, open('/verif/MANIFEST.json', 'w'), indent=1)
print(len(claims), 'claims')
