#!/usr/bin/env python3
"""Appends results of mutate.py to seeded/LOG.jsonl.

usage: tolog.py RESULTS.jsonl...
"""
import json, os, sys
LOG = os.path.join(os.path.dirname(os.path.dirname(os.path.abspath(__file__))), 'seeded', 'LOG.jsonl')
have = set()
if os.path.exists(LOG):
    for l in open(LOG):
        d = json.loads(l); have.add((d['definition'], d['edit']))
with open(LOG, 'a') as out:
    for f in sys.argv[1:]:
        for l in open(f):
            d = json.loads(l)
            if d.get('error') or (d['definition'], d['edit']) in have: continue
            have.add((d['definition'], d['edit']))
            out.write(json.dumps({'definition': d['definition'], 'file': d['file'], 'edit': d['edit'], 'old': d['old'], 'new': d['new'],
                'claim': d['claim'], 'failed': d.get('failed', []), 'lemmas': d.get('lemmas', []), 'tightened': d.get('tightened', [])}) + '\n')
