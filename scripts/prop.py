#!/usr/bin/env python3
"""Append properties to properties.jsonl: prop.py file.json (list of objects); skips ids already present."""
import json, sys, os
p = os.path.join(os.path.dirname(__file__), '..', 'properties.jsonl')
have = {json.loads(l)['id'] for l in open(p) if l.strip()}
with open(p, 'a') as f:
    for o in json.load(open(sys.argv[1])):
        if o['id'] in have:
            print('already there', o['id']); continue
        assert set(o) == {'id', 'title', 'statement', 'quantifier', 'why_tests_cant', 'anchors'}, o
        f.write(json.dumps(o) + '\n')
