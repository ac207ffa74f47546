#!/usr/bin/env python3
"""Append mutation attempts to seeded/LOG.jsonl.
usage: log.py mutants.json results.jsonl [tightened.json]
tightened.json: {mutant id: [theorems added or strengthened because of it]}."""
import json, sys, os
here = os.path.dirname(os.path.abspath(__file__))
mut = {x['id']: x for x in json.load(open(sys.argv[1]))}
tight = json.load(open(sys.argv[3])) if len(sys.argv) > 3 else {}
with open(os.path.join(here, '..', 'seeded', 'LOG.jsonl'), 'a') as out:
    for line in open(sys.argv[2]):
        r = json.loads(line)
        x = mut[r['id']]
        out.write(json.dumps({'definition': x['file'] + '.' + x['definition'], 'edit': x['edit'],
                              'breaks': x['claim'],
                              'failed': r.get('theorems', []), 'error': r.get('error'),
                              'tightened': tight.get(r['id'], [])}) + '\n')
