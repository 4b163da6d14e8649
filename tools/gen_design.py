#!/usr/bin/env python3
"""Rewrites the status table at the end of DESIGN.md from properties.jsonl and MANIFEST.json."""
import json, os
root = os.path.join(os.path.dirname(__file__), '..')
title = {q['id']: q['title'] for q in map(json.loads, open(root + '/properties.jsonl'))}
s = open(root + '/DESIGN.md').read().split('<!-- status -->')[0] + '<!-- status -->\n\n| id | property | status | theorems |\n|---|---|---|---|\n'
for c in json.load(open(root + '/MANIFEST.json'))['claims']:
    s += '| %s | %s | %s | %s |\n' % (c['property'], title[c['property']], c['status'], ', '.join(c['theorems']))
open(root + '/DESIGN.md', 'w').write(s)
