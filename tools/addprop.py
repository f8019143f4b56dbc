"""Append a property: addprop.py id title statement quantifier why anchor[,anchor...]"""
import json, sys, os
root = os.path.dirname(os.path.dirname(os.path.abspath(__file__)))
i, t, s, q, w, a = sys.argv[1:7]
path = root + '/properties.jsonl'
assert i not in [json.loads(l)['id'] for l in open(path)]
open(path, 'a').write(json.dumps({'id': i, 'title': t, 'statement': s, 'quantifier': q,
                                  'why_tests_cant': w, 'anchors': [x.strip() for x in a.split(';')]}) + '\n')
