#!/usr/bin/env python3
# addprop.py ID TITLE STATEMENT QUANTIFIER WHY ANCHOR...: append a property
import json,sys
a=sys.argv[1:]
assert all(json.loads(l)['id']!=a[0] for l in open('/verif/properties.jsonl'))
open('/verif/properties.jsonl','a').write(json.dumps(dict(id=a[0],title=a[1],statement=a[2],quantifier=a[3],why_tests_cant=a[4],anchors=a[5:]),ensure_ascii=False)+'\n')
