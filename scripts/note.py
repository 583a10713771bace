#!/usr/bin/env python3
# note.py ID TEXT: set the manifest note of a property
import json,sys
f='/verif/scripts/notes.json'; d=json.load(open(f)); d[sys.argv[1]]=sys.argv[2]
json.dump(d,open(f,'w'),indent=1,sort_keys=True,ensure_ascii=False); open(f,'a').write('\n')
