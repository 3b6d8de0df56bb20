#!/usr/bin/env python3
"""append a property: addprop.py ID TITLE STATEMENT QUANT WHY ANCHOR..."""
import json,sys
a=sys.argv[1:]
with open('/verif/properties.jsonl','a') as f:
    f.write(json.dumps(dict(id=a[0],title=a[1],statement=a[2],quantifier=a[3],why_tests_cant=a[4],anchors=a[5:]))+"\n")
