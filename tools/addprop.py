"""addprop.py FILE: insert the p(...) lines of FILE at the end of tools/props.py"""
import sys
s=open('/verif/tools/props.py').read()
l=open(sys.argv[1]).read()
k=s.index("open('/verif/properties.jsonl','w')")
open('/verif/tools/props.py','w').write(s[:k]+l+s[k:])
