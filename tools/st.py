#!/usr/bin/env python3
"""usage: st.py Cnn status note... : sets an entry of tools/status.json"""
import json, sys, os
f = os.path.join(os.path.dirname(os.path.abspath(__file__)), 'status.json')
s = json.load(open(f))
s[sys.argv[1]] = {'status': sys.argv[2], 'note': ' '.join(sys.argv[3:])}
json.dump(dict(sorted(s.items())), open(f, 'w'), indent=1)
