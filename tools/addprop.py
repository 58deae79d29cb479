#!/usr/bin/env python3
"""append a property (JSON on stdin: the property fields plus "plan") to properties.jsonl and DESIGN.md"""
import json, sys
o = json.load(sys.stdin)
plan = o.pop("plan")
with open("properties.jsonl", "a") as f:
    f.write(json.dumps(o) + "\n")
L = open("DESIGN.md").read().split("\n")
k = max(i for i, l in enumerate(L) if l.startswith("* **C"))
L.insert(k + 1, "* **%s** %s" % (o["id"], plan))
open("DESIGN.md", "w").write("\n".join(L))
