#!/usr/bin/env python3
"""Writes MANIFEST.json from the table below."""
import json, os
here = os.path.dirname(os.path.abspath(__file__))
claims = []
def c(pid, status, theorems, note=""):
    claims.append({"property": pid, "status": status, "theorems": theorems, "note": note})
exec(open(os.path.join(here, "manifest_table.py")).read())
claims.sort(key=lambda x: x["property"])
json.dump({"claims": claims}, open(os.path.join(here, "MANIFEST.json"), "w"), indent=1)
