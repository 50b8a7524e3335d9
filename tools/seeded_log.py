"""Append to seeded/LOG.jsonl the results of a batch of seeded faults.
usage: seeded_log.py results.jsonl tightened.json"""
import json, sys
tight = json.load(open(sys.argv[2])) if len(sys.argv) > 2 else {}
with open('/verif/seeded/LOG.jsonl', 'w') as f:
    for l in open(sys.argv[1]):
        j = json.loads(l)
        f.write(json.dumps({
            "id": j["id"], "definition": f'{j["file"]}: {j["definition"]}',
            "edit": f'replace `{j["old"]}` by `{j["new"]}`',
            "claim": j["claim"], "theorems_failed": j["failed"],
            "theorems_tightened": tight.get(j["id"], []),
            **({"note": j["note"]} if "note" in j else {})}) + "\n")
