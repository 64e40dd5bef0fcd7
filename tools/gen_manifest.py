"""Regenerates MANIFEST.json and rocq/theories/Assumptions.v from the Prop_*.v files."""
import json, re, glob, os
os.chdir("/verif")
props=[json.loads(l) for l in open("properties.jsonl")]
files=[l.strip() for l in open("rocq/_CoqProject") if l.strip().startswith("theories/Prop_")]
thms=[]
for f in files:
    for m in re.finditer(r"^(?:Theorem|Corollary) (C\d\d\w*)", open("rocq/"+f).read(), re.M):
        thms.append((m.group(1), f))
notes=json.load(open("tools/notes.json"))
claims=[]
for p in props:
    i=p["id"]
    ts=[t for t,_ in thms if t.startswith(i+"_")]
    n=notes.get(i,{})
    status=n.get("status") or ("proved" if ts else "partial")
    note=n.get("note", "" if ts else "no theorem yet")
    claims.append(dict(property=i,status=status,theorems=ts,note=note))
json.dump({"claims":claims},open("MANIFEST.json","w"),indent=1)
mods=[os.path.basename(f)[:-2] for f in files]
with open("rocq/theories/Assumptions.v","w") as o:
    o.write("(** Axioms used by each property theorem (generated by tools/gen_manifest.py). *)\n")
    o.write("From Verif Require %s.\n"%" ".join(mods))
    for t,f in thms: o.write("Print Assumptions %s.%s.\n"%(os.path.basename(f)[:-2],t))
print({s:sum(c["status"]==s for c in claims) for s in ("proved","partial","not_applicable")}, len(thms))
