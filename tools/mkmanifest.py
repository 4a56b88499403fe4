"""Generate MANIFEST.json from theorem names in Props*.v; statuses and notes from tools/status.json."""
import re,glob,json
st=json.load(open("/verif/tools/status.json"))
th={}
for f in sorted(glob.glob("/verif/rocq/theories/Props*.v")):
    for m in re.finditer(r"^\s*Theorem\s+((C\d\d)_\w+)",open(f).read(),re.M):
        th.setdefault(m.group(2),[]).append(m.group(1))
claims=[]
for l in open("/verif/properties.jsonl"):
    d=json.loads(l); i=d["id"]; s=st.get(i,{})
    t=th.get(i,[])
    status=s.get("status")
    if not t: 
        status=status or "partial"
    if status is None:
        full=[x for x in t if not x.endswith("_partial") and not x.endswith("_refuted")]
        status="proved" if full else "partial"
    claims.append({"property":i,"status":status,"theorems":t,"note":s.get("note","" if t else "no theorem yet")})
json.dump({"claims":claims},open("/verif/MANIFEST.json","w"),indent=1)
print({k:sum(1 for c in claims if c["status"]==k) for k in ("proved","partial","not_applicable")}, [c["property"] for c in claims if not c["theorems"]])
