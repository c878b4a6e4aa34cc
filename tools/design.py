"""Fills the generated tables of DESIGN.md (between the begin/end markers)."""
import json, os, re
here = os.path.dirname(os.path.abspath(__file__)); root = os.path.join(here, "..")
th = os.path.join(root, "rocq", "theories")
MODEL = "Base Libs Xml Ast XsdNode Parse Gen Decode Writer Run Macro Message Emit Body Quote Impl Path".split()

def status():
    props = {}
    for l in open(os.path.join(root, "properties.jsonl")):
        if l.strip(): d = json.loads(l); props[d["id"]] = d["title"]
    out = ["| property | status | theorems | note |", "|---|---|---|---|"]
    for c in json.load(open(os.path.join(root, "MANIFEST.json")))["claims"]:
        out.append("| %s %s | %s | %s | %s |" % (c["property"], props.get(c["property"], ""), c["status"],
                   ", ".join("`%s`" % t for t in c["theorems"]), c["note"].replace("|", "\\|")))
    return "\n".join(out)

def cites():
    out = ["| file | definition | cited code |", "|---|---|---|"]
    for f in MODEL:
        s = open(os.path.join(th, f + ".v")).read()
        pos = 0
        for m in re.finditer(r"\(\*\*(.*?)\*\)\s*((?:Section \w+\.\s*|Context [^.]*\.\s*|Variable[^.]*\.\s*)*)(?:#\[[^\]]*\]\s*)?(Definition|Fixpoint|Inductive|Record|with|Class|Notation)\s+\"?([\w']+)", s, re.S):
            c = " ".join(m.group(1).split())
            r = re.findall(r"(?:[\w./-]*/)?(?:\w+|\{[^}]*\}|\*)\.rs(?::[\d,\- ]*\d)?", c)
            if r: out.append("| `%s.v` | `%s` | %s |" % (f, m.group(4), "; ".join(r)))
    return "\n".join(out)

def axioms():
    names = []
    for f in sorted(os.listdir(th)):
        if f.startswith("Prop") and f.endswith(".v"):
            s = open(os.path.join(th, f)).read()
            t = re.findall(r"^Theorem (\w+)", s, re.M); p = set(re.findall(r"^Print Assumptions (\w+)", s, re.M))
            assert set(t) <= p, set(t) - p
            names.append("* `%s`: %s" % (f, ", ".join("`%s`" % x for x in t)))
    return "\n".join(names)

p = os.path.join(root, "DESIGN.md"); s = open(p).read()
for k, fn in (("status", status), ("cites", cites), ("axioms", axioms)):
    s = re.sub(r"(<!-- %s:begin -->\n).*?(<!-- %s:end -->)" % (k, k), lambda m: m.group(1) + fn() + "\n" + m.group(2), s, flags=re.S)
open(p, "w").write(s)
