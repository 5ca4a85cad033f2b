#!/usr/bin/env python3
"""Fills the generated parts of DESIGN.md: the file table and the assumptions of every theorem."""
import glob, os, re, subprocess, tempfile
here = os.path.dirname(os.path.abspath(__file__)); root = os.path.dirname(here); rocq = os.path.join(root, "rocq")
files = [l.strip() for l in open(os.path.join(rocq, "_CoqProject")) if l.strip().endswith(".v")]
rows = []
for f in files:
    s = open(os.path.join(rocq, f)).read()
    c = re.match(r"\(\*\*(.*?)\*\)", s, re.S).group(1)
    c = " ".join(c.split("\n\n")[0].split())
    rows.append("| `%s` | %s |" % (os.path.basename(f), c))
table = "| file | content |\n|------|---------|\n" + "\n".join(rows)
short = {"ClassicalDedekindReals.sig_not_dec": "D", "ClassicalDedekindReals.sig_forall_dec": "S",
         "FunctionalExtensionality.functional_extensionality_dep": "X", "Classical_Prop.classic": "C"}
out = []
for f in files:
    b = os.path.basename(f)[:-2]
    if not b.startswith("Prop_"): continue
    names = re.findall(r"^Print Assumptions (\w+)\.", open(os.path.join(rocq, f)).read(), re.M)
    with tempfile.TemporaryDirectory() as t:
        r = subprocess.run(["coqc", "-q", "-Q", "theories", "Verif", "-o", os.path.join(t, b + ".vo"), f],
                           cwd=rocq, capture_output=True, text=True)
    assert r.returncode == 0, r.stderr
    blocks = re.findall(r"^(Closed under the global context|Axioms:\n(?:(?!Closed|Axioms:).*\n?)*)", r.stdout, re.M)
    assert len(blocks) == len(names), (f, len(blocks), len(names))
    for n, k in zip(names, blocks):
        ax = [a for a in re.findall(r"^([A-Za-z_][\w.']*)(?= :|\n  :)", k, re.M) if a != "Axioms"]
        out.append((n, "".join(sorted(short[a] for a in ax)) or "none"))
groups = {}
for n, a in out: groups.setdefault(a, []).append(n)
ass = "Key: C = `Classical_Prop.classic`, D = `ClassicalDedekindReals.sig_not_dec`, S = `ClassicalDedekindReals.sig_forall_dec`, X = `FunctionalExtensionality.functional_extensionality_dep`.\n"
for a in sorted(groups): ass += "\n* **%s** (%d theorems): %s\n" % (a, len(groups[a]), ", ".join("`%s`" % n for n in sorted(groups[a])))
p = os.path.join(root, "DESIGN.md"); s = open(p).read()
def fill(s, tag, body):
    return re.sub(r"<!-- %s -->.*?<!-- /%s -->" % (tag, tag), lambda m: "<!-- %s -->\n%s\n<!-- /%s -->" % (tag, body, tag), s, flags=re.S)
s = fill(s, "files", table); s = fill(s, "assumptions", ass)
open(p, "w").write(s); print(len(files), "files", len(out), "theorems", {a: len(g) for a, g in groups.items()})
