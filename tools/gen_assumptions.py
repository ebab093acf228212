#!/usr/bin/env python3
"""Writes the section on assumptions of DESIGN.md (run from /verif after a build)."""
import collections, json, os, re, subprocess, tempfile

HEAD = re.compile(r"^\s*(?:Lemma|Theorem|Example|Corollary)\s+([A-Za-z0-9_']+)")
names = {}
for f in re.findall(r"theories/(P_\w+)\.v", open("rocq/_CoqProject").read()):
    for line in open(f"rocq/theories/{f}.v"):
        h = HEAD.match(line)
        if h:
            names[h.group(1)] = f
theorems = [t.split(".")[-1] for c in json.load(open("MANIFEST.json"))["claims"] for t in c["theorems"]]
here = os.path.abspath("rocq/theories")
groups = collections.OrderedDict()
with tempfile.TemporaryDirectory() as d:
    body = "Require " + " ".join("Verif." + f for f in sorted(set(names.values()))) + ".\n"
    for t in theorems:
        body += f'Redirect "{d}/{t}" Print Assumptions Verif.{names[t]}.{t}.\n'
    open(d + "/chk.v", "w").write(body)
    subprocess.run(["coqc", "-Q", here, "Verif", "chk.v"], cwd=d, check=True)
    for t in theorems:
        out = open(f"{d}/{t}.out").read()
        ax = [a for a in re.findall(r"^([A-Za-z_][\w.']*)\s*:", out, re.M) if a != "Axioms"]
        groups.setdefault(tuple(sorted(set(ax))), []).append(t)
text = "## Assumptions of each theorem\n"
for ax, ts in sorted(groups.items(), key=lambda g: len(g[0])):
    text += "\n**" + (", ".join(a.split(".")[-1] for a in ax) or "Closed under the global context") + f"** ({len(ts)}):\n"
    text += " ".join(ts) + "\n"
s = open("DESIGN.md").read()
mark = "<!-- assumptions -->\n"
open("DESIGN.md", "w").write(s[: s.index(mark) + len(mark)] + "\n" + text)
