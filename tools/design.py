"""Writes DESIGN.md: hand-written parts and the Print Assumptions of every
property theorem (needs a compiled rocq/theories)."""
import glob, os, re, subprocess, tempfile, shutil, json
R = os.path.dirname(os.path.dirname(os.path.abspath(__file__)))
T = R + "/rocq/theories"
AX = {"ClassicalDedekindReals.sig_forall_dec": "D", "ClassicalDedekindReals.sig_not_dec": "N",
      "FunctionalExtensionality.functional_extensionality_dep": "F", "Classical_Prop.classic": "C"}
prop = {t: c["property"] for c in json.load(open(R + "/MANIFEST.json"))["claims"] for t in c["theorems"]}
rows = []
for f in sorted(glob.glob(T + "/Props_*.v")):
    src = open(f).read()
    names = re.findall(r"^Print Assumptions (\w+)\.", src, re.M)
    d = tempfile.mkdtemp()
    shutil.copy(f, d + "/A_" + os.path.basename(f))
    out = subprocess.run(["coqc", "-Q", T, "Verif", d + "/A_" + os.path.basename(f)],
                         capture_output=True, text=True, check=True).stdout
    shutil.rmtree(d)
    blocks = re.split(r"^(?=Axioms:|Closed under)", out, flags=re.M)[1:]
    assert len(blocks) == len(names), (f, len(blocks), len(names))
    for n, b in zip(names, blocks):
        ax = re.findall(r"^([A-Z][\w.]*)(?=\s*:)", b.replace("Axioms:", ""), re.M)
        assert all(a in AX for a in ax), (n, ax)
        rows.append((prop.get(n, n[:3]), n, "".join(sorted(AX[a] for a in ax)) or "-"))
rows.sort(key=lambda r: (int(r[0][1:]), r[1]))
with open(R + "/DESIGN.md", "w") as o:
    o.write(open(R + "/tools/design_head.md").read())
    o.write(open(R + "/tools/design_tail.md").read())
    o.write("| property | theorem | axioms |\n|---|---|---|\n")
    for r in rows:
        o.write("| %s | `%s` | %s |\n" % r)
missing = [t for t in prop if t not in {r[1] for r in rows}]
print(len(rows), "theorems; without Print Assumptions:", missing)
