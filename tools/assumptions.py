#!/usr/bin/env python3
"""Ask Coq which axioms every theorem of MANIFEST.json rests on and write ASSUMPTIONS.md.

Needs a finished build in rocq/ (the .vo files)."""
import glob, json, os, re, subprocess

ROOT = os.path.dirname(os.path.dirname(os.path.abspath(__file__)))
groups = {}
for path in sorted(glob.glob(os.path.join(ROOT, "rocq/theories/Props_*.v"))):
    mod = os.path.basename(path)[:-2]
    names = re.findall(r"^Theorem\s+(C\d\d+_\w+)", open(path).read(), re.M)
    script = "From Verif Require %s.\n" % mod
    for n in names:
        script += 'Fail Check begin_%s.\nPrint Assumptions %s.%s.\n' % (n, mod, n)
    out = subprocess.run(["coqtop", "-q", "-quiet", "-Q", "theories", "Verif"], input=script, text=True,
                         cwd=os.path.join(ROOT, "rocq"), capture_output=True)
    out = out.stdout + out.stderr
    parts = re.split(r"The reference begin_(\w+) was", out)
    for n, t in zip(parts[1::2], parts[2::2]):
        if "Closed under the global context" in t:
            ax = ()
        else:
            ax = tuple(sorted(set(re.findall(r"^([A-Za-z_][\w.]*)\s*(?::|$)", t.split("Axioms:")[1], re.M)) - {"Coq"}))
        groups.setdefault(ax, []).append(n)
lines = ["# What Print Assumptions lists for each theorem", "",
         "Generated by tools/assumptions.py from the compiled files. All axioms below are declared by Coq's standard",
         "library (Reals, Classical_Prop, FunctionalExtensionality, ssr); none is declared in this development.", ""]
for ax, names in sorted(groups.items(), key=lambda x: len(x[0])):
    lines.append("## " + ("Closed under the global context" if not ax else "%d axioms" % len(ax)) + " (%d theorems)" % len(names))
    lines.append("")
    if ax:
        lines += ["Axioms: " + ", ".join("`%s`" % a for a in ax) + ".", ""]
    lines += [", ".join(sorted(names)) + ".", ""]
open(os.path.join(ROOT, "ASSUMPTIONS.md"), "w").write("\n".join(lines))
print({len(a): len(n) for a, n in groups.items()})
