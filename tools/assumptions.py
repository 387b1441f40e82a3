#!/usr/bin/env python3
"""Print Assumptions for every theorem Cnn_* (run after the build, from anywhere)."""
import re, glob, os, subprocess, tempfile
root = os.path.join(os.path.dirname(os.path.abspath(__file__)), '..', 'rocq')
th = os.path.join(root, 'theories')
mods, names = [], []
for f in sorted(glob.glob(th + '/Prop*.v')):
    mods.append(os.path.basename(f)[:-2])
    names += re.findall(r'^Theorem (C\d+\w*)', open(f).read(), re.M)
src = ''.join(f'From Verif Require {m}.\n' for m in mods) + ''.join(f'Import {m}.\n' for m in mods)
src += ''.join(f'Print Assumptions {n}.\n' for n in names)
with tempfile.TemporaryDirectory() as d:
    p = os.path.join(d, 'A.v'); open(p, 'w').write(src)
    out = subprocess.run(['coqc', '-Q', th, 'Verif', p], capture_output=True, text=True)
print(out.stderr)
closed = out.stdout.count('Closed under the global context')
print(f'{len(names)} theorems, {closed} closed under the global context')
if closed != len(names): print(out.stdout)
