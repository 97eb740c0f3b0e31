#!/usr/bin/env python3
"""Regenerate rocq/theories/Props*.v and MANIFEST.json from tools/claims.py.

claims.py: list of (property, status, lemma names, note).
Each lemma statement is copied textually from its source file into the Props file of that
source file and closed by `exact lemma`, followed by Print Assumptions.
"""
import json, re, os, glob
root = os.path.dirname(os.path.dirname(os.path.abspath(__file__)))
th = os.path.join(root, 'rocq', 'theories')
import sys; sys.path.insert(0, os.path.join(root, 'tools')); sys.dont_write_bytecode = True
from claims import CLAIMS
claims = [dict(property=p, status=s, theorems=t.split(), note=n) for p, s, t, n in CLAIMS]
src = {}
for f in sorted(glob.glob(th + '/*.v')):
    b = os.path.basename(f)[:-2]
    if b.startswith('Props'): continue
    t = open(f).read()
    for m in re.finditer(r'^(Theorem|Lemma|Corollary|Example)\s+([\w\']+)(.*?)\.\s*\n?\s*Proof\b', t, re.S | re.M):
        src.setdefault(m.group(2), (b, m.group(3)))
    src.setdefault('__head__' + b, None)
heads = {}
for f in glob.glob(th + '/*.v'):
    b = os.path.basename(f)[:-2]
    t = open(f).read()
    lines = []
    for m in re.finditer(r'^(From [^.]*(?:\.[A-Za-z]\w*)*[^.]*? (?:Require )?(?:Import|Export) .*?\.|Import ListNotations\.|Open Scope \w+\.|Local Open Scope \w+\.)\s*$', t, re.M | re.S):
        lines.append(m.group(1))
    heads[b] = lines
out, manifest, used = {}, [], set()
for c in claims:
    names = []
    for th_name in c['theorems']:
        if th_name not in src: raise SystemExit(f'{c["property"]}: no theorem {th_name}')
        b, stmt = src[th_name]
        n = f'{c["property"]}_{th_name}'
        names.append(n)
        out.setdefault(b, []).append((c['property'], n, th_name, stmt))
    manifest.append({'property': c['property'], 'status': c['status'], 'theorems': names, 'note': c['note']})
old = {f: open(f).read() for f in glob.glob(th + '/Props*.v')}
for f in old:
    if os.path.basename(f)[5:-2] not in out: os.remove(f)
mods = []
for b in sorted(out):
    p = f'Props{b}'
    mods.append(p)
    o = [f'(** Property theorems proved in [{b}.v]; generated by tools/genprops.py. *)\n']
    o += [l + '\n' for l in heads[b]]
    o.append(f'From Verif Require Import {b}.\n\n')
    for prop, n, t, stmt in out[b]:
        o.append(f'Theorem {n}{stmt}.\nProof. exact (@{t}). Qed.\nPrint Assumptions {n}.\n\n')
    f = os.path.join(th, p + '.v')
    # unchanged files keep their time stamp
    if old.get(f) != ''.join(o): open(f, 'w').write(''.join(o))
json.dump({'claims': manifest}, open(os.path.join(root, 'MANIFEST.json'), 'w'), indent=1)
# _CoqProject: keep non-Props entries
cp = os.path.join(root, 'rocq', '_CoqProject')
ls = [l for l in open(cp).read().split('\n') if l.strip() and '/Props' not in l]
ls += [f'theories/{m}.v' for m in mods]
open(cp, 'w').write('\n'.join(ls) + '\n')
print(mods, sum(len(v) for v in out.values()), 'theorems')
