#!/usr/bin/env python3
"""Transcribe the constant tables of /repo/src/data into Coq (theories/DataCore.v, DataPG.v, DataSG.v).
Only regular expressions over the source text; run as `python3 tools/gen_data.py` from /verif."""
import re, os
src = '/repo/src/data/'
out = os.path.join(os.path.dirname(os.path.abspath(__file__)), '../rocq/theories/')
core = open(src + 'core.rs').read()
pg = open(src + 'pointgroup.rs').read()
sg = open(src + 'spacegroup.rs').read()

def z(x):
    x = int(x)
    return str(x) if x >= 0 else '(%d)' % x

HEAD = '(** %s\n    Generated by /verif/tools/gen_data.py from the source text; entries in source order. *)\nFrom Coq Require Import ZArith List String.\nFrom Verif Require Import Num Mat.\nImport ListNotations.\nOpen Scope Z_scope.\n\n'

# ---------------- core.rs
o = HEAD % 'Enumerations and tables of /repo/src/data/core.rs.'
def enum(name, a, b):
    body = re.search(r'pub enum %s \{(.*?)\}' % name, core, re.S).group(1)
    cs = [c.strip() for c in body.split(',') if c.strip()]
    return cs
cent = enum('Centering', 11, 20); lsys = enum('LatticeSystem', 53, 62); brav = enum('BravaisType', 102, 120)
o += '(** core.rs 11-20 *)\nInductive centering := ' + ' | '.join('C' + c for c in cent) + '.\n\n'
o += '(** core.rs 53-62 *)\nInductive lattice_system := ' + ' | '.join(lsys) + '.\n\n'
o += '(** core.rs 102-120 *)\nInductive bravais := ' + ' | '.join(brav) + '.\n\n'
def fromstr(name):
    blk = re.search(r'impl FromStr for %s \{(.*?)\n\}' % name, core, re.S).group(1)
    return re.findall(r'"(\w+)" => Ok\(%s::(\w+)\)' % name, blk)
def disp(name):
    blk = re.search(r'impl Display for %s \{(.*?)\n\}' % name, core, re.S).group(1)
    return re.findall(r'%s::(\w+) => write!\(f, "(\w+)"\)' % name, blk)
o += '(** core.rs 22-34: Display for Centering *)\nDefinition centering_to_string (c : centering) : string :=\n  match c with\n'
for a, b in disp('Centering'): o += '  | C%s => "%s"\n' % (a, b)
o += '  end.\n\n'
o += '(** core.rs 36-51: FromStr for Centering *)\nDefinition centering_table : list (string * centering) :=\n  [' + ';\n   '.join('("%s"%%string, C%s)' % (a, b) for a, b in fromstr('Centering')) + '].\n\n'
o += '(** core.rs 64-76: Display for LatticeSystem *)\nDefinition lattice_system_to_string (l : lattice_system) : string :=\n  match l with\n'
for a, b in disp('LatticeSystem'): o += '  | %s => "%s"\n' % (a, b)
o += '  end.\n\n'
o += '(** core.rs 78-100: FromStr for LatticeSystem *)\nDefinition lattice_system_table : list (string * lattice_system) :=\n  [' + ';\n   '.join('("%s"%%string, %s)' % (a, b) for a, b in fromstr('LatticeSystem')) + '].\n\n'
o += '(** core.rs 136-156: Display for BravaisType *)\nDefinition bravais_to_string (b : bravais) : string :=\n  match b with\n'
for a, b in disp('BravaisType'): o += '  | %s => "%s"\n' % (a, b)
o += '  end.\n\n'
o += '(** core.rs 160-211 LATTICE_CHAR_TO_BRAVAIS *)\nDefinition LATTICE_CHAR_TO_BRAVAIS : list (Z * bravais) :=\n  ['
o += ';\n   '.join('(%s, %s)' % (a, b) for a, b in re.findall(r'\((\d+), BravaisType::(\w+)\)', core)) + '].\n\n'
o += '(** core.rs 214-268 LATTICE_CHAR_TO_CONV_TRANS *)\nDefinition LATTICE_CHAR_TO_CONV_TRANS : list (Z * mat Z) :=\n  ['
rows = []
for a, b in re.findall(r'\((\d+), Matrix3::(new\([^)]*\)|identity\(\))\)', core):
    rows.append('(%s, %s)' % (a, 'zmat_id' if b[0] == 'i' else 'M ' + ' '.join(z(x) for x in b[4:-1].split(','))))
o += ';\n   '.join(rows) + '].\n\n'
o += '''(** core.rs 271-303 CENTERING_TO_PRIM_TRANS: Matrix4<isize>, of which the code only ever reads the
    upper left 3x3 block and m44; kept here as that pair. *)
Definition CENTERING_TO_PRIM_TRANS : list (centering * (mat Z * Z)) :=\n  ['''
rows = []
cp = core[core.index('CENTERING_TO_PRIM_TRANS'):]
cp = re.sub(r'//.*', '', cp)
for a, b in re.findall(r'Centering::(\w),\s*Matrix4::(new\([^)]*\)|identity\(\))', cp):
    if b[0] == 'i': m = [1,0,0,0, 0,1,0,0, 0,0,1,0, 0,0,0,1]
    else: m = [int(x) for x in b[4:-1].split(',')]
    assert len(m) == 16
    rows.append('(C%s, (M %s, %d))' % (a, ' '.join(z(m[4*i+j]) for i in range(3) for j in range(3)), m[15]))
o += ';\n   '.join(rows) + '].\n'
open(out + 'DataCore.v', 'w').write(o)

# ---------------- pointgroup.rs
o = HEAD % 'Tables of /repo/src/data/pointgroup.rs.'
o = o.replace('Num Mat.', 'Num Mat DataCore.')
o += '(** pointgroup.rs 7-42 *)\nDefinition PG_NUM_TO_SYMBOL : list (Z * string) :=\n  [' + ';\n   '.join('(%s, "%s"%%string)' % t for t in re.findall(r'\((\d+), "([^"]+)"\)', pg)) + '].\n\n'
o += '(** pointgroup.rs 45-63 *)\nDefinition BRAVAIS_TO_HOLOHEDRY_NUM : list (bravais * Z) :=\n  [' + ';\n   '.join('(%s, %s)' % t for t in re.findall(r'\(BravaisType::(\w+), (\d+)\)', pg)) + '].\n\n'
o += '(** pointgroup.rs 66-101 *)\nDefinition PG_NUM_TO_GENERATOR_MATRICES : list (Z * list Z) :=\n  [' + ';\n   '.join('(%s, [%s])' % (a, b.replace(', ', '; ')) for a, b in re.findall(r'\((\d+), Vec::from\(\[([^\]]*)\]\)\)', pg)) + '].\n'
open(out + 'DataPG.v', 'w').write(o)

# ---------------- spacegroup.rs
i = sg.index('SG_NUM_TO_FULL_MATRICES')
o = HEAD % 'Tables of /repo/src/data/spacegroup.rs.'
o = o.replace('Num Mat.', 'Num Mat DataCore.')
syms = re.findall(r'\((\d+), "([^"]+)"\)', sg[:i])
o += '(** spacegroup.rs 7-240 *)\nDefinition SG_NUM_TO_SYMBOL : list (Z * string) :=\n  [' + ';\n   '.join('(%s, "%s"%%string)' % t for t in syms) + '].\n\n'
tab = []
for line in sg[i:].splitlines():
    m = re.search(r'LatticeSystem::(\w+),\s*$', line)
    if m: tab.append((m.group(1), [])); continue
    m = re.match(r'\s*\((\d+),\s*$', line)
    if m: tab[-1][1].append((m.group(1), [])); continue
    m = re.match(r'\s*\((\d+), Vec::from\(\[([^\]]*)\]\)\),', line)
    if m: tab[-1][1][-1][1].append((m.group(1), m.group(2)))
assert sum(len(c) for _, b in tab for _, c in b) == 230 and len(syms) == 230
assert sg[i:].count('Vec::from') == 230
o += '(** spacegroup.rs 244-581: lattice system -> group order -> number -> encoded operations *)\nDefinition SG_NUM_TO_FULL_MATRICES : list (lattice_system * list (Z * list (Z * list Z))) :=\n  ['
o += ';\n   '.join('(%s,\n    [%s])' % (s, ';\n     '.join('(%s,\n      [%s])' % (n, ';\n       '.join('(%s, [%s])' % (g, c.replace(', ', '; ')) for g, c in gs)) for n, gs in b)) for s, b in tab)
o += '].\n'
open(out + 'DataSG.v', 'w').write(o)
