#!/usr/bin/env python3
"""Translates the Mathematica-generated C++ files of src/kinematics/robots/mini_cheetah into
Coq (theories/KinGen.v): every assignment, in program order.  Decimal literals become the
decimal fraction they denote.  Fails on anything it does not recognise."""
import os, re, sys
D = "/repo/src/kinematics/robots/mini_cheetah/"
OUT = os.path.join(os.path.dirname(os.path.abspath(__file__)), "../rocq/theories/KinGen.v")

def parse(f):
    raw = open(D + f).read()
    i = raw.index("static void output1"); j = raw.index("{", i); k = raw.index("\n}", j)
    lines = (raw[:i].count("\n") + 1, raw[:k].count("\n") + 2)
    lets, outs, decl = [], [], set()
    for s in raw[j + 1:k].split(";"):
        s = re.sub(r"\s+", " ", s).strip()
        if not s: continue
        m = re.match(r"double (\w+)$", s)
        if m: decl.add(m.group(1)); continue
        m = re.match(r"(t\d+) ?= ?(.*)$", s)
        if m:
            assert m.group(1) in decl and m.group(1) not in dict(lets)
            assert all(v in dict(lets) for v in re.findall(r"t\d+", m.group(2)))
            lets.append((m.group(1), m.group(2))); continue
        m = re.match(r"p_output1\((\d+)\) ?= ?(.*)$", s)
        assert m, (f, s)
        assert all(v in dict(lets) for v in re.findall(r"t\d+", m.group(2)))
        outs.append((int(m.group(1)), m.group(2)))
    sig = r"Eigen::Matrix<double, ?(\d+), ?(\d+)>"
    m = re.search(sig + r" ?& ?p_output1", raw[i:j]); dims = (int(m.group(1)), int(m.group(2)))
    rest = raw[k:]
    w = re.search(sig + r" (\w+)\(\s*const Eigen::Matrix<double, ?12, ?1> ?& ?var1\)", rest)
    assert w and (int(w.group(1)), int(w.group(2))) == dims and w.group(3) == f[:-4]
    assert "output1(p_output1, var1); return p_output1;" in re.sub(r"\s+", " ", rest)
    return f[:-4], lets, outs, dims, lines

def lit(m):
    a, b = m.group(0).split(".") if "." in m.group(0) else (m.group(0), "")
    b = b.rstrip("0")
    n = int(a + b)
    return str(n) if not b else "(%d / %d)" % (n, 10 ** len(b))
def expr(e):
    e = re.sub(r"var1\[(\d+)\]", r"(q @\1%nat)", e)
    e = re.sub(r"(?<![\w@.])(\d+\.?\d*)", lit, e)
    e = e.replace("@", "").replace("Cos(", "cos (").replace("Sin(", "sin (")
    e = re.sub(r"\(\(q (\d+%nat)\)\)", r"(q \1)", e)
    assert re.fullmatch(r"[\w\s+*/().%-]*", e), e
    return e.strip()

out = ["(** GENERATED by tools/gen_kin.py from src/kinematics/robots/mini_cheetah/*.cpp; do not edit.",
       "    One definition per function: its assignments to p_output1, in program order, as (cell,",
       "    value).  Cos/Sin/Power macros as in those files; decimal literals exact. *)",
       "From Coq Require Import Reals List.", "Import ListNotations.", "Local Open Scope R_scope.", ""]
for f in sorted(os.listdir(D)):
    name, lets, outs, dims, lines = parse(f)
    out.append("(** %s:%d-%d, %dx%d *)" % (f, lines[0], lines[1], *dims))
    out.append("Definition out_%s (q : nat -> R) : list (nat * R) :=" % name)
    for a, e in lets: out.append("  let %s := %s in" % (a, expr(e)))
    out.append("  [" + ";\n   ".join("(%d%%nat, %s)" % (k, expr(e)) for k, e in outs) + "].")
    out.append("")
open(OUT, "w").write("\n".join(out))
print("ok")
