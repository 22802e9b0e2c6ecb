#!/usr/bin/env python3
"""Run the model on datasets of the repository and compare the labels with the recorded ones.

usage: check_datasets.py [name ...]      (default: moons iris; about one minute together)

Writes a scratch Coq file outside the repository that evaluates fresh_run (ModelRun.v) on
test_datasets/<name>.csv with minPts = 5 and compares the labels with
test_datasets/clusters/java_5_<name>.csv.  It needs a finished build in ../rocq.  This is a
test of the model.  It is not part of the build, because coqchk has no virtual machine and
would need hours for it.
"""
import math, os, subprocess, sys, tempfile

ROCQ = os.path.join(os.path.dirname(os.path.abspath(__file__)), "..", "rocq")
DATA = "/repo/test_datasets"

def lines(path):
    return [[v for v in l.strip().split(",") if v] for l in open(path) if l.strip()]

def double(x):
    m, e = math.frexp(float(x))
    return "(%d, %d)" % (int(m * 2**53), e - 53)

def source(name):
    rows = lines("%s/%s.csv" % (DATA, name))
    clusters = lines("%s/clusters/java_5_%s.csv" % (DATA, name))
    n, cols = len(rows), len(rows[0])
    want = {int(i): int(c[0]) for c in clusters for i in c[1:]}
    return """From Verif Require Import Base F64 ModelDistance ModelSelect ModelRun PropOutlier PropRun.
From Flocq Require Import IEEE754.BinarySingleNaN.
Definition double (p : Z * Z) : f64 := binary_normalize 53 1024 eq_refl eq_refl mode_NE (fst p) (snd p) false.
Definition data : list (Z * Z) := [%s]%%Z.
Definition want : list nat := [%s].
Goal match fresh_run %d in_turn insertion_sort 5 (DDouble (map double data)) %d %d true with
     | Ok o => match o_res o with Some r => r_labels r = want | None => False end
     | _ => False end.
Proof. vm_compute. reflexivity. Abort.
""" % ("; ".join(double(v) for r in rows for v in r), "; ".join(str(want.get(i, 0)) for i in range(n)), 2 * n, n, cols)

for name in sys.argv[1:] or ["moons", "iris"]:
    with tempfile.TemporaryDirectory() as d:
        path = os.path.join(d, "check_%s.v" % name)
        open(path, "w").write(source(name))
        p = subprocess.run(["coqc", "-R", "theories", "Verif", path], cwd=ROCQ)
        print(name, "same labels" if p.returncode == 0 else "DIFFERENT", flush=True)
