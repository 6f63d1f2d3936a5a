"""Seeded-bug runner: applies one textual edit to a scratch copy of the model and rebuilds.
usage: seed.py EDITS.json OUT.jsonl [scratchdir]
With FAST set in the environment the build stops at the first failure.
EDITS.json: list of {"id","file","old","new","definition","edit","claim"}"""
import json, os, re, shutil, subprocess, sys
edits = json.load(open(sys.argv[1])); out = sys.argv[2]
scratch = sys.argv[3] if len(sys.argv) > 3 else "/tmp/seed"
SRC = os.environ.get("SEEDBASE", "/tmp/seedbase")
NAME = re.compile(r"^\s*(?:Theorem|Lemma|Corollary|Example|Remark|Fact|Definition|Fixpoint|Program Definition|Instance|Local Lemma)\s+([A-Za-z0-9_']+)")
def enclosing(path, line):
    name = None
    for n, l in enumerate(open(path), 1):
        if n > line: break
        m = NAME.match(l)
        if m: name = m.group(1)
    return name
done = set()
if os.path.exists(out):
    done = {json.loads(l)["id"] for l in open(out)}
for e in edits:
    if e["id"] in done: continue
    shutil.rmtree(scratch, ignore_errors=True)
    subprocess.run(["cp", "-a", SRC, scratch], check=True)
    p = f"{scratch}/theories/{e['file']}"
    s = open(p).read()
    if s.count(e["old"]) != 1:
        print("BAD EDIT", e["id"], s.count(e["old"])); continue
    open(p, "w").write(s.replace(e["old"], e["new"]))
    subprocess.run("coq_makefile -f _CoqProject -o Makefile >/dev/null 2>&1", shell=True, cwd=scratch)
    r = subprocess.run(f"timeout 1500 nice make {'' if os.environ.get('FAST') else '-k'} -j2 'COQC=timeout 240 coqc' 2>&1", shell=True, cwd=scratch, capture_output=True, text=True)
    fails = []
    for m in re.finditer(r'File "\./theories/([A-Za-z0-9_]+\.v)", line (\d+)[^\n]*\n(Error|[^\n]*\nError)', r.stdout):
        fails.append(f"{m.group(1)[:-2]}.{enclosing(scratch + '/theories/' + m.group(1), int(m.group(2)))}")
    named = {f.split(".")[0] for f in fails}
    for m in re.finditer(r"theories/(\w+)\.vo\] Error", r.stdout):
        if m.group(1) not in named: fails.append(m.group(1) + ".(proof search timed out)")
    blocked = []
    for f in sorted(os.listdir(scratch + "/theories")):
        if f.startswith("T_") and f.endswith(".v"):
            vo = scratch + "/theories/" + f + "o"
            ok = os.path.exists(vo) and os.path.getmtime(vo) >= os.path.getmtime(p)
            # a T file not depending on the edited model keeps its old .vo
            dep = subprocess.run(["make", "-q", f"theories/{f}o"], cwd=scratch).returncode == 0
            if not dep: blocked.append(f[:-2])
    e2 = {k: e[k] for k in ("id", "definition", "edit", "claim")}
    e2["failed_at"] = fails; e2["theorem_files_broken"] = blocked
    open(out, "a").write(json.dumps(e2) + "\n")
    print(e["id"], "SURVIVED" if not fails else "killed", fails, blocked, flush=True)
