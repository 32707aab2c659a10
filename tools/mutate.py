#!/usr/bin/env python3
"""Seed wrong programs: apply one edit to the model in a scratch copy, rebuild, and report which proofs
no longer go through.  In the scratch copy only, a failing proof is replaced by an admitted one so that the
theorems built on it are still visited; at the end every theorem of MANIFEST.json is asked for its
assumptions, which shows which claims rest on a failed proof.
usage: mutate.py muts.json out.jsonl      (muts.json: list of {id,file,old,new,claim})"""
import json, os, re, shutil, subprocess, sys
SRC = os.environ.get("SRC", "/verif/rocq")
WORK = os.environ.get("WORK", "/tmp/mut/work")
HEAD = re.compile(r"^\s*(?:Local\s+|#\[[^\]]*\]\s*)?(Lemma|Theorem|Example|Corollary|Fact|Remark|Proposition|Instance)\s+([A-Za-z0-9_']+)", re.M)

def make():
    p = subprocess.run(["make", "-k", "-j3", "-f", "Makefile"], cwd=WORK, capture_output=True, text=True,
                       env=dict(os.environ, COQC="timeout 150 coqc"))
    return p.stdout + p.stderr

def main():
    muts = json.load(open(sys.argv[1])); out = sys.argv[2]
    claims = json.load(open(os.environ.get("MANIFEST", "/verif/MANIFEST.json")))["claims"]
    for m in muts:
        if os.path.exists(WORK): shutil.rmtree(WORK)
        shutil.copytree(SRC, WORK, symlinks=True)
        subprocess.run("coq_makefile -f _CoqProject -o Makefile COQC='timeout 150 coqc' >/dev/null 2>&1 || coq_makefile -f _CoqProject -o Makefile", shell=True, cwd=WORK)
        f = os.path.join(WORK, "theories", m["file"])
        s = open(f).read()
        if s.count(m["old"]) != 1:
            print(m["id"], "BAD PATTERN", s.count(m["old"])); continue
        open(f, "w").write(s.replace(m["old"], m["new"]))
        failed, broken, rounds = [], [], 0
        began = os.path.getmtime(f) - 1
        while rounds < 40:
            rounds += 1
            log = make()
            errs = re.findall(r'File "\./(theories/[^"]+)", line (\d+), characters [^\n]*\nError', log)
            slow = re.findall(r"\*\*\* \[[^\]]*: (theories/\S+)\.vo\] Error 124", log)
            if not errs and not slow: break
            prog = False
            for (fn, ln) in errs:
                p = os.path.join(WORK, fn); t = open(p).read(); lines = t.split("\n")
                offs = sum(len(x) + 1 for x in lines[:int(ln)])
                hs = [h for h in HEAD.finditer(t) if h.start() < offs]
                if not hs: broken.append(fn + ":" + ln); continue
                h = hs[-1]; rest = t[h.start():]
                q = re.search(r"\b(Qed|Defined)\.", rest); a = re.search(r"\bProof\b[^.]*\.", rest)
                if not q or not a or offs > h.start() + q.end() + 200 or "Admitted" in rest[:q.end()]:
                    broken.append(fn + ":" + ln); continue
                t = t[:h.start() + a.start()] + "Proof. Admitted." + t[h.start() + q.end():]
                open(p, "w").write(t); failed.append(h.group(2)); prog = True
            for fn in slow:
                if fn not in broken: broken.append(fn + " (timeout)")
            if not prog: break
        # which claims rest on a failed proof
        ths = [t for c in claims for t in c["theorems"]]
        chk = os.path.join(WORK, "Chk.v")
        mods = [x.strip()[len("theories/"):-2].replace("/", ".") for x in open(os.path.join(WORK, "_CoqProject")) if x.strip().endswith(".v") and "/Props/" in x]
        built = [x for x in mods if os.path.exists(os.path.join(WORK, "theories", x.replace(".", "/") + ".vo"))]
        # a module that was not rebuilt is untouched by the edit
        stale = {x for x in built if os.path.getmtime(os.path.join(WORK, "theories", x.replace(".", "/") + ".vo")) < began}
        def where(th):
            for x in mods:
                if re.search(r"(Theorem|Lemma|Corollary|Fact|Remark|Proposition)\s+" + re.escape(th) + r"(?![A-Za-z0-9_'])", open(os.path.join(WORK, "theories", x.replace(".", "/") + ".v")).read()): return x
        with open(chk, "w") as g:
            for x in built:
                if x not in stale: g.write("From Verif Require %s.\n" % x)
            for t in ths:
                w = where(t)
                if w in stale: continue
                if w in built: g.write('Goal True. idtac "@@%s". Abort.\nPrint Assumptions Verif.%s.%s.\n' % (t, w, t))
        r = subprocess.run(["coqc", "-Q", "theories", "Verif", "Chk.v"], cwd=WORK, capture_output=True, text=True)
        rest = {}
        for blk in r.stdout.split("@@")[1:]:
            name, _, body = blk.partition("\n")
            rest[name.strip()] = "Closed under" not in body.split("@@")[0]
        dep = sorted({t for t in ths if where(t) not in stale and rest.get(t, True)})
        direct = [x for x in failed if x in ths]
        res = dict(id=m["id"], definition=m["definition"], file=m["file"], edit={"from": m["old"], "to": m["new"]}, claim_broken=m["claim"],
                   failed_proofs=failed, unbuilt=broken, theorems_failed=dep)
        with open(out, "a") as g: g.write(json.dumps(res) + "\n")
        print(m["id"], m["claim"], "| failed:", failed[:6], "| unbuilt:", broken[:3], "| claims:", sorted({t.split("_")[0] for t in dep}), flush=True)
main()
