#!/usr/bin/env python3
"""Checks that every definition of the model (rocq/theories/Model) carries a comment that says which lines of
/repo it models, and that the cited files and lines exist.
  cites.py            report
  cites.py add FILE   read 'Module name<TAB>comment' lines and put the comments in front of the definitions"""
import re, sys, glob, os
ROOT = os.path.join(os.path.dirname(os.path.abspath(__file__)), '..', 'rocq', 'theories', 'Model')
REPO = '/repo'
DEF = re.compile(r'^[ ]*(?:#\[[^\]]*\]\s*)?(Definition|Fixpoint|Inductive|Record|Variant|CoInductive|Function|Equations|with)\s+(\w+)', re.M)
CITE = re.compile(r'([\w./-]+\.(?:go|proto|ts))(?::(\d+)(?:-(\d+))?)?')
def items(s):
    # blank out comments so that words inside them are not taken for definitions
    out, depth, i = list(s), 0, 0
    while i < len(s):
        if s.startswith('(*', i): depth += 1; out[i] = out[i+1] = ' '; i += 2; continue
        if s.startswith('*)', i) and depth: depth -= 1; out[i] = out[i+1] = ' '; i += 2; continue
        if depth and s[i] != '\n': out[i] = ' '
        i += 1
    for m in DEF.finditer(''.join(out)):
        if m.group(1) == 'with':
            # only mutual definitions, not match .. with
            if s[:m.start()].rstrip().endswith('match') : continue
            if not re.match(r'[ ]*with\s+\w+\s*(\(|:|\{)', s[m.start():]): continue
        yield m.start(), m.group(2)
def comment_before(s, st):
    pre = s[:st].rstrip()
    if not pre.endswith('*)'): return None
    d, i = 0, len(pre)
    while i > 0:
        if pre.startswith('*)', i-2): d += 1; i -= 2; continue
        if pre.startswith('(*', i-2):
            d -= 1; i -= 2
            if d == 0: return pre[i:]
            continue
        i -= 1
def good(c):
    return c is not None and (any(m.group(2) for m in CITE.finditer(c)) or 'external' in c.lower())
def main():
    if len(sys.argv) > 2 and sys.argv[1] == 'add':
        per = {}
        for l in open(sys.argv[2]):
            if not l.strip(): continue
            k, c = l.rstrip('\n').split('\t', 1)
            mod, n = k.split()
            per.setdefault(mod, {})[n] = c
        for mod, d in per.items():
            p = os.path.join(ROOT, mod + '.v'); s = open(p).read()
            its = [(st, n) for st, n in items(s) if n in d]
            seen = {n for _, n in its}
            for n in d:
                if n not in seen: print('no such definition', mod, n)
            for st, n in reversed(its):
                ind = re.match(r'[ ]*', s[st:]).group(0)
                old = comment_before(s, st)
                if old is not None and not good(old):
                    i = s[:st].rindex(old); i = s.rindex('\n', 0, i) + 1 if '\n' in s[:i] else 0
                    s = s[:i] + s[st:]; st = i
                if s[st:].lstrip().startswith('with'):
                    s = s[:st] + ind + '(* ' + d[n] + ' *)\n' + s[st:]
                else:
                    s = s[:st] + ind + '(** ' + d[n] + ' *)\n' + s[st:]
            open(p, 'w').write(s)
        return
    tot = bad = 0
    for p in sorted(glob.glob(ROOT + '/*.v')):
        s = open(p).read(); mod = os.path.basename(p)[:-2]; miss = []
        for st, n in items(s):
            tot += 1
            if not good(comment_before(s, st)): bad += 1; miss.append(n)
        if miss: print(mod, len(miss), ' '.join(miss))
        for m in CITE.finditer(s):
            f = os.path.join(REPO, m.group(1))
            if not os.path.exists(f):
                if m.group(2): print('  no file:', mod, m.group(0))
            elif m.group(2):
                n = len(open(f, errors='replace').read().split('\n'))
                if int(m.group(3) or m.group(2)) > n: print('  beyond the end:', mod, m.group(0), n)
    print(tot, 'definitions,', bad, 'without a citation')
main()
