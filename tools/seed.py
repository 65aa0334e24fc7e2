#!/usr/bin/env python3
"""Try a wrong program: edit a definition of the model in a scratch copy, rebuild,
and report which property theorems no longer hold.

usage: seed.py mutations.json     (a list of {file, old, new, definition, edit, claim, expect})
A lemma whose proof no longer goes through is admitted in the scratch copy, so
that the theorems depending on it show up in their Print Assumptions.
Only files of the areas that depend on the edited file are rebuilt.
"""
import json, os, re, shutil, subprocess, sys
SRC = os.environ.get('SEED_SRC', '/verif/rocq')
SCR = os.environ.get('SEED_SCR', '/tmp/seed')
HEAD = re.compile(r'^\s*(?:#\[[^\]]*\]\s*)?(?:Local\s+|Global\s+)?(Lemma|Theorem|Example|Corollary|Fact|Remark)\s+([\w\']+)', re.M)
DEFN = re.compile(r'^\s*(?:Definition|Fixpoint|Inductive|Record|Notation)\s+"?([\w\']+)', re.M)

def order():
    return [l.strip()[len('theories/'):-2] for l in open(SRC + '/_CoqProject') if l.strip().endswith('.v')]

def deps(name):
    """Modules of this project required by a file."""
    t = open(f'{SRC}/theories/{name}.v').read()
    out = set()
    for m in re.finditer(r'From Verif Require\s+(?:Import\s+|Export\s+)?([^.]*)\.', t):
        out |= set(m.group(1).split())
    return out

def closure(changed):
    names = order(); dep = {n: deps(n) for n in names}
    todo = {changed}
    for n in names:
        if n in todo or dep[n] & todo:
            todo.add(n)
    return [n for n in names if n in todo]

def compile(name, tmo):
    p = subprocess.run(['timeout', str(tmo), 'coqc', '-time', '-Q', '.', 'Verif', name + '.v'], cwd=SCR, capture_output=True, text=True)
    return p.returncode, p.stdout + p.stderr

def admit(name, pos):
    """Admit the statement whose proof contains byte offset pos; returns its name or None."""
    path = f'{SCR}/{name}.v'; b = open(path, 'rb').read(); t = b.decode()
    cpos = len(b[:pos].decode(errors='ignore'))
    heads = [m for m in HEAD.finditer(t) if m.start() <= cpos]
    if not heads: return None
    h = heads[-1]
    m = re.compile(r'\b(Qed|Defined|Admitted)\.').search(t, h.end())
    if not m or m.end() < cpos: return None
    pr = re.compile(r'\bProof\.').search(t, h.end())
    if not pr or pr.start() > m.start() or cpos < pr.start():
        # the statement itself is wrong: drop it
        new = t[:h.start()] + '\n(* dropped *)' + t[m.end():]
        nxt = re.compile(r'\s*Print Assumptions [\w\']+\.').match(t, m.end())
        if nxt: new = t[:h.start()] + '\n(* dropped *)' + t[nxt.end():]
    else:
        new = t[:pr.start()] + 'Admitted.' + t[m.end():]
    open(path, 'w').write(new)
    return h.group(2)

def run(mu):
    tmo = mu.get('tmo', 60)
    if os.path.exists(SCR): shutil.rmtree(SCR)
    shutil.copytree(SRC + '/theories', SCR)
    path = f"{SCR}/{mu['file']}.v"; t = open(path).read()
    if t.count(mu['old']) != 1:
        return dict(error=f"old text occurs {t.count(mu['old'])} times")
    t = t.replace(mu['old'], mu['new'])
    for old, new in mu.get('also', []):   # the same edit where the code is written a second time
        if t.count(old) != 1: return dict(error=f"text of the second edit occurs {t.count(old)} times")
        t = t.replace(old, new)
    open(path, 'w').write(t)
    todo = closure(mu['file']); only = mu.get('only')
    broken = {}; failed = []; err = None
    for n in todo:
        if only and n != mu['file'] and not any(n.startswith(o) for o in only): continue
        for _ in range(400):
            rc, out = compile(n, tmo)
            if rc == 0: break
            if rc == 124:
                cs = re.findall(r'^Chars (\d+) - (\d+)', out, re.M)
                pos = int(cs[-1][1]) + 2 if cs else 0
            else:
                m = re.search(r'File "\./%s\.v", line (\d+), characters (\d+)-' % n, out)
                if not m: err = out[-400:]; break
                lines = open(f'{SCR}/{n}.v', 'rb').read().split(b'\n')
                pos = sum(len(l) + 1 for l in lines[:int(m.group(1)) - 1]) + int(m.group(2))
            w = admit(n, pos)
            if not w: err = f'{n}: ' + out[-600:]; break
            broken.setdefault(n, []).append(w)
        if err: break
        if n.endswith('_props'):
            # outputs of Print Assumptions, in order
            names = re.findall(r'^Print Assumptions ([\w\']+)\.', open(f'{SCR}/{n}.v').read(), re.M)
            outs = re.split(r'\n(?=Closed under the global context|Axioms:)', '\n' + re.sub(r'^Chars .*\n?', '', out, flags=re.M))
            outs = [o for o in outs if o.startswith(('Closed', 'Axioms'))]
            for nm, o in zip(names, outs):
                if o.startswith('Axioms'): failed.append(nm)
            for w in broken.get(n, []):
                if w not in failed: failed.append(w)
    if err: return dict(error=err, broken=broken)
    return dict(broken=broken, failed=failed)

if __name__ == '__main__':
    mus = json.load(open(sys.argv[1]))
    res = []
    for mu in mus:
        r = run(mu)
        res.append(dict(mu, result=r))
        print(mu['definition'], '|', mu['edit'])
        if 'error' in r: print('   ERROR', r['error'][:800]); continue
        print('   failed:', ' '.join(r['failed']) or 'NONE')
        print('   lemmas:', ' '.join(w for v in r['broken'].values() for w in v)[:300], flush=True)
    json.dump(res, open(sys.argv[1].replace('.json', '.out.json'), 'w'), indent=1)
