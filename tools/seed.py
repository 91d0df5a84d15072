"""Scratch experiments: does a wrong model still prove the theorems?

  seed.py prepare BASE          once: BASE is a copy of rocq/, built, with the axiom seed_cheat at the end of Base.v
  seed.py run BASE MUTANTS OUT [k/n]   MUTANTS: python file defining `mutants` = list of dicts
                                 (id, file, definition, old, new, edit, claim, expect)

For a mutant, the edited file and everything depending on it are compiled again in a copy of BASE. A proof that does not
go through any more is replaced by the axiom and compilation goes on; at the end Print Assumptions tells which property
theorems rest on a broken proof. Nothing of this is in the delivered development.
"""
import sys, os, re, json, subprocess, shutil, importlib.util

START = re.compile(r'^\s*(?:Local |Global |#\[[^\]]*\]\s*)*(Lemma|Theorem|Corollary|Example|Remark|Fact|Proposition)\s+(\w+)', re.M)

def order(base):
    fs = [l.strip() for l in open(base + '/_CoqProject') if l.strip().endswith('.v')]
    return [os.path.basename(f)[:-2] for f in fs]

def deps(base):
    out = subprocess.run(['coqdep', '-Q', 'theories', 'Verif'] + ['theories/%s.v' % m for m in order(base)], cwd=base, capture_output=True, text=True).stdout
    d = {}
    for l in out.splitlines():
        m = re.match(r'theories/(\w+)\.vo\b[^:]*:(.*)', l)
        if m:
            d[m[1]] = [x for x in re.findall(r'theories/(\w+)\.vo\b', m[2])]
    return d

def topo(base):
    d, res = deps(base), []
    def go(m):
        if m in res: return
        for x in d.get(m, []): go(x)
        res.append(m)
    for m in order(base): go(m)
    return res, d

def coqc(dir, mod, timeout=240):
    """returns (ok, offset of the error, text)"""
    p = subprocess.Popen(['coqc', '-time', '-Q', '.', 'Verif', mod + '.v'], cwd=dir, stdout=subprocess.PIPE, stderr=subprocess.STDOUT)
    try:
        out, _ = p.communicate(timeout=timeout)
        to = False
    except subprocess.TimeoutExpired:
        p.kill(); out, _ = p.communicate(); to = True
    out = out.decode('utf8', 'replace')
    if p.returncode == 0 and not to: return True, None, out
    src = open(dir + '/' + mod + '.v', 'rb').read()
    m = re.search(r'File "[^"]*", line (\d+), characters (\d+)-(\d+):\s*\n(?:.*\n)*?.*Error', out) if not to else None
    if m:
        lines = [x for x in re.finditer(r'File "[^"]*", line (\d+), characters (\d+)-(\d+):\s*\nError', out)]
        m = lines[-1] if lines else m
        off = sum(len(x) + 1 for x in src.split(b'\n')[:int(m[1]) - 1]) + int(m[2])
    else:
        t = re.findall(r'^Chars (\d+) - (\d+)', out, re.M)
        off = int(t[-1][1]) + 1 if t else 0
    return False, off, ('TIMEOUT ' if to else '') + out[-1500:]

def using(base):
    """section variables used by each lemma"""
    res = {}
    for mod in order(base):
        src = open(base + '/theories/%s.v' % mod).read()
        if not re.search(r'^\s*Section ', src, re.M): continue
        tmp = '/tmp/seed/using'; os.makedirs(tmp, exist_ok=True)
        open(tmp + '/%s.v' % mod, 'w').write('Set Suggest Proof Using.\n' + src)
        out = subprocess.run(['coqc', '-Q', base + '/theories', 'Verif', tmp + '/%s.v' % mod], capture_output=True, text=True)
        txt = out.stdout + out.stderr
        for m in re.finditer(r'The proof of (\w+)\s+should start with one of the following commands:\s*((?:Proof using[^.]*\.\s*)+)', txt):
            c = re.findall(r'Proof using([^.]*)\.', m[2])
            res[mod + '.' + m[1]] = c[0].strip()
    json.dump(res, open(base + '/using.json', 'w'))
    print(len(res), 'section lemmas')

def cheat(path, mod, off, us):
    """replaces the proof containing offset `off`; returns the lemma's name, or None"""
    src = open(path, 'rb').read()
    txt = src.decode('utf8'); o = len(src[:off].decode('utf8', 'ignore'))
    st = [m for m in START.finditer(txt) if m.start() <= o]
    if not st: return None
    m = st[-1]
    pr = re.compile(r'\bProof\b[^.]*\.').search(txt, m.start())
    en = re.compile(r'\b(Qed|Defined|Abort)\.').search(txt, m.start())
    if not pr or not en or pr.start() > en.start(): return None
    if not (pr.start() <= o <= en.end() + 1): return None
    key = mod + '.' + m[2]
    p = 'Proof using %s.' % us[key] if key in us and us[key] else 'Proof.'
    open(path, 'w').write(txt[:pr.start()] + p + ' exact (seed_cheat _). Qed.' + txt[en.end():])
    return m[2]

def run_one(base, work, mu, us):
    seq, d = topo(base)
    if os.path.exists(work): shutil.rmtree(work)
    shutil.copytree(base, work)
    th = work + '/theories'
    path = th + '/%s.v' % mu['file']
    s = open(path).read()
    if s.count(mu['old']) != mu.get('count', 1): return {'error': 'pattern found %d times' % s.count(mu['old'])}
    open(path, 'w').write(s.replace(mu['old'], mu['new']))
    dirty, broken = {mu['file']}, []
    for mod in seq:
        if mod != mu['file'] and not any(x in dirty for x in d.get(mod, [])): continue
        dirty.add(mod)
        for _ in range(60):
            ok, off, out = coqc(th, mod)
            if ok: break
            nm = cheat(th + '/%s.v' % mod, mod, off, us)
            if nm is None or (broken and broken[-1] == mod + '.' + nm): return {'error': 'cannot continue in ' + mod, 'broken': broken, 'out': out}
            broken.append(mod + '.' + nm)
        else: return {'error': 'too many', 'broken': broken}
    props = [m for m in seq if m.startswith('Props')]
    names = []
    for m in props:
        names += re.findall(r'^\s*Theorem\s+(C\d\d_\w+)', open(th + '/%s.v' % m).read(), re.M)
    open(th + '/SeedAll.v', 'w').write('From Verif Require Import Base %s.\n' % ' '.join(props) + ''.join('Print Assumptions %s.\n' % n for n in names))
    out = subprocess.run(['coqc', '-Q', '.', 'Verif', 'SeedAll.v'], cwd=th, capture_output=True, text=True)
    parts = re.findall(r'Closed under the global context|Axioms:', out.stdout)
    if len(parts) != len(names): return {'error': 'assumptions', 'broken': broken, 'out': out.stderr[-500:]}
    failed = [n for n, p in zip(names, parts) if p == 'Axioms:']
    return {'broken': broken, 'failed': failed, 'total': len(names)}

if __name__ == '__main__':
    if sys.argv[1] == 'prepare': using(sys.argv[2])
    else:
        base, muf, outf = sys.argv[2:5]
        k, n = map(int, sys.argv[5].split('/')) if len(sys.argv) > 5 else (0, 1)
        spec = importlib.util.spec_from_file_location('mu', muf); mod = importlib.util.module_from_spec(spec); spec.loader.exec_module(mod)
        us = json.load(open(base + '/using.json'))
        done = set()
        if os.path.exists(outf): done = {json.loads(l)['id'] for l in open(outf)}
        for i, mu in enumerate(mod.mutants):
            if i % n != k or mu['id'] in done: continue
            r = run_one(base, '/tmp/seed/work%s%d' % (os.path.basename(muf)[:-3], k), mu, us)
            r['id'] = mu['id']
            open(outf, 'a').write(json.dumps(r) + '\n')
            print(mu['id'], r.get('error', ''), len(r.get('broken', [])), sorted({f[:3] for f in r.get('failed', [])}), flush=True)
