"""Mutation testing of the theorems.

Usage: mutate.py FILE.jsonl   (one mutation per line: id, file, old, new, claim)

For each mutation the scratch copy /tmp/mut/work is reset to the committed
theories, one textual edit is made in a model file, and the development is
rebuilt.  Whenever a proof breaks, that lemma is admitted in the scratch copy and
the build goes on.  The property theorems whose proofs use an admitted lemma,
directly or through other lemmas, are reported as failed.  The result is appended to OUT (default
/tmp/mut/results.jsonl).
"""
import json, os, re, shutil, subprocess, sys
SRC, WORK = os.environ.get('BASE', '/tmp/mut/base'), os.environ.get('WORK', '/tmp/mut/work')
OUT = os.environ.get('OUT', '/tmp/mut/results.jsonl')
JOBS = os.environ.get('JOBS', '2')
HEAD = re.compile(r'^\s*(?:Local |Global |#\[[^\]]*\] )?(Lemma|Theorem|Example|Corollary|Fact|Remark|Definition|Fixpoint|Instance|Program \w+)\s+([\w\']+)', re.M)

def sh(cmd, **k):
    return subprocess.run(cmd, shell=True, capture_output=True, text=True, **k)

def reset():
    os.makedirs(WORK, exist_ok=True)
    sh(f'rm -rf {WORK}; cp -a {SRC} {WORK}')

def admit(path, line):
    """Admit the lemma of `path` that contains the 1-based `line`; returns its name."""
    text = open(path).read()
    off = sum(len(l) + 1 for l in text.split('\n')[:line - 1])
    eol = text.find('\n', off)
    heads = [m for m in HEAD.finditer(text) if m.start() <= (eol if eol >= 0 else len(text))]
    if not heads:
        return None
    m = heads[-1]
    kind, name = m.group(1), m.group(2)
    q = re.compile(r'\b(Qed|Defined|Admitted)\.').search(text, m.start())
    p = re.compile(r'\bProof\b[^.]*\.').search(text, m.start())
    if kind in ('Definition', 'Fixpoint') and (not p or not q or HEAD.search(text, m.end()) and HEAD.search(text, m.end()).start() < p.start()):
        return None
    if not p or not q or p.start() > q.start():
        return None
    pl = text.count('\n', 0, p.start()) + 1
    if line < pl or text[p.start():q.end()].startswith('Proof. Admitted'):
        # the statement itself fails: remove the whole lemma
        new = text[:m.start()] + '\n(* removed %s *)' % name + re.sub(r'[^\n]', '', text[m.start():q.end()]) + text[q.end():]
        pa = re.compile(r'\n\s*Print Assumptions %s\.' % re.escape(name))
        new = pa.sub('\n', new)
        name = 'STATEMENT ' + name
    else:
        body = text[p.start():q.end()]
        new = text[:p.start()] + 'Proof. Admitted.' + '\n' * body.count('\n') + text[q.end():]
    open(path, 'w').write(new)
    return name

def build():
    admitted, log = [], ''
    for _ in range(400):
        r = sh(f'cd {WORK} && ulimit -v 6000000; timeout 3000 nice -n 5 make -k -j{JOBS} COQEXTRAFLAGS=\'-set "Default Timeout=120"\' 2>&1')
        log = r.stdout
        errs = re.findall(r'File "\./(theories/\w+\.v)", line (\d+), characters[^\n]*\n(?:[^\n]*\n)*?Error', log)
        seen = set()
        hit = False
        for f, l in re.findall(r'File "\./(theories/\w+\.v)", line (\d+), characters', log):
            pass
        # only real errors (warnings also print File lines)
        chunks = re.split(r'(?=File "\./theories/)', log)
        for c in chunks:
            mm = re.match(r'File "\./(theories/\w+\.v)", line (\d+), characters[^\n]*\n', c)
            if mm and re.search(r'^Error', c[mm.end():], re.M) and mm.group(1) not in seen:
                seen.add(mm.group(1))
                n = admit(os.path.join(WORK, mm.group(1)), int(mm.group(2)))
                if n is None:
                    return admitted, 'cannot repair %s line %s: %s' % (mm.group(1), mm.group(2), c[-300:])
                admitted.append(os.path.basename(mm.group(1))[:-2] + '.' + n)
                hit = True
        if not hit:
            return admitted, None if r.returncode == 0 else 'make failed: ' + log[-500:]
    return admitted, 'too many repairs'

ITEM = re.compile(r'^\s*(?:Local |Global )?(?:Lemma|Theorem|Example|Corollary|Fact|Remark|Definition|Fixpoint|Instance|Ltac|Inductive|Record|Hint \w+|Notation)\s+"?([\w\']+)', re.M)

def failed_theorems(admitted):
    """Property theorems whose proofs use an admitted lemma, directly or not
    (names are followed through the proof scripts, within the files required)."""
    bad = {(a.split('.')[0], a.split('.')[-1].split()[-1]) for a in admitted}
    uses, req = {}, {}
    for f in os.listdir(WORK + '/theories'):
        if not f.endswith('.v'):
            continue
        text = re.sub(r'\(\*.*?\*\)', '', open(f'{WORK}/theories/{f}').read(), flags=re.S)
        f = f[:-2]
        req[f] = {w for r in re.findall(r'From Verif Require (?:Import|Export)?([^.]*)\.', text) for w in r.split()}
        ms = list(ITEM.finditer(text))
        for i, m in enumerate(ms):
            end = ms[i + 1].start() if i + 1 < len(ms) else len(text)
            uses.setdefault((f, m.group(1)), set()).update(re.findall(r"[A-Za-z_][\w']*", text[m.end():end]))
    close = {}
    def required(f):
        if f not in close:
            close[f] = {f}
            for g in req.get(f, ()):
                close[f] |= required(g)
        return close[f]
    where = {}
    for f, n in list(uses) + list(bad):
        where.setdefault(n, set()).add(f)
    def resolve(f, n):
        fs = where.get(n, set())
        return [(f, n)] if f in fs else [(g, n) for g in fs & required(f)]
    def reach(k):
        seen, todo = set(), [k]
        while todo:
            k = todo.pop()
            if k in bad:
                return True
            if k in seen:
                continue
            seen.add(k)
            for n in uses.get(k, ()):
                todo.extend(resolve(k[0], n))
        return False
    gone = [a.split()[-1] for a in admitted if re.match(r'Prop\w*\.STATEMENT C', a)]
    return sorted(k[1] for k in uses if re.match(r'C\d+_', k[1]) and not re.match(r'C\d+_example', k[1]) and reach(k)) + gone

for line in open(sys.argv[1]):
    if not line.strip():
        continue
    m = json.loads(line)
    reset()
    path = f'{WORK}/theories/{m["file"]}'
    s = open(path).read()
    n = s.count(m['old'])
    if n != m.get('count', 1):
        res = {'error': 'old text occurs %d times' % n}
    else:
        open(path, 'w').write(s.replace(m['old'], m['new']))
        adm, err = build()
        res = {'admitted': adm, 'failed': failed_theorems(adm), 'error': err}
    with open(OUT, 'a') as f:
        f.write(json.dumps({**m, **res}) + '\n')
    print(m['id'], res.get('error'), len(res.get('admitted', [])), res.get('failed'), flush=True)
