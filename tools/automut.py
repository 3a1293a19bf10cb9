"""Generates small wrong programs from the model files and screens them.

Usage: automut.py gen K SEED > mutants.jsonl    (at most K edits for each definition)
       automut.py run mutants.jsonl PART PARTS  (every PARTS-th line, starting at PART)

`run` makes the edit in a scratch copy and rebuilds.  It stops at the first broken
proof that a property theorem uses, so the theorems it lists are only the first to
fail.  A model file that no longer type-checks is not a wrong program; such an edit
is reported as stillborn.  Survivors are edits after which everything still builds.
"""
import json, os, random, re, subprocess, sys
BASE = os.environ.get('BASE', '/tmp/mut/base5')
OUT = os.environ.get('OUT', '/tmp/mut/auto.jsonl')
START = re.compile(r'^(?:Definition|Fixpoint|Inductive|Record|Lemma|Theorem|Example|Notation|Section|End|Local|Global|Arguments|Import|Require|From|Module|Ltac|Open|Close|Proof|Print|Set|Unset|Variable|Context|Hint|Create|Scheme|Coercion|Instance|#)\b', re.M)
OPS = [(r' \+ ', ' - '), (r' - ', ' + '), (r' \* ', ' + '), (r' / ', ' * '),
       (r'\bRlt_dec\b', 'Rle_dec'), (r'\bRle_dec\b', 'Rlt_dec'), (r'\bRlt_dec\b', 'Rgt_dec'),
       (r'\bRle_dec\b', 'Rge_dec'), (r'<\?', '<=?'), (r'<=\?', '<?'), (r'(?<![<>])=\?', '<=?'),
       (r'&&', '||'), (r'\|\|', '&&'), (r'\bnegb ', ''), (r'\btrue\b', 'false'), (r'\bfalse\b', 'true'),
       (r'\bfst\b', 'snd'), (r'\bsnd\b', 'fst'), (r'\bsin\b', 'cos'), (r'\bcos\b', 'sin'),
       (r'\bErr (?!OtherException)[A-Z]\w+', 'Err OtherException'),
       (r'\bif\b(?:(?!\bif\b|\bthen\b).)*?\bthen\b', 'if true then'),
       (r'\bif\b(?:(?!\bif\b|\bthen\b).)*?\bthen\b', 'if false then'),
       (r'\brev \b', ''), (r'\bfirstn\b', 'skipn'), (r'\bskipn\b', 'firstn'), (r'\bremovelast\b', '@tl _'),
       (r'\bmin\b', 'max'), (r'\bmax\b', 'min'), (r'\bRmin\b', 'Rmax'), (r'\bRmax\b', 'Rmin'),
       (r'\bRabs\b', ''), (r'\bS (?=\w)', ''), (r'"(?=\w)', '"x'),
       (r'(?<![\w.%])\d+(?![\w.])', 'NUM'), (r'\bxup', 'xdown'), (r'\byup', 'ydown'), (r'\bxdown', 'xup'),
       (r'\bydown', 'yup'), (r'_up\b', '_down'), (r'_down\b', '_up'),
       (r'\((\w+) (\w+) (\w+)\)', r'(\1 \3 \2)'), (r'\((\w+) (\w+) (\w+) (\w+)\)', r'(\1 \2 \4 \3)'),
       (r'\(- (\w+)\)', r'(\1)'), (r'\((\w+), (\w+)\)', r'(\2, \1)'),
       (r'\bSome (\w+) =>', r'Some \1 => fun _ => '),
       (r'\+\+ (\w+)', ''), (r'(\w+) \+\+ ', '')]

def blank_comments(s):
    out, depth, i, instr = [], 0, 0, False
    while i < len(s):
        if depth == 0 and s[i] == '"':
            instr = not instr
        if not instr and s.startswith('(*', i):
            depth += 1; out.append('  '); i += 2; continue
        if depth and s.startswith('*)', i):
            depth -= 1; out.append('  '); i += 2; continue
        out.append(s[i] if depth == 0 or s[i] == '\n' else ' ')
        i += 1
    return ''.join(out)

def gen(k, seed):
    rnd, n = random.Random(seed), 0
    for f in sorted(os.listdir(BASE + '/theories')):
        if not re.search(r'Model\w*\.v$', f):
            continue
        text = open(f'{BASE}/theories/{f}').read()
        clean = blank_comments(text)
        starts = [m.start() for m in START.finditer(clean)] + [len(clean)]
        for a, b in zip(starts, starts[1:]):
            m = re.match(r'(?:Definition|Fixpoint)\s+([\w\']+)', clean[a:b])
            if not m or ':=' not in clean[a:b]:
                continue
            a2 = a + clean[a:b].index(':=') + 2
            body, cand = clean[a2:b], []
            for o, (p, r) in enumerate(OPS):
                hits = list(re.finditer(p, body, re.S))
                if hits:
                    cand.append((o, r, hits))
            rnd.shuffle(cand)
            for o, r, hits in cand[:k]:
                h = rnd.choice(hits)
                new = str(int(h.group(0)) + 1) if r == 'NUM' else h.expand(r) if '\\' in r else r
                n += 1
                print(json.dumps({'id': 'A%d-%04d' % (seed, n), 'file': f, 'definition': m.group(1),
                                  'pos': a2 + h.start(), 'old': h.group(0), 'new': new,
                                  'context': ' '.join(body[max(0, h.start() - 40):h.end() + 40].split())}))

def run(path, part, parts):
    os.environ.update(BASE=BASE, WORK=f'/tmp/mut/aw{part}')
    here = os.path.dirname(os.path.abspath(__file__))
    src = open(here + '/mutate.py').read().split('\nfor line in open(sys.argv[1])')[0]
    ns = {}
    exec(compile(src, 'mutate', 'exec'), ns)
    work = ns['WORK']
    done = {json.loads(l)['id'] for l in open(OUT)} if os.path.exists(OUT) else set()
    for i, line in enumerate(open(path)):
        m = json.loads(line)
        if i % parts != part or m['id'] in done:
            continue
        ns['reset']()
        p = f'{work}/theories/{m["file"]}'
        s = open(p).read()
        assert s[m['pos']:].startswith(m['old'])
        open(p, 'w').write(s[:m['pos']] + m['new'] + s[m['pos'] + len(m['old']):])
        adm, failed, verdict = [], [], None
        while verdict is None:
            r = subprocess.run(f'cd {work} && timeout 1500 nice -n 10 make -j1 2>&1', shell=True, capture_output=True, text=True)
            if r.returncode == 0:
                verdict = 'survived'
                break
            hit = None
            for c in re.split(r'(?=File "\./theories/)', r.stdout):
                mm = re.match(r'File "\./(theories/\w+\.v)", line (\d+), characters[^\n]*\n', c)
                if mm and re.search(r'^Error', c[mm.end():], re.M):
                    hit = mm
                    break
            if not hit:
                verdict = 'timeout'
                break
            n = ns['admit'](os.path.join(work, hit.group(1)), int(hit.group(2)))
            if n is None:
                verdict = 'stillborn' if 'Model' in hit.group(1) else 'unrepairable ' + hit.group(1) + ':' + hit.group(2)
                break
            adm.append(os.path.basename(hit.group(1))[:-2] + '.' + n)
            failed = ns['failed_theorems'](adm)
            if failed:
                verdict = 'killed'
        res = {**m, 'verdict': verdict, 'admitted': adm, 'failed': failed}
        with open(OUT, 'a') as f:
            f.write(json.dumps(res) + '\n')
        print(m['id'], m['file'], m['definition'], repr(m['old']), '->', repr(m['new']), verdict, len(failed), flush=True)

if __name__ == '__main__':
    if sys.argv[1] == 'gen':
        gen(int(sys.argv[2]), int(sys.argv[3]))
    else:
        run(sys.argv[2], int(sys.argv[3]), int(sys.argv[4]))
