#!/usr/bin/env python3
"""Seeds machine-made bugs into a scratch copy of the model, one at a time, and rebuilds
until something fails.  usage: automut.py seed per_definition [file ...]
A mutant that does not type-check in its own file is dropped.  Appends one line per mutant to
seeded/LOG.jsonl; survivors have "survived": true."""
import glob, json, os, random, re, subprocess, sys, time
root = os.path.dirname(os.path.dirname(os.path.abspath(__file__)))
scratch, base = '/tmp/amut', '/tmp/amut.base'
seed, per = int(sys.argv[1]), int(sys.argv[2])
rnd = random.Random(seed)
files = sys.argv[3:] or None
jobs = os.environ.get('JOBS', '2')
seen = {}
for l in open(root + '/seeded/LOG.jsonl'):
    d = json.loads(l)
    seen.setdefault(d.get('file', '') + ':' + d.get('definition', '').split(' ')[0], []).append(d.get('edit'))
subprocess.run(f'rm -rf {base} {scratch} && cp -a {root}/rocq {base}', shell=True, check=True)
subprocess.run('coq_makefile -f _CoqProject -o Makefile >/dev/null && make -j4 >/dev/null 2>&1', shell=True, cwd=base, check=True)
subprocess.run(f'cp -a {base} {scratch}', shell=True, check=True)

def blank(s):
    """comments replaced by blanks of the same length"""
    out, depth, i = [], 0, 0
    while i < len(s):
        if s.startswith('(*', i): depth += 1; out.append('  '); i += 2; continue
        if depth and s.startswith('*)', i): depth -= 1; out.append('  '); i += 2; continue
        out.append(s[i] if not depth or s[i] == '\n' else ' '); i += 1
    return ''.join(out)

def defs(s):
    b = blank(s)
    for m in re.finditer(r'^[ \t]*(Definition|Fixpoint)\s+([\w\']+)', b, re.M):
        e = re.compile(r'\.(?=\s|$)').search(b, m.end())
        while e and b[e.start()-1:e.start()+1] == '..': e = re.compile(r'\.(?=\s|$)').search(b, e.end())
        if e and ':=' in b[m.start():e.start()]:
            c = s[:m.start()].rstrip()
            comment = ''
            if c.endswith('*)'): comment = re.sub(r'\s+', ' ', c[c.rfind('(*'):].strip('(*) '))
            body = m.start() + b[m.start():e.start()].index(':=') + 2
            yield m.group(2), body, e.start(), comment

ERR = ['ValueError', 'IndexError', 'KeyError', 'TypeError', 'AttributeError']
def variants(t):
    """(start, end, replacement) inside the body t"""
    out = []
    strings = [(m.start(), m.end()) for m in re.finditer(r'"[^"\n]*"', t)]
    instr = lambda i: any(a <= i < b for a, b in strings)
    for a, b in strings:
        x = t[a+1:b-1]
        if b - a > 3: out.append((a, b, '"' + x[:-1] + '"')); out.append((a, b, '"' + x + 'x"'))
        elif len(x) == 1: out.append((a, b, '"' + ('q' if x != 'q' else 'z') + '"'))
    def add(rx, f):
        for m in re.finditer(rx, t):
            if not instr(m.start()):
                r = f(m)
                if r is not None and r != m.group(0): out.append((m.start(), m.end(), r))
    add(r'(?<![\w\'.])\d+(?![\w\'])', lambda m: str(int(m.group(0)) + 1))
    add(r'(?<![\w\'.])[1-9]\d*(?![\w\'])', lambda m: str(int(m.group(0)) - 1))
    add(r'<\?', lambda m: '<=?'); add(r'<=\?', lambda m: '<?'); add(r'\bltb\b', lambda m: 'leb'); add(r'\bleb\b', lambda m: 'ltb')
    add(r'\btrue\b', lambda m: 'false'); add(r'\bfalse\b', lambda m: 'true')
    add(r'&&', lambda m: '||'); add(r'\|\|', lambda m: '&&'); add(r'\bnegb\b ?', lambda m: '')
    add(r'\bexistsb\b', lambda m: 'forallb'); add(r'\bforallb\b', lambda m: 'existsb')
    add(r'\bfst\b', lambda m: 'snd'); add(r'\bsnd\b', lambda m: 'fst')
    add(r'\bfirstn\b', lambda m: 'skipn'); add(r'\bskipn\b', lambda m: 'firstn')
    add(r'\b(%s)\b' % '|'.join(ERR), lambda m: ERR[(ERR.index(m.group(0)) + 1) % len(ERR)])
    add(r' \+\+ \[nl\]', lambda m: ''); add(r' \+\+ \[sp\]', lambda m: ''); add(r' \+\+ sp1', lambda m: '')
    add(r' \+ ', lambda m: ' - '); add(r' - ', lambda m: ' + ')
    add(r'\bif ((?:(?!\bif\b|\bthen\b|\bmatch\b|\blet\b).)+?) then', lambda m: 'if negb (' + m.group(1) + ') then')
    add(r'\brev\b ', lambda m: ''); add(r'\bsplit_ws\b', lambda m: 'splitlines'); add(r'\bstrip\b ', lambda m: '')
    add(r'\blower1?\b ', lambda m: ''); add(r'\bIdx\b', lambda m: 'Idx')
    add(r'\bSome (\w+)(?= *(?:$|\n|\|))', lambda m: 'None')
    add(r'\bKList\b', lambda m: None)
    add(r'\(S (\w+)\)', lambda m: m.group(1)); add(r'\bdset\b', lambda m: None)
    add(r'(\w+) :: (\w+)(?= *(?:\)|$|\n))', lambda m: m.group(2))
    return out

cands = []
for path in sorted(glob.glob(root + '/rocq/theories/*.v')):
    b = os.path.basename(path)
    if files:
        if b not in files: continue
    elif 'Model' not in b and b not in ('PyBase.v', 'PyNum.v', 'VasprunEvents.v', 'VasprunXml.v', 'VasprunAccess.v', 'IoVasprun.v'): continue
    s = open(path).read()
    for name, a, e, comment in defs(s):
        have = seen.get(b + ':' + name, [])
        vs = variants(s[a:e]); rnd.shuffle(vs)
        k = 0
        for x, y, r in vs:
            if len(have) + k >= per: break
            k += 1
            cands.append((b, name, a + x, a + y, r, comment))
rnd.shuffle(cands)
print(len(cands), 'mutants', flush=True)

def enclosing(path, line):
    name = kind = None
    for i, l in enumerate(open(path), 1):
        m = re.match(r'\s*(Lemma|Theorem|Example|Definition|Corollary|Fixpoint|Inductive|Record|Notation|Section|Fact|Remark)\b\s*(\w*)', l)
        if m: name, kind = m.group(2), m.group(1)
        if i >= line: break
    return name, kind
for b, name, x, y, r, comment in cands:
    f = f'{scratch}/theories/{b}'
    orig = open(f).read()
    new = orig[:x] + r + orig[y:]
    ln = orig.count('\n', 0, x)
    old_line, new_line = orig.split('\n')[ln].strip(), new.split('\n')[ln].strip()
    open(f, 'w').write(new)
    t = time.time()
    res = subprocess.run(f'timeout 2400 make -j{jobs} 2>&1', shell=True, cwd=scratch, capture_output=True, text=True)
    fails, own = [], False
    for mm in re.finditer(r'File "\./?(theories/\w+\.v)", line (\d+)', res.stdout):
        n, kind = enclosing(f'{scratch}/{mm.group(1)}', int(mm.group(2)))
        if n: fails.append(os.path.basename(mm.group(1))[:-2] + '.' + n)
        if kind not in ('Lemma', 'Theorem', 'Example', 'Corollary', 'Fact', 'Remark'): own = True
    subprocess.run(f'rsync -a --delete {base}/ {scratch}/ 2>/dev/null || (rm -rf {scratch} && cp -a {base} {scratch})', shell=True)
    if own:
        print('invalid  ', b, name, '|', new_line[:90], flush=True); continue
    rec = {"definition": name, "file": b, "edit": f"{old_line!r} -> {new_line!r}", "claim": "the properties that depend on: " + (comment or name),
           "failed": fails, "tightened": []}
    if not fails: rec["survived"] = True
    if not fails and res.returncode: rec["note"] = "timeout"
    print('SURVIVED ' if not fails else 'killed   ', b, name, '|', old_line[:70], '=>', new_line[:90], '->', fails, f'{time.time()-t:.0f}s', flush=True)
    open(root + '/seeded/LOG.jsonl', 'a').write(json.dumps(rec) + '\n')
