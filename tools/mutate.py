#!/usr/bin/env python3
"""Seeds bugs into a scratch copy of the model and reports what stops compiling.
usage: mutate.py mutations.json   (list of {file, definition, old, new, claim, [targets], [tightened]})
Appends one line per mutation to seeded/LOG.jsonl."""
import json, os, re, shutil, subprocess, sys, time
root = os.path.dirname(os.path.dirname(os.path.abspath(__file__)))
src, scratch, base = root + '/rocq', '/tmp/mut', '/tmp/mut.base'
muts = json.load(open(sys.argv[1]))
if os.path.exists(scratch): shutil.rmtree(scratch)
subprocess.run(['cp', '-a', src, scratch])
subprocess.run('coq_makefile -f _CoqProject -o Makefile && make -j4 >/dev/null 2>&1', shell=True, cwd=scratch, check=True)
subprocess.run(f'rm -rf {base} && cp -a {scratch} {base}', shell=True, check=True)
def enclosing(path, line):
    name = None
    for i, l in enumerate(open(path), 1):
        m = re.match(r'\s*(?:Lemma|Theorem|Example|Definition|Corollary|Fixpoint)\s+(\w+)', l)
        if m: name = m.group(1)
        if i >= line: break
    return name
for m in muts:
    f = f"{scratch}/theories/{m['file']}"
    orig = open(f).read()
    if orig.count(m['old']) < 1:
        print('NOT FOUND', m['file'], m['old']); continue
    open(f, 'w').write(orig.replace(m['old'], m['new'], 1))
    t = time.time()
    r = subprocess.run('timeout 1500 make -k -j4 ' + ' '.join(f'theories/{t}.vo' for t in m.get('targets', [])) + ' 2>&1', shell=True, cwd=scratch, capture_output=True, text=True)
    fails = []
    for mm in re.finditer(r'File "\./?(theories/\w+\.v)", line (\d+)', r.stdout):
        n = enclosing(f"{scratch}/{mm.group(1)}", int(mm.group(2)))
        if n: fails.append(os.path.basename(mm.group(1))[:-2] + '.' + n)
    props = sorted({x for x in re.findall(r"No rule to make target|\*\*\* \[[^]]*: (theories/\w+)\.vo\]", r.stdout) if x})
    open(f, 'w').write(orig)
    subprocess.run(f'rm -rf {scratch} && cp -a {base} {scratch}', shell=True)
    rec = {"definition": m['definition'], "file": m['file'], "edit": f"{m['old']!r} -> {m['new']!r}", "claim": m['claim'],
           "failed": fails, "tightened": m.get('tightened', [])}
    if not fails: rec["survived"] = True
    print(('SURVIVED ' if not fails else 'killed   '), m['definition'], '|', m['new'][:60], '->', fails, f'{time.time()-t:.0f}s', flush=True)
    open(root + '/seeded/LOG.jsonl', 'a').write(json.dumps(rec) + '\n')
