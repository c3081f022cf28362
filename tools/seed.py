#!/usr/bin/env python3
"""Tries the theorems against wrong programs.

usage: seed.py prepare          make the pristine scratch copy
       seed.py run < edits.jsonl

An edit: {"definition", "file", "old", "new", "edit", "breaks", "targets": [theorem prefixes]}.
The edit is applied to the model in a scratch copy. Proofs that no longer go through are admitted
there one by one; a theorem has failed if, in the end, it depends on one of these. A proof that fails
does not by itself show that its statement has become false. What matters is which targets survive.
"""
import json, os, re, shutil, subprocess, sys, glob
ROOT = '/verif/rocq'; PRISTINE = os.environ.get('SEED_PRISTINE', '/tmp/seed/pristine'); WORK = os.environ.get('SEED_WORK', '/tmp/seed/work')
USING = PRISTINE + '.json'; LOG = '/verif/seeded/LOG.jsonl'
START = re.compile(r'^\s*(?:#\[[^\]]*\]\s*)?(?:Local\s+|Global\s+)?(Lemma|Theorem|Example|Corollary|Fact|Remark|Instance|Proposition)\s+(\w+)', re.M)
END = re.compile(r'\b(Qed|Defined)\s*\.')

def files():
    return [l.strip() for l in open(ROOT + '/_CoqProject') if l.strip().endswith('.v')]

def coqc(work, f, extra=()):
    cmd = 'ulimit -v 7000000; cd %s/theories && exec timeout 240 coqc -time -Q . Verif %s %s' % (
        work, ' '.join(extra), os.path.basename(f))
    p = subprocess.run(['bash', '-c', cmd], capture_output=True, text=True, errors='replace')
    return p.returncode, p.stdout, p.stderr

def prepare():
    shutil.rmtree(PRISTINE, ignore_errors=True)
    shutil.copytree(ROOT, PRISTINE)
    using = {}
    for f in order(PRISTINE):
        rc, out, err = coqc(PRISTINE, f, ['-set', '"Suggest Proof Using"'])
        assert rc == 0, (f, err[-500:])
        for m in re.finditer(r'The proof of (\w+)\s+should start with one of the following commands:\s+(Proof using[^.]*\.)', out + err):
            using[os.path.basename(f) + ':' + m.group(1)] = m.group(2)
    json.dump(using, open(USING, 'w'))
    print(len(using), 'hints')

def deps(work):
    out = subprocess.run('cd %s/theories && coqdep -Q . Verif *.v' % work, shell=True,
                         capture_output=True, text=True).stdout
    d = {}
    for line in out.splitlines():
        if ':' in line and '.vo ' in line.split(':')[0] + ' ':
            l, r = line.split(':', 1)
            name = [x for x in l.split() if x.endswith('.vo')][0][:-3]
            d[name] = [x[:-3] for x in r.split() if x.endswith('.vo') and '/' not in x.replace('./', '')]
    return d

def order(work):
    d = deps(work); seen = []; 
    def visit(n):
        if n in seen: return
        for x in d[n]:
            if x != n: visit(x)
        seen.append(n)
    for n in sorted(d): visit(n)
    return [n + '.v' for n in seen]

def admit(path, position, using):
    """Admits the proof around [position]; its name, or None."""
    s = open(path).read()
    b = s.encode()
    pos = len(b[:position].decode(errors='ignore'))
    starts = [m for m in START.finditer(s) if m.start() <= pos]
    if not starts: return None
    m = starts[-1]
    e = END.search(s, m.end())
    if not e or pos > e.end(): return None
    p = re.search(r'\bProof\b[^.]*\.', s[m.start():e.end()])
    if not p: return None
    if pos < m.start() + p.start(): return None        # the statement itself
    hint = using.get(os.path.basename(path) + ':' + m.group(2), 'Proof.')
    s = s[:m.start() + p.start()] + hint + ' Admitted.' + s[e.end():]
    open(path, 'w').write(s)
    return m.group(2)

def drop_statement(path, position):
    """Removes a whole lemma whose statement is no longer well typed."""
    s = open(path).read()
    pos = len(s.encode()[:position].decode(errors='ignore'))
    starts = [m for m in START.finditer(s) if m.start() <= pos]
    if not starts: return None
    m = starts[-1]; e = END.search(s, m.end())
    if not e or pos > e.end(): return None
    open(path, 'w').write(s[:m.start()] + s[e.end():])
    return m.group(2)

def failing_position(out, err):
    m = re.search(r'^File "[^"]*", line (\d+), characters (\d+)-(\d+):\nError', err, re.M)
    times = re.findall(r'^Chars (\d+) - (\d+) ', out, re.M)
    return (int(times[-1][1]) + 1 if times else 0), (int(m.group(1)) if m else None)

def job(args):
    f, using, editable = args
    path = WORK + '/theories/' + f
    broken = []; dropped = []
    for _ in range(80):
        rc, out, err = coqc(WORK, f)
        if rc == 0: return f, True, broken, dropped, ''
        pos, line = failing_position(out, err)
        b = open(path).read().encode()
        while pos < len(b) and chr(b[pos]).isspace(): pos += 1
        n = admit(path, pos, using)
        if n: broken.append(n); continue
        n = drop_statement(path, pos)
        if n: dropped.append(n); continue
        return f, False, broken, dropped, (err or 'timeout')[-600:]
    return f, False, broken, dropped, 'too many'

def run_one(e, using):
    from concurrent.futures import ThreadPoolExecutor, wait, FIRST_COMPLETED
    shutil.rmtree(WORK, ignore_errors=True)
    subprocess.run(['cp', '-a', PRISTINE, WORK], check=True)
    target = WORK + '/theories/' + e['file']
    s = open(target).read()
    if s.count(e['old']) != 1: return {'error': 'old text occurs %d times' % s.count(e['old'])}
    open(target, 'w').write(s.replace(e['old'], e['new']))
    d = deps(WORK)
    dirty = {e['file'][:-2]}; ordered = [x[:-2] for x in order(WORK)]
    for n in ordered:
        if any(x in dirty for x in d[n] if x != n): dirty.add(n)
    for n in dirty:
        for ext in ('vo', 'vok', 'vos', 'glob'):
            try: os.remove('%s/theories/%s.%s' % (WORK, n, ext))
            except OSError: pass
    done, bad, broken, dropped, pending = set(), {}, {}, {}, set(dirty)
    with ThreadPoolExecutor(4) as pool:
        fut = {}
        while pending or fut:
            for n in [n for n in ordered if n in pending]:
                need = [x for x in d[n] if x != n and x in dirty]
                if any(x in bad for x in need): bad[n] = 'needs a file that does not compile'; pending.discard(n)
                elif all(x in done for x in need):
                    pending.discard(n); fut[pool.submit(job, (n + '.v', using, e['file']))] = n
            if not fut: continue
            for x in wait(fut, return_when=FIRST_COMPLETED)[0]:
                n = fut.pop(x); f, ok, br, dr, err = x.result()
                if br: broken[n] = br
                if dr: dropped[n] = dr
                if ok: done.add(n)
                else: bad[n] = err
    props = [n for n in ordered if n.startswith('P_')]
    failed = set(); q = []; mods = []
    for n in props:
        names = re.findall(r'^\s*Theorem\s+(C\d+\w*)', open('%s/theories/%s.v' % (PRISTINE, n)).read(), re.M)
        if n in bad: failed |= set(names)
        else:
            mods.append(n); gone = set(dropped.get(n, []))
            failed |= gone & set(names)
            q += [(n, x) for x in names if x not in gone]
    open(WORK + '_q.v', 'w').write(''.join('From Verif Require %s.\n' % n for n in mods) + ''.join(
        'Eval compute in 0.\nPrint Assumptions %s.%s.\n' % x for x in q))
    p = subprocess.run(['coqc', '-Q', WORK + '/theories', 'Verif', WORK + '_q.v'], capture_output=True, text=True)
    if p.returncode: return {'error': 'query: ' + p.stderr[-500:]}
    parts = re.split(r'\s*= 0\s*:\s*nat\s*', p.stdout)[1:]
    assert len(parts) == len(q), (len(parts), len(q))
    for (n, x), out in zip(q, parts):
        if 'Closed under' not in out: failed.add(x)
    return {'failed': sorted(failed), 'broken': broken, 'dropped': dropped, 'bad': bad}

if __name__ == '__main__':
    if sys.argv[1] == 'prepare': prepare(); sys.exit()
    using = json.load(open(USING))
    for line in sys.stdin:
        if not line.strip(): continue
        e = json.loads(line); r = run_one(e, using)
        if 'error' in r: print('ERROR', e['definition'], e['edit'], r['error'], flush=True); continue
        survivors = [t for t in e['targets'] if not any(f.startswith(t) for f in r['failed'])]
        print('SURVIVED' if survivors else 'ok', e['file'], e['definition'], '|', e['edit'], '| failed', len(r['failed']),
              '| survivors', survivors, '| bad', {k: v[-200:] for k, v in r['bad'].items()}, flush=True)
        with open('/tmp/seed/results.jsonl', 'a') as o:
            o.write(json.dumps({**e, **r, 'survivors': survivors}) + '\n')
