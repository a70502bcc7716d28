#!/usr/bin/env python3
"""Mutation tests: apply one textual edit to a model file in a scratch copy and rebuild.

usage: mutate.py MUTATIONS.json     (a list of objects)
  {"file":..., "old":..., "new":..., "definition":..., "edit":..., "claim":...,
   "tightened":[...] (optional)}
In the scratch copy every proof that no longer goes through is replaced by Admitted, until the
rest builds; the theorems that fail are those of the Prop files that then depend on an admitted
lemma (Print Assumptions), or are admitted themselves.  Each mutation adds a line to
seeded/LOG.jsonl.  Nothing else under /verif is changed.  With -n nothing is logged.
"""
import glob, json, os, re, shutil, subprocess, sys

SRC = os.environ.get('MUT_SRC', '/verif/rocq')   # a built tree
DST = os.environ.get('MUT_DIR', '/tmp/mut')
ROUNDS = 40
DECL = re.compile(r'^[ \t]*(?:Local\s+|Global\s+)?(Lemma|Theorem|Example|Corollary|Fixpoint|Definition|Inductive|Record|Ltac|Section|Print|Notation|End)\s+(\w+)', re.M)


def decls(s):
    ms = list(DECL.finditer(s))
    return [(m.group(2), m.group(1), m.start(), ms[i + 1].start() if i + 1 < len(ms) else len(s)) for i, m in enumerate(ms)]


def offset(s, line, col):
    lines = s.split('\n')
    before = sum(len(x) + 1 for x in lines[:line - 1])
    return before + len(lines[line - 1].encode()[:col].decode(errors='ignore'))


def repair(path, line, col):
    """Admit the proof around the position, or remove the declaration.  Returns (name, how)."""
    s = open(path).read()
    pos = offset(s, line, col)
    here = None
    for d in decls(s):
        if d[2] <= pos < d[3]:
            here = d
    if here is None:
        return None
    name, kind, a, b = here
    body = s[a:b]
    p = re.search(r'\bProof\b', body)
    q = re.search(r'\b(Qed|Defined)\.', body)
    if kind in ('Lemma', 'Theorem', 'Example', 'Corollary') and p and q and pos >= a + p.start():
        new = body[:p.start()] + 'Proof. Admitted.' + body[q.end():]
        how = 'proof'
    else:
        end = q.end() if q else len(body)
        new = body[end:]
        how = 'statement'
    open(path, 'w').write(s[:a] + new + s[b:])
    return name, how, kind


def props(paths):
    out = []
    for f in paths:
        for n, k, a, b in decls(open(f).read()):
            if k == 'Theorem':
                out.append((os.path.basename(f)[:-2], n))
    return out


def run(m):
    shutil.rmtree(DST, ignore_errors=True)
    subprocess.run(['cp', '-a', SRC, DST], check=True)
    p = os.path.join(DST, 'theories', m['file'])
    s = open(p).read()
    if s.count(m['old']) != 1:
        print('!! pattern occurs', s.count(m['old']), 'times:', m['edit'])
        return None
    before = {f: os.path.getmtime(f[:-2] + '.vo') for f in glob.glob(DST + '/theories/*.v')}
    allprops = set(props(glob.glob(DST + '/theories/Prop*.v')))
    open(p, 'w').write(s.replace(m['old'], m['new']))
    failed = []
    for _ in range(ROUNDS):
        r = subprocess.run(['make', '-k', '-j4'], cwd=DST, capture_output=True, text=True)
        if r.returncode == 0:
            break
        out = r.stdout + r.stderr
        errs = list(re.finditer(r'File "\./(theories/\w+\.v)", line (\d+), characters (\d+)-\d+:\s*\nError', out))
        if not errs:
            print('!! build failed otherwise', m['edit'], out[-1500:])
            return None
        for e in errs:
            f = os.path.join(DST, e.group(1))
            if os.path.basename(f) == m['file'] and not failed and not re.match(r'Model', m['file']) is None:
                print('!! the edit does not compile:', m['edit'], out[e.start():e.start() + 400])
                return None
            x = repair(f, int(e.group(2)), int(e.group(3)))
            if x is None:
                print('!! no declaration around', e.group(0), m['edit'])
                return None
            failed.append((os.path.basename(f), x[0], x[1], x[2]))
    else:
        print('!! too many rounds', m['edit'], failed)
        return None
    rebuilt = [f for f in glob.glob(DST + '/theories/Prop*.v') if os.path.getmtime(f[:-2] + '.vo') != before[f]]
    now = props(rebuilt)
    lost = allprops - set(props(glob.glob(DST + '/theories/Prop*.v')))
    q = os.path.join(DST, 'query.v')
    with open(q, 'w') as h:
        for f in sorted({f for f, _ in now}):
            h.write('From Verif Require %s.\n' % f)
        for f, n in now:
            h.write('Goal True. idtac "MARK %s". Abort.\nPrint Assumptions %s.%s.\n' % (n, f, n))
    r = subprocess.run(['coqc', '-Q', 'theories', 'Verif', 'query.v'], cwd=DST, capture_output=True, text=True)
    if r.returncode != 0:
        print('!! query failed', r.stderr[-500:])
        return None
    ths = [n for _, n in lost]
    for part in r.stdout.split('MARK ')[1:]:
        n, rest = part.split('\n', 1)
        if 'Closed under the global context' not in rest:
            ths.append(n)
    return failed, sorted(ths)


def main(path, log):
    for m in json.load(open(path)):
        r = run(m)
        if r is None:
            sys.stdout.flush()
            continue
        failed, ths = r
        verdict = 'killed' if ths else ('NO PROPERTY THEOREM' if failed else 'SURVIVED')
        print(verdict, '|', m['edit'], '|', [(a, b) for a, b, _, _ in failed][:8], '|', ths)
        sys.stdout.flush()
        if log:
            with open('/verif/seeded/LOG.jsonl', 'a') as f:
                f.write(json.dumps({'definition': m['definition'], 'edit': m['edit'], 'claim': m['claim'],
                                    'failed_lemmas': ['%s:%s' % x[:2] for x in failed], 'theorems_failed': ths,
                                    'theorems_tightened': m.get('tightened', []), 'result': verdict}) + '\n')


if __name__ == '__main__':
    a = [x for x in sys.argv[1:] if x != '-n']
    main(a[0], '-n' not in sys.argv)
