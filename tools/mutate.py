#!/usr/bin/env python3
"""Mutation testing of the model. Works in a scratch copy outside /verif.

  mutate.py base                     build the scratch copy of reference
  mutate.py run mutants.json out     try every mutant {id,file,old,new,claim,edit}

A mutant is applied to a copy, every file that depends on the edited one is compiled again, and each
proof that fails is replaced by an axiom named after its lemma so that the rest still compiles; the
theorems of Props/ that Print Assumptions shows to rest on such an axiom are those that fail."""
import json, os, re, shutil, subprocess, sys, threading, concurrent.futures as cf
ROOT = '/verif/rocq'
BASE = '/tmp/mutbase'
MUTANTS = int(os.environ.get('MUTANTS', '1'))    # mutants at a time, each with JOBS compilations
JOBS = int(os.environ.get('JOBS', '3'))

def files(d):
    return [l.strip() for l in open(d + '/_CoqProject') if l.strip().endswith('.v')]

def deps(d):
    out = subprocess.run(['coqdep', '-Q', 'theories', 'Verif'] + files(d), cwd=d, capture_output=True, text=True).stdout
    r = {}
    for l in out.split('\n'):
        m = re.match(r'(\S+\.vo)\s.*?: (.*)', l)
        if m:
            r[m.group(1)[:-1]] = [x[:-1] for x in m.group(2).split() if x.endswith('.vo') and x.startswith('theories')]
    return r

def coqc(d, f, timeout=240, extra=''):
    try:
        p = subprocess.run('ulimit -v 6000000; exec coqc %s -w none -Q theories Verif %s' % (extra, f), shell=True, cwd=d,
                           capture_output=True, text=True, timeout=timeout)
        return p.returncode, p.stdout, p.stderr
    except subprocess.TimeoutExpired:
        return 124, '', 'timeout'

def base():
    shutil.rmtree(BASE, ignore_errors=True)
    shutil.copytree(ROOT, BASE)
    dp = deps(BASE)
    using = {}
    def one(f):
        c, o, e = coqc(BASE, f, extra='-set "Suggest Proof Using=yes"')
        t = o + e
        for m in re.finditer(r'The proof of (\S+)\s+should start with one of the following commands:\s*(Proof using[^.]*\.)', t, re.S):
            using[f + ':' + m.group(1)] = ' '.join(m.group(2).split())
        return c, t
    schedule(dp, list(dp), one)
    json.dump(using, open(BASE + '/using.json', 'w'))

def schedule(dp, todo, fn):
    todo = set(todo); done = {}; running = {}
    with cf.ThreadPoolExecutor(JOBS) as ex:
        while todo or running:
            for f in sorted(todo):
                if all(x not in todo and x not in running.values() for x in dp[f]):
                    todo.discard(f); running[ex.submit(fn, f)] = f
            d, _ = cf.wait(running, return_when=cf.FIRST_COMPLETED)
            for x in d:
                done[running.pop(x)] = x.result()
    return done

HEAD = re.compile(r'^\s*(?:Local |Global |#\[[^\]]*\] *)?(Lemma|Theorem|Example|Corollary|Fact|Remark|Instance|Program \w+|Definition|Fixpoint|Inductive|Record)\s+(\w+)')

def cheat(d, f, line, using, rec):
    """Replace the failing proof at [line] by an axiom; False if the failure is in a statement."""
    p = d + '/' + f
    ls = open(p).read().split('\n')
    i = line - 1
    while i >= 0 and not HEAD.match(ls[i]):
        i -= 1
    if i < 0:
        return False
    m = HEAD.match(ls[i]); kind, name = m.group(1), m.group(2)
    k = i
    while k < len(ls) and not re.search(r'(^|\s)Proof( using[^.]*)?\.', ls[k]):
        k += 1
        if k < len(ls) and HEAD.match(ls[k]):
            return False
    if k >= len(ls) or (line - 1 < k):
        return False
    e = k
    while e < len(ls) and not re.search(r'(Qed|Defined|Abort|Admitted)\.\s*$', ls[e]):
        e += 1
    pre = re.split(r'Proof(?: using[^.]*)?\.', ls[k])[0]
    us = using.get(f + ':' + name, 'Proof.')
    new = [pre + us + ' exact (cheat_%s _). Qed.' % name]
    ls = ls[:i] + ['Axiom cheat_%s : forall A : Prop, A.' % name] + ls[i:k] + new + ls[e + 1:]
    open(p, 'w').write('\n'.join(ls))
    rec['proofs'].append(f.replace('theories/', '').replace('.v', '') + ':' + name)
    return True

def no_examples(d, f):
    """Drop the Examples of a file: a false one may compute for ever."""
    p = d + '/' + f
    s = open(p).read()
    open(p, 'w').write(re.sub(r'^Example .*?^(?:[^\n]*\s)?Qed\.\s*$', '', s, flags=re.M | re.S))

def last_line(d, f):
    c, o, e = coqc(d, f, extra='-time')
    t = re.findall(r'^Chars \d+ - (\d+) ', o, re.M)
    if not t:
        return []
    s = open(d + '/' + f, 'rb').read()
    i = int(t[-1])
    while i < len(s) and s[i:i + 1].isspace():
        i += 1
    return [s[:i].count(b'\n') + 1]

def compile_(d, f, using, rec):
    for _ in range(60):
        c, o, e = coqc(d, f)
        if c == 124 and '/Props/' in f and not rec.get('no_examples'):
            rec['no_examples'] = True
            no_examples(d, f)
            continue
        if c == 0:
            return True, o
        m = re.findall(r'File "[^"]*", line (\d+), characters', e)
        if not m:    # out of memory or time: the sentence after the last one timed
            m = last_line(d, f)
        if not m or not cheat(d, f, int(m[0]), using, rec):
            rec['broken'].append(f + ': ' + ' '.join(e.split())[-300:])
            return False, ''
    rec['broken'].append(f + ': too many failures')
    return False, ''

def thm_fail(text, out):
    """Theorems of a Props file whose assumptions contain a cheat."""
    names = re.findall(r'^Print Assumptions (\w+)\.', text, re.M)
    blocks = re.split(r'(?=^Axioms:|^Closed under the global context)', out, flags=re.M)
    blocks = [b for b in blocks if b.startswith(('Axioms:', 'Closed'))]
    if len(names) != len(blocks):
        return ['?%d/%d' % (len(names), len(blocks))]
    return [n for n, b in zip(names, blocks) if 'cheat_' in b]

def mutant(m):
    WORK = '/tmp/mutwork%d' % threading.get_ident()
    shutil.rmtree(WORK, ignore_errors=True)
    shutil.copytree(BASE, WORK, copy_function=shutil.copy2)
    using = json.load(open(BASE + '/using.json'))
    f = 'theories/' + m['file']
    p = WORK + '/' + f
    s = open(p).read()
    n = s.count(m['old'])
    if n != 1:
        return {'id': m['id'], 'error': 'pattern occurs %d times' % n}
    open(p, 'w').write(s.replace(m['old'], m['new']))
    dp = deps(WORK)
    need = {f}
    ch = True
    while ch:
        ch = False
        for x, ds in dp.items():
            if x not in need and any(y in need for y in ds):
                need.add(x); ch = True
    # only the Props files that state the claims, and what they need, have to be compiled
    cl = re.findall(r'C\d\d+', json.dumps(m.get('claims', '')))
    want = {x for x in need if '/Props/' in x and any('Theorem %s_' % c in open(WORK + '/' + x).read() for c in cl)}
    if want:
        ch = True
        while ch:
            ch = False
            for x in list(want):
                for y in dp[x]:
                    if y not in want:
                        want.add(y); ch = True
        need &= want
    rec = {'id': m['id'], 'proofs': [], 'broken': [], 'theorems': [], 'unbuilt': []}
    bad = set()
    def one(x):
        if any(y in bad for y in dp[x]):
            bad.add(x); return
        ok, o = compile_(WORK, x, using, rec)
        if not ok:
            bad.add(x); return
        if '/Props/' in x:
            rec['theorems'] += thm_fail(open(WORK + '/' + x).read(), o)
    schedule(dp, need, one)
    for x in sorted(bad):
        if '/Props/' in x:
            rec['unbuilt'] += re.findall(r'^Theorem (\w+)', open(WORK + '/' + x).read(), re.M)
    return rec

if __name__ == '__main__':
    if sys.argv[1] == 'base':
        base()
    else:
        done = set()
        if os.path.exists(sys.argv[3]):
            done = {json.loads(l)['id'] for l in open(sys.argv[3])}
        def one(m):
            r = mutant(m)
            open(sys.argv[3], 'a').write(json.dumps(r) + '\n')
            print(r['id'], r.get('error', ''), 'theorems:', ' '.join(r.get('theorems', [])), '| unbuilt:', len(r.get('unbuilt', [])), flush=True)
        with cf.ThreadPoolExecutor(MUTANTS) as ex:
            list(ex.map(one, [m for m in json.load(open(sys.argv[2])) if m['id'] not in done]))
