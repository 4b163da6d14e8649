#!/usr/bin/env python3
"""Tries wrong programs.  Usage: mutate.py MUTANTS.json [LOG.jsonl]
MUTANTS.json: list of {"definition", "file", "old", "new", "edit", "breaks"}.
For each one a scratch copy of rocq/ is made outside the repository, the text old is replaced by new (once) in
theories/file, and everything is compiled again.  A lemma whose proof no longer works is admitted in the scratch copy and the
compilation goes on; the property theorems (C..) that were admitted or depend on an admitted lemma are the ones that failed."""
import json, os, re, shutil, subprocess, sys, tempfile
from concurrent.futures import ThreadPoolExecutor
ROOT = os.path.abspath(os.path.join(os.path.dirname(__file__), '..'))
HEAD = re.compile(r'^\s*(?:Local |Global )?(Lemma|Theorem|Corollary|Example|Remark|Fact|Definition|Fixpoint|Instance|Record|Inductive|Let|Function|Ltac|Section|Add)\b\s*(\w+)?')
PROVED = ('Lemma', 'Theorem', 'Corollary', 'Example', 'Remark', 'Fact')

def coqc(d, f, timeout=900):
    try:
        r = subprocess.run(['coqc', '-Q', 'theories', 'Verif', 'theories/' + f], cwd=d, capture_output=True, text=True, timeout=timeout)
        return r.returncode, r.stdout, r.stderr
    except subprocess.TimeoutExpired:
        return 124, '', 'timeout'

def deps(d, f):
    t = open(d + '/theories/' + f).read()
    out = set()
    for m in re.finditer(r'From Verif Require (?:Import|Export)\s+(.*?)\.\s', t, re.S):
        out |= {x + '.v' for x in m.group(1).split()}
    return out

def try_one(m):
    base = tempfile.mkdtemp(prefix='mut', dir='/tmp/mut')
    d = base + '/rocq'
    shutil.copytree(SNAP + '/rocq', d)
    files = [l.split('/')[1] for l in open(d + '/_CoqProject').read().split('\n') if l.startswith('theories/')]
    p = d + '/theories/' + m['file']
    s = open(p).read()
    if m['old'] not in s:
        return m, {'error': 'text to replace not found'}
    open(p, 'w').write(s.replace(m['old'], m['new'], 1))
    for f in m.get('without_examples', []):  # examples whose computation does not end for the wrong program
        t = open(d + '/theories/' + f).read()
        open(d + '/theories/' + f, 'w').write(t.split('(** ** Examples *)')[0])
    dirty, admitted, failed, stuck = set(), [], [], None
    for f in files:
        if f == m['file'] or deps(d, f) & dirty:
            dirty.add(f)
        else:
            continue
        while True:
            rc, out, err = coqc(d, f)
            if rc == 0:
                break
            mm = re.search(r'line (\d+), characters (\d+)-(\d+):\s*\n\s*Error', err) or re.search(r'line (\d+), characters', err)
            if not mm:
                stuck = f + ': ' + err[-300:]
                break
            ln = int(mm.group(1)) - 1
            lines = open(d + '/theories/' + f).read().split('\n')
            i = ln
            while i >= 0 and not HEAD.match(lines[i]):
                i -= 1
            h = HEAD.match(lines[i])
            if not h or h.group(1) not in PROVED:
                stuck = '%s:%d: %s' % (f, ln + 1, err[-300:])
                break
            j = i
            while j < len(lines) and not re.search(r'\bProof\b', lines[j]):
                j += 1
            k = j
            while k < len(lines) and not re.search(r'\b(Qed|Defined)\.', lines[k]):
                k += 1
            if k >= len(lines) or ln < j:
                stuck = '%s:%d: statement: %s' % (f, ln + 1, err[-300:])
                break
            u = re.search(r'Proof( using [^.]*)?\.', lines[j])
            pre = lines[j][:u.start()]
            lines[j:k + 1] = [pre + u.group(0) + ' Admitted.']
            open(d + '/theories/' + f, 'w').write('\n'.join(lines))
            admitted.append(h.group(2))
        if stuck:
            break
        if f.endswith('Props.v'):
            names = re.findall(r'^Print Assumptions (\w+)\.', open(d + '/theories/' + f).read(), re.M)
            parts = re.split(r'^(Closed under the global context|Axioms:)$', out, flags=re.M)
            # parts: [pre, tag, body, tag, body, ...]
            blocks = [(parts[q], parts[q + 1]) for q in range(1, len(parts) - 1, 2)]
            for nm, (tag, body) in zip(names, blocks):
                ax = set(re.findall(r'^([\w.\']+)', body, re.M)) | set(x.split('.')[-1] for x in re.findall(r'^([\w.\']+)', body, re.M))
                if nm in admitted or (tag == 'Axioms:' and ax & set(admitted)):
                    failed.append(nm)
    shutil.rmtree(base, ignore_errors=True)
    ex = [a for a in admitted if 'xample' in a]
    return m, {'failed': failed, 'lemmas': [a for a in admitted if a not in ex], 'examples': ex, 'stuck': stuck}

if __name__ == '__main__':
    ms = json.load(open(sys.argv[1]))
    os.makedirs('/tmp/mut', exist_ok=True)
    # the compiled state at the start; edits made meanwhile are not seen
    SNAP = tempfile.mkdtemp(prefix='snap', dir='/tmp/mut')
    shutil.copytree(ROOT + '/rocq', SNAP + '/rocq')
    with ThreadPoolExecutor(int(os.environ.get("THREADS", "4"))) as ex:
        for m, r in ex.map(try_one, ms):
            print(json.dumps({'definition': m['definition'], 'edit': m['edit'], **r}), flush=True)
            if len(sys.argv) > 2 and 'error' not in r:
                with open(sys.argv[2], 'a') as g:
                    g.write(json.dumps({'definition': m['definition'], 'file': m['file'], 'edit': m['edit'], 'claim_broken': m['breaks'],
                        'theorems_failed': r['failed'], 'lemmas_failed': r['lemmas'][:12], 'examples_failed': r['examples'],
                        'theorems_tightened': m.get('tightened', []), **({'stopped': r['stuck']} if r['stuck'] else {})}) + '\n')
    shutil.rmtree(SNAP, ignore_errors=True)
