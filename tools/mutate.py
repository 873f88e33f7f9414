#!/usr/bin/env python3
"""Apply one wrong-program edit in a scratch copy and list the property theorems whose
proofs no longer go through.  Failing proofs are replaced by Admitted IN THE SCRATCH COPY
so that the build continues and every affected property theorem is found through its
Print Assumptions output.
usage: mutate.py muts.json  (list of {file, old, new, claim, definition})"""
import json, os, re, shutil, subprocess, sys
SRC = os.environ.get('MUTSRC', '/verif/rocq')
def run(m, k):
    d = '/tmp/mut/%s' % k
    shutil.rmtree(d, ignore_errors=True)
    subprocess.check_call(['cp', '-a', SRC, d])
    p = os.path.join(d, 'theories', m['file'])
    s = open(p).read()
    if s.count(m['old']) != 1:
        return {'error': 'old occurs %d times' % s.count(m['old'])}
    open(p, 'w').write(s.replace(m['old'], m['new']))
    failed, examples, broken = [], [], []
    for _ in range(80):
        r = subprocess.run('timeout 1500 make -j4 -k', shell=True, cwd=d, stdout=subprocess.PIPE,
                           stderr=subprocess.STDOUT, universal_newlines=True)
        out = r.stdout
        errs = re.findall(r'File "\./(theories/\w+\.v)", line (\d+), characters[^\n]*\n((?:.|\n)*?)(?=\n\n|\nmake|\Z)', out)
        errs = [(f, int(l), t) for f, l, t in errs if t.lstrip().startswith('Error')]
        if not errs:
            break
        seen = set()
        for f, line, t in errs:
            if f in seen: continue
            seen.add(f)
            fp = os.path.join(d, f)
            L = open(fp).read().split('\n')
            i = line - 1
            while i >= 0 and not re.match(r'\s*(Local |Global |#\[.*?\] )?(Lemma|Theorem|Example|Corollary|Fact|Remark|Definition|Fixpoint|Instance|Let)\b', L[i]):
                i -= 1
            mm = re.match(r'\s*(?:Local |Global )?(\w+)\s+(\w+)', L[i])
            kind, name = mm.group(1), mm.group(2)
            # find Proof. ... Qed.
            j = i
            while j < len(L) and not re.search(r'\bProof\b', L[j]): j += 1
            e = j
            while e < len(L) and not re.search(r'\b(Qed|Defined)\.', L[e]): e += 1
            if kind in ('Definition', 'Fixpoint', 'Let') and not (j <= line - 1) or e >= len(L) or line - 1 < j - 0 and 'Proof' not in L[line-1]:
                broken.append('%s:%s' % (f, name))
                return {'failed': failed, 'examples': examples, 'broken': broken, 'msg': t[:300]}
            pre = L[j][:L[j].index('Proof')]
            L[j:e+1] = [pre + 'Admitted.'] + [''] * (e - j)
            open(fp, 'w').write('\n'.join(L))
            (examples if kind == 'Example' else failed).append(name)
    # affected theorems through Print Assumptions
    aff = set(); 
    for f in sorted(os.listdir(d + '/theories')):
        if not (f.startswith('Prop') and f.endswith('.v')): continue
        txt = open(d + '/theories/' + f).read()
        names = re.findall(r'^\s*Theorem (C\d+_\w+)', txt, re.M)
        q = 'From Verif Require Import %s.\n' % f[:-2] + ''.join('Print Assumptions %s.\n' % n for n in names)
        open('/tmp/mut/q%s.v' % k, 'w').write(q)
        o = subprocess.run(['coqc', '-Q', d + '/theories', 'Verif', '/tmp/mut/q%s.v' % k], stdout=subprocess.PIPE,
                           stderr=subprocess.STDOUT, universal_newlines=True).stdout
        parts = re.split(r'(?=Closed under|Axioms:)', o)
        parts = [x for x in parts if x.startswith(('Closed', 'Axioms'))]
        if len(parts) != len(names):
            aff.add('?%s' % f); continue
        for n, x in zip(names, parts):
            if x.startswith('Axioms'): aff.add(n)
    shutil.rmtree(d, ignore_errors=True)
    return {'theorems': sorted(aff), 'failed': failed, 'examples': examples, 'broken': broken}
if __name__ == '__main__':
    os.makedirs('/tmp/mut', exist_ok=True)
    muts = json.load(open(sys.argv[1]))
    out = sys.argv[1].replace('.json', '.out')
    with open(out, 'a') as fo:
        for k, m in enumerate(muts):
            r = run(m, os.path.basename(sys.argv[1])[:-5] + str(k))
            m2 = dict(m); m2.update(r)
            fo.write(json.dumps(m2) + '\n'); fo.flush()
            print(k, m['definition'], '|', m['claim'], '->', r.get('theorems'), 'EX', r.get('examples'), r.get('broken'), r.get('error', ''), flush=True)
