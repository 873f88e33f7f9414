#!/usr/bin/env python3
"""Like mutate.py, but stops at the first proof that no longer goes through.  Failing
Examples are admitted IN THE SCRATCH COPY and the build goes on; the first failing Lemma or
Theorem ends the attempt ('first').  If it is a lemma, the property theorems of the built
sources that mention it, directly or through other lemmas by name, are listed as 'theorems'
(a textual approximation).
usage: mutate_fast.py muts.json [jobs]"""
import json, os, re, shutil, subprocess, sys
SRC = os.environ.get('MUTSRC', '/verif/rocq')
J = sys.argv[2] if len(sys.argv) > 2 else '3'
HEAD = r'\s*(?:Local |Global |#\[.*?\] )?(Lemma|Theorem|Example|Corollary|Fact|Remark|Definition|Fixpoint|Instance|Let)\s+([\w\']+)'
def users():
    "name -> set of names of statements whose text or proof mentions it"
    decl = []
    for f in sorted(os.listdir(SRC + '/theories')):
        if not f.endswith('.v'): continue
        s = open(SRC + '/theories/' + f).read()
        for blk in re.split(r'(?m)^(?=\s*(?:Lemma|Theorem|Example|Corollary|Fact|Remark)\s)', s)[1:]:
            mm = re.match(HEAD, blk)
            if mm: decl.append((mm.group(2), mm.group(1), set(re.findall(r"[A-Za-z_][\w']*", blk))))
    return decl
DECL = None
def theorems_of(names):
    global DECL
    if DECL is None: DECL = users()
    todo, seen = set(names), set(names)
    while todo:
        new = set()
        for n, k, w in DECL:
            if n not in seen and w & todo: new.add(n)
        seen |= new; todo = new
    return sorted(n for n in seen if re.match(r'C\d+_', n) and any(x[0] == n and x[1] == 'Theorem' for x in DECL))
def run(m, k):
    d = '/tmp/mut/%s' % k
    shutil.rmtree(d, ignore_errors=True)
    subprocess.check_call(['cp', '-a', SRC, d])
    p = os.path.join(d, 'theories', m['file'])
    s = open(p).read()
    if s.count(m['old']) != 1: return {'error': 'old occurs %d times' % s.count(m['old'])}
    open(p, 'w').write(s.replace(m['old'], m['new']))
    examples, first, msg = [], [], ''
    for _ in range(40):
        out = subprocess.run('ulimit -t 240; timeout 1500 make -j%s' % J, shell=True, cwd=d, stdout=subprocess.PIPE,
                             stderr=subprocess.STDOUT, universal_newlines=True).stdout
        errs = re.findall(r'File "\./(theories/\w+\.v)", line (\d+), characters[^\n]*\n((?:.|\n)*?)(?=\n\n|\nmake|\Z)', out)
        errs = [(f, int(l), t) for f, l, t in errs if t.lstrip().startswith('Error')]
        if not errs:
            dead = re.findall(r'make(?:\[\d+\])?: \*\*\* \[[^\]]*?(\w+)\.vo\]', out)
            if dead: first = ['a proof in %s no longer ends' % dead[0]]
            break
        for f, line, t in errs:
            fp = os.path.join(d, f)
            L = open(fp).read().split('\n')
            i = line - 1
            while i >= 0 and not re.match(HEAD, L[i]): i -= 1
            kind, name = re.match(HEAD, L[i]).group(1), re.match(HEAD, L[i]).group(2)
            if kind == 'Example':
                j = i
                while j < len(L) and not re.search(r'\bProof\b', L[j]) and (j == i or not re.match(HEAD, L[j])): j += 1
                if j == len(L) or not re.search(r'\bProof\b', L[j]):
                    e = i
                    while not re.search(r'\.\s*$', L[e]): e += 1
                    L[i:e+1] = [''] * (e - i + 1)
                    open(fp, 'w').write('\n'.join(L)); examples.append(name); continue
                e = j
                while not re.search(r'\b(Qed|Defined)\.', L[e]): e += 1
                L[j:e+1] = [L[j][:L[j].index('Proof')] + 'Admitted.'] + [''] * (e - j)
                open(fp, 'w').write('\n'.join(L)); examples.append(name)
            else:
                first.append(name + ('' if kind in ('Lemma', 'Theorem') else ' (%s)' % kind)); msg = t[:200]
        if first: break
    shutil.rmtree(d, ignore_errors=True)
    return {'first': first, 'theorems': theorems_of([x.split()[0] for x in first if ' no longer ' not in x]) if first else [], 'examples': examples, 'msg': msg}
if __name__ == '__main__':
    muts = json.load(open(sys.argv[1]))
    with open(sys.argv[1].replace('.json', '.out'), 'a') as fo:
        for k, m in list(enumerate(muts))[int(os.environ.get('MUTFROM', '0')):]:
            r = run(m, os.path.basename(sys.argv[1])[:-5] + 'f' + str(k))
            m2 = dict(m); m2.update(r)
            fo.write(json.dumps(m2) + '\n'); fo.flush()
            print(k, m['file'], m['definition'], '|', m['claim'], '->', r.get('first'), len(r.get('theorems', [])), 'EX', r.get('examples'), r.get('error', ''), flush=True)
