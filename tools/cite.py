#!/usr/bin/env python3
"""Check the line citations `file.py:a-b [symbol]` of the model files against /repo.

With --fix, rewrite the range of a citation that names a function or class."""
import ast, glob, os, re, sys
fix = '--fix' in sys.argv
R = '/repo/xylem'
files = {}
for p in glob.glob(R + '/**/*.py', recursive=True) + glob.glob('/repo/scripts/*', recursive=True) + glob.glob('/repo/maintenance_utils/*.py'):
    try:
        t = ast.parse(open(p, encoding='utf-8').read())
    except Exception:
        continue
    sym = {}
    def walk(n, pre):
        for c in getattr(n, 'body', []):
            if isinstance(c, (ast.FunctionDef, ast.ClassDef)):
                a = min([c.lineno] + [d.lineno for d in c.decorator_list])
                sym.setdefault(c.name, []).append((a, c.end_lineno))
                sym.setdefault(pre + c.name, []).append((a, c.end_lineno))
                walk(c, c.name + '.')
    walk(t, '')
    files[os.path.relpath(p, R)] = sym
def find(f, ctx):
    f = f.replace('xylem/', '')
    if f in files: return f
    c = [x for x in files if x.endswith('/' + f)]
    pref = ctx and [x for x in c if x.startswith(ctx)]
    return (pref or c or [None])[0]
CTX = {'Sources.v': 'sources', 'Installer.v': 'installers', 'Installers.v': 'installers',
       'OsSupport.v': 'os_support', 'Context.v': 'installers', 'Crash.v': 'sources'}
for v in sorted(glob.glob('/verif/rocq/theories/*.v')):
    s = open(v).read(); b = os.path.basename(v)
    def rep(m):
        f = find(m.group(1), CTX.get(b)); name = m.group(5)
        if f is None: print(b, 'NOFILE', m.group(0)); return m.group(0)
        rs = files[f].get(name) or files[f].get(name.split('.')[-1])
        if not rs: print(b, 'NOSYM', f, m.group(0)); return m.group(0)
        a, e = int(m.group(2)), int(m.group(3))
        if (a, e) in rs: return m.group(0)
        r = min(rs, key=lambda r: abs(r[0] - a))
        print(b, 'RANGE', m.group(0).replace('\n', ' '), '->', r)
        return '%s:%d-%d%s[%s]' % (m.group(1), r[0], r[1], m.group(4), name)
    s2 = re.sub(r'([\w/]+\.py):(\d+)-(\d+)(,?\s+)\[([A-Za-z_][\w.]*)\]', rep, s)
    if fix and s2 != s: open(v, 'w').write(s2)
    if '--rest' in sys.argv:
        for m in re.finditer(r'([\w/]+\.py):(\d+)(-(\d+))?(?!,?\s+\[[A-Za-z_][\w.]*\])(?!\d)', s2):
            line = s2.count('\n', 0, m.start()) + 1
            print('%s:%d REST %s | %s' % (b, line, m.group(0), s2.split('\n')[line-1].strip()[:110]))
