"""Seeded-bug test of the theorems.

    python3 tools/mutate.py SPEC.json

SPEC.json is a list of {"file", "definition", "old", "new", "claim", "expect": ["C08", ...]}.
Each edit is applied to a scratch copy of the build outside /verif.  Files that depend on the edited one
are recompiled; a lemma whose proof no longer goes through is admitted (in the scratch copy only) so that
compilation continues, and the Print Assumptions output of the property theorems then tells which of them
depend on a broken lemma.  The files the expected theorems need are compiled first; if these theorems fail, the
rest is not compiled.  One line per edit is appended to seeded/LOG.jsonl.
"""
import json, os, re, shutil, subprocess, sys, time

SRC = os.environ.get('SRC', '/verif/rocq')
MUT = os.environ.get('MUT', '/tmp/w/mut')
LOG = '/verif/seeded/LOG.jsonl'


def sh(cmd, cwd, timeout=1200):
    try:
        p = subprocess.run(cmd, cwd=cwd, shell=True, capture_output=True, text=True, timeout=timeout)
        return p.returncode, p.stdout + p.stderr
    except subprocess.TimeoutExpired:
        return 124, 'TIMEOUT'


def deps(files):
    d = {}
    for f in files:
        t = open(f'{SRC}/theories/{f}').read()
        names = set()
        for m in re.finditer(r'From Verif Require (?:Import |Export )?([^.]*)\.(?:\s|$)', t):
            names |= set(m.group(1).split())
        d[f] = {n + '.v' for n in names}
    return d


def dependents(files, d, f0):
    hit = {f0}
    for f in files:  # project order is topological
        if d[f] & hit:
            hit.add(f)
    return [f for f in files if f in hit]


def wanted(files, d, hit, expect):
    """[hit] in two parts: what the files with the expected theorems need, and the rest"""
    need = {f for f in files if '_Props' in f and any(re.search(r'^Theorem ' + e + '_', open(f'{SRC}/theories/{f}').read(), re.M) for e in expect)}
    for f in reversed(files):
        if f in need:
            need |= d[f]
    first = [f for f in hit if f in need]
    return first, [f for f in hit if f not in need]


START = re.compile(r'^\s*(?:Local |Global |#\[[^\]]*\]\s*)?(Theorem|Lemma|Example|Corollary|Fact|Remark|Definition|Instance|Fixpoint)\s+([A-Za-z0-9_\']+)', re.M)
ENDP = re.compile(r'(?:Qed|Defined)\.')


def admit_at(text, line):
    """replace the proof around [line] by Admitted; return (new text, lemma name)"""
    lines = text.split('\n')
    off = sum(len(l) + 1 for l in lines[:line - 1])
    last = None
    for m in START.finditer(text):
        if m.start() > off + len(lines[line - 1]):
            break
        last = m
    if last is None:
        return None, None
    end = ENDP.search(text, last.end())
    nxt = START.search(text, last.end())
    if end is None or (nxt and nxt.start() < end.start()):
        return None, last.group(2)
    body = text[last.start():end.end()]
    k = body.find('Proof')
    if k < 0:
        return None, last.group(2)
    k2 = body.find('.', k)
    pad = '\n' * body[k:].count('\n')
    new = body[:k] + 'Proof. Admitted.' + pad
    return text[:last.start()] + new + text[end.end():], last.group(2)


def run(spec):
    files = [l.strip().split('/')[-1] for l in open(f'{SRC}/_CoqProject') if l.strip().endswith('.v')]
    d = deps(files)
    shutil.rmtree(MUT, ignore_errors=True)
    shutil.copytree(SRC, MUT)
    th = f'{MUT}/theories'
    path = f'{th}/{spec["file"]}'
    t = open(path).read()
    if t.count(spec['old']) != 1:
        return {'error': f'old text occurs {t.count(spec["old"])} times'}
    open(path, 'w').write(t.replace(spec['old'], spec['new']))
    failed, examples, props = [], [], {}
    expect = spec.get('expect', [])
    first, rest = wanted(files, d, dependents(files, d, spec['file']), expect)
    for f in first + rest:
        if rest and f == rest[0] and expect and all(any(b and n.startswith(e + '_') for n, b in props.items()) for e in expect):
            break
        tries = 0
        while True:
            rc, out = sh(f'coqc -Q . Verif {f}', th)
            if rc == 0:
                break
            m = re.search(r'File "\./' + re.escape(f) + r'", line (\d+)', out)
            if not m:
                return {'error': f'{f}: {out[-300:]}'}
            new, name = admit_at(open(f'{th}/{f}').read(), int(m.group(1)))
            if new is None:
                return {'error': f'{f}:{m.group(1)} {name}: {out[-300:]}'}
            tx = open(f'{th}/{f}').read()
            (examples if re.search(r'Example\s+' + re.escape(name) + r'\b', tx) else failed).append(name)
            open(f'{th}/{f}', 'w').write(new)
            tries += 1
            if tries > 80:
                return {'error': 'too many failures in ' + f}
        if '_Props' in f:
            names = re.findall(r'^Print Assumptions (\w+)\.', open(f'{th}/{f}').read(), re.M)
            blocks = re.split(r'(?=Closed under the global context|^Axioms:|^Section Variables:)', out, flags=re.M)
            blocks = [b for b in blocks if b.startswith(('Closed', 'Axioms', 'Section'))]
            for n, b in zip(names, blocks):
                props[n] = not b.startswith('Closed') and any(re.search(r'\b' + re.escape(x) + r'\b', b) for x in failed)
            if len(names) != len(blocks):
                props['?' + f] = True
    broken = [n for n, b in props.items() if b]
    return {'theorems_failed': broken, 'lemmas_failed': failed, 'examples_failed': examples}


def main():
    for spec in json.load(open(sys.argv[1])):
        r = run(spec)
        exp = spec.get('expect', [])
        caught = {n.split('_')[0] for n in r.get('theorems_failed', [])}
        ok = bool(r.get('theorems_failed')) and all(e in caught for e in exp)
        print(('OK  ' if ok else 'WEAK'), spec['definition'], '|', spec['claim'], '|', r)
        sys.stdout.flush()
        if 'error' in r:
            continue
        if len(sys.argv) > 2 and sys.argv[2] == 'dry':
            continue
        row = {'definition': f'{spec["file"]}: {spec["definition"]}', 'edit': f'{spec["old"].strip()}  ==>  {spec["new"].strip()}',
               'claim': spec['claim'], 'theorems_failed': r['theorems_failed'], 'lemmas_failed': r['lemmas_failed'],
               'examples_failed': r['examples_failed'], 'caught': ok, 'theorems_tightened': spec.get('tightened', [])}
        open(LOG, 'a').write(json.dumps(row) + '\n')


main()
