#!/usr/bin/env python3
"""Seeded-bug runner.  usage: mutate.py muts.json
muts.json: list of {"file","definition","old","new","claim","edit"(optional)}.
Works in a scratch copy outside /verif.  A lemma whose proof breaks is replaced
by Admitted in the scratch copy so that Print Assumptions tells exactly which
property theorems depend on it.  Appends one line per mutation to
/verif/seeded/LOG.jsonl (unless --dry)."""
import json, os, re, shutil, subprocess, sys, tempfile
SRC = '/verif/rocq'
def order():
    fs = [l.strip() for l in open(SRC + '/_CoqProject') if l.strip().endswith('.v')]
    return [os.path.basename(f)[:-2] for f in fs]
def deps(fs):
    d = {}
    for f in fs:
        s = open(f'{SRC}/theories/{f}.v').read()
        r = set()
        for m in re.finditer(r'From Verif Require (?:Import |Export )?([^.]*)\.', s):
            r |= set(m.group(1).split())
        d[f] = r
    return d
KW = re.compile(r'^\s*(?:Local\s+|#\[[^\]]*\]\s*)?(Theorem|Lemma|Corollary|Example|Fact|Remark|Proposition)\s+([A-Za-z0-9_\']+)')
DEFKW = re.compile(r'^(Definition|Fixpoint|Inductive|Record|Print|Notation|From|Ltac)\b')
def compile(d, f, to):
    p = f'{d}/theories/{f}.v'
    try:
        r = subprocess.run(['coqc', '-q', '-w', 'none', '-Q', f'{d}/theories', 'Verif', p], capture_output=True, text=True, timeout=to, cwd=d)
        if r.returncode == 0: return None, r.stdout
        m = re.search(r'line (\d+), characters', r.stderr)
        return (int(m.group(1)) if m else -1), r.stderr
    except subprocess.TimeoutExpired:
        # find the sentence that hangs
        try:
            r = subprocess.run(['timeout', str(to), 'coqc', '-q', '-time', '-w', 'none', '-Q', f'{d}/theories', 'Verif', p], capture_output=True, text=True, cwd=d)
            last = re.findall(r'Chars \d+ - (\d+)', r.stdout)
            b = open(p, 'rb').read()
            off = int(last[-1]) if last else 0
            return b[:off + 1].count(b'\n') + 1 + (1 if b[off:off+1] == b'\n' else 0), 'timeout'
        except Exception as e:
            return -1, str(e)
def admit(path, line):
    L = open(path).read().split('\n')
    i = min(line - 1, len(L) - 1)
    k = i
    while k >= 0 and not KW.match(L[k]) and not DEFKW.match(L[k]): k -= 1
    if k < 0 or not KW.match(L[k]): return None
    name = KW.match(L[k]).group(2)
    # find Proof. .. Qed.
    a = k
    while a < len(L) and 'Proof' not in L[a]: a += 1
    b = a
    while b < len(L) and not re.search(r'\b(Qed|Defined)\.', L[b]): b += 1
    if a > i: return None   # the statement itself fails
    pre = L[a].split('Proof')[0]
    L[a:b + 1] = [pre + 'Proof. Admitted.'] + [''] * (b - a)
    open(path, 'w').write('\n'.join(L))
    return name
def main():
    dry = '--dry' in sys.argv
    muts = json.load(open([a for a in sys.argv[1:] if not a.startswith('--')][0]))
    fs = order(); dp = deps(fs)
    for m in muts:
        if m['file'].endswith('.v'): m['file'] = m['file'][:-2]
        d = tempfile.mkdtemp(prefix='mut', dir='/tmp')
        shutil.copytree(SRC + '/theories', d + '/theories')
        p = f"{d}/theories/{m['file']}.v"
        s = open(p).read()
        if s.count(m['old']) != 1:
            import re as _re
            mm = _re.search(r'^(Definition|Fixpoint|with) ' + _re.escape(m['definition']) + r'\b.*?(?=^(Definition|Fixpoint|Record|Inductive|\(\*\*|Lemma|Theorem) |\Z)', s, _re.S | _re.M)
            if mm and mm.group(0).count(m['old']) == 1:
                s = s[:mm.start()] + mm.group(0).replace(m['old'], m['new']) + s[mm.end():]
                m = dict(m, edit=f"{m['old']}  ->  {m['new']}", old='\0')
        if m['old'] != '\0' and s.count(m['old']) != 1:
            print('BAD PATTERN', s.count(m['old']), m['definition'], m['old']); shutil.rmtree(d); continue
        open(p, 'w').write(s if m['old'] == '\0' else s.replace(m['old'], m['new']))
        dirty = {m['file']}; failed = []; props = []; broken = []
        for f in fs:
            if (f in dirty or dp[f] & dirty) and ('only' not in m or any(f.startswith(x) for x in m['only'])):
                dirty.add(f)
                while True:
                    line, out = compile(d, f, m.get('timeout', 150))
                    if line is None: break
                    n = admit(f'{d}/theories/{f}.v', line) if line > 0 else None
                    if n is None:
                        broken.append(f'{f}:{line}: {out.strip()[-300:]}'); break
                    failed.append(n)
                if broken: break
                names = re.findall(r'(?:^|(?<=\. ))Print Assumptions ([A-Za-z0-9_\']+)\.', open(f'{d}/theories/{f}.v').read(), re.M)
                chunks = re.split(r'(?m)^(?=Closed under|Axioms:)', out)
                chunks = [c for c in chunks if c.startswith('Closed') or c.startswith('Axioms:')]
                for n, c in zip(names, chunks):
                    if c.startswith('Axioms:') : props.append(n)
        shutil.rmtree(d)
        rec = {"definition": m['definition'], "file": m['file'] + '.v', "edit": m.get('edit') or f"{m['old']}  ->  {m['new']}",
               "claim_broken": m['claim'], "failed_theorems": props, "failed_lemmas": failed[:12], "tightened": m.get('tightened', [])}
        if broken: rec['stopped'] = broken
        print(json.dumps(rec))
        if not props and not broken: print('   *** SURVIVED ***')
        if not dry and (props or broken or failed or m.get('log_survivor')):
            open('/verif/seeded/LOG.jsonl', 'a').write(json.dumps(rec) + '\n')
main()
