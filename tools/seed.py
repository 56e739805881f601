#!/usr/bin/env python3
"""Run the theorems against a wrong model, in a scratch copy.

usage: seed.py edits.json          (a list of seeds, or one seed)
seed:  {"file": "Model/Store.v", "old": "...", "new": "...",
        "definition": "...", "edit": "...", "claim": "...",
        "targets": ["Props/X", ...]}   (optional: only these files and what they need)

Copies /verif/rocq to /tmp/seed/rocq, applies the edit, builds; a proof that
fails is replaced by Admitted *in the copy* and the build goes on, so that every
theorem that no longer has a proof is found (itself failing, or resting on a
failed lemma according to Print Assumptions).  Prints one JSON line per seed."""
import json, os, re, shutil, subprocess, sys
from concurrent.futures import ThreadPoolExecutor
LIMIT = 240   # seconds of processor time for one file
SRC = os.environ.get('SEED_SRC', '/verif/rocq'); DST = os.environ.get('SEED_DST', '/tmp/seed') + '/rocq'
START = re.compile(r'^\s*(?:Local |Global |#\[.*\] )?(Lemma|Theorem|Example|Corollary|Remark|Fact|Proposition|Definition|Fixpoint|Instance)\s+([\w\']+)')
END = re.compile(r'^\s*(.*\s)?(Qed|Defined|Abort|Admitted)\.\s*$')

def sync():
    os.makedirs(os.path.dirname(DST), exist_ok=True)
    subprocess.run(['rsync', '-a', '--delete', SRC + '/', DST + '/'], check=True) if shutil.which('rsync') else \
        (shutil.rmtree(DST, ignore_errors=True), subprocess.run(['cp', '-a', SRC, DST], check=True))

def admit(path, line):
    """Replace the proof around 1-based line by Admitted; return (kind, name)."""
    L = open(path).read().split('\n')
    i = line - 1
    while i >= 0 and not START.match(L[i]): i -= 1
    if i < 0: return None
    m = START.match(L[i])
    # the end of the statement's proof
    j = i
    while j < len(L) and not END.match(L[j]): j += 1
    nxt = next((q for q in range(i + 1, len(L)) if START.match(L[q])), len(L))
    if m.group(1) in ('Definition', 'Fixpoint') and not any(re.search(r'\bProof\b', x) for x in L[i:nxt]):
        j = i
        while j < nxt - 1 and not L[j].rstrip().endswith('.'): j += 1
    p = i
    while p <= j and p < len(L) and not re.search(r'\bProof\b', L[p]): p += 1
    if p > j or line - 1 < p and not re.search(r'\bProof\b', L[line - 1]):
        # the statement itself fails: drop it
        name = m.group(2)
        L[i:j + 1] = ['(* dropped *)'] * (j + 1 - i)
        # drop Print Assumptions
        L = [x for x in L]
        for k, x in enumerate(L):
            if x.strip() == 'Print Assumptions %s.' % name: L[k] = '(* dropped *)'
        open(path, 'w').write('\n'.join(L))
        return m.group(1), name
    pre = L[p].split('Proof')[0]
    L[p] = pre + ' Proof. Admitted.'
    for k in range(p + 1, j + 1): L[k] = ''
    open(path, 'w').write('\n'.join(L))
    return m.group(1), m.group(2)

def endless(path):
    """The line of the sentence at which a file does not come to an end."""
    t = subprocess.run('ulimit -t %d; coqc -time -Q theories Verif %s 2>&1' % (LIMIT, path), shell=True,
                       cwd=DST, capture_output=True).stdout.decode(errors='replace')
    c = re.findall(r'^Chars \d+ - (\d+) ', t, re.M)
    text = open(os.path.join(DST, path), 'rb').read()
    k = int(c[-1]) if c else 0
    while k < len(text) and text[k:k + 1].isspace(): k += 1
    return text[:k].count(b'\n') + 1

def run(seed):
    sync()
    f = os.path.join(DST, 'theories', seed['file'])
    s = open(f).read()
    n = s.count(seed['old'])
    if n != 1:
        return dict(seed, error='old text occurs %d times' % n)
    open(f, 'w').write(s.replace(seed['old'], seed['new']))
    failed = []
    for it in range(200):
        goal = ' '.join('theories/%s.vo' % t for t in seed.get('targets', []))
        r = subprocess.run('ulimit -t %d; make -k -j4 %s 2>&1' % (LIMIT, goal), shell=True, cwd=DST, capture_output=True, text=True)
        errs = re.findall(r'File "\./(theories/[^"]+)", line (\d+), characters [^\n]*\nError', r.stdout)
        errs += [(p, endless(p)) for p in re.findall(r'(theories/\S+\.v)o\] (?:Killed|Error 137|CPU time)', r.stdout)]
        if not errs:
            ok = r.returncode == 0
            break
        seen = set()
        stuck = False
        for (p, ln) in errs:
            if p in seen: continue
            seen.add(p)
            k = admit(os.path.join(DST, p), int(ln))
            if k is None or (p, k[1]) in failed: stuck = True
            else: failed.append((p, k[1]))
        if stuck:
            return dict(seed, error='stuck at %s' % errs)
    bad = set(n for (_, n) in failed)
    hit = []
    props = os.path.join(DST, 'theories', 'Props')
    def rebuilt(fn):
        """Was the file built again, or could it not be built at all?"""
        a, b = (os.path.join(r, 'theories', 'Props', fn[:-2] + '.vo') for r in (SRC, DST))
        return not os.path.exists(a) or not os.path.exists(b) or os.path.getmtime(a) != os.path.getmtime(b)
    def assumptions(fn):
        return fn, subprocess.run(['coqc', '-Q', 'theories', 'Verif', os.path.join('theories', 'Props', fn)],
                                  cwd=DST, capture_output=True, text=True).stdout
    with ThreadPoolExecutor(3) as pool:
        for fn, text in pool.map(assumptions, [f for f in sorted(os.listdir(props)) if f.endswith('.v') and rebuilt(f) and
                                             ('targets' not in seed or 'Props/' + f[:-2] in seed['targets'])]):
            src = open(os.path.join(props, fn)).read()
            names = re.findall(r'^Print Assumptions (\w+)\.', src, re.M)
            parts = re.findall(r'(Closed under the global context|Axioms:\n(?:(?!Closed under|Axioms:).*\n?)*)', text)
            for nm, part in zip(names, parts):
                if not part.startswith('Closed'): hit.append(nm)
            orig = open(os.path.join(SRC, 'theories', 'Props', fn)).read()
            for nm in re.findall(r'^Theorem (\w+)', orig, re.M):
                if nm in bad and nm not in hit: hit.append(nm)
    out = {k: seed[k] for k in ('definition', 'edit', 'claim')}
    out['theorems_failed'] = sorted(hit)
    out['examples_failed'] = sorted(n for (p, n) in failed if 'Props/' in p and n not in hit)
    out['lemmas_failed'] = sorted(n for (p, n) in failed if 'Props/' not in p)
    out['theorems_tightened'] = []
    if 'targets' in seed: out['only'] = seed['targets']
    return out

if __name__ == '__main__':
    seeds = json.load(open(sys.argv[1]))
    if isinstance(seeds, dict): seeds = [seeds]
    for s in seeds:
        print(json.dumps(run(s)), flush=True)
