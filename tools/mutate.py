"""Test the theorems against wrong programs.

usage: mutate.py MUTATIONS.json RESULTS_DIR [jobs] [ids...]

MUTATIONS.json is a list of {id, file, def, old, new, edit, claim, targets}; targets are the
property files to rebuild (all of them if left out). Each edit is made in a
scratch copy of rocq/, which is then rebuilt. A proof that no longer checks is replaced by
Admitted and the build goes on; at the end Print Assumptions under the property theorems
shows which of them rest on a broken proof. One JSON file per mutation goes to RESULTS_DIR.
"""
import json, os, re, shutil, subprocess, sys, time

SRC = os.environ.get('MUTATE_SRC', '/verif/rocq')
HEAD = re.compile(r'^[ \t]*(?:Global |Local )?(Lemma|Theorem|Example|Corollary|Fact|Remark)\s+([\w\']+)', re.M)
ERR = re.compile(r'File "\./theories/(\w+)\.v", line (\d+), characters (\d+)-(\d+):\n(?:Warning|Error)?([^\n]*)')


def spans(text):
    heads = list(HEAD.finditer(text))
    out = []
    for i, m in enumerate(heads):
        nxt = heads[i + 1].start() if i + 1 < len(heads) else len(text)
        body = text[m.start():nxt]
        q = re.search(r'\b(Qed|Defined|Admitted)\.', body)
        p = re.search(r'\bProof\b', body)
        if q and p:
            out.append((m.start(), m.start() + p.start(), m.start() + q.end(), m.group(2)))
    return out


def offset(text, line, char):
    lines = text.split('\n')
    return len(('\n'.join(lines[:line - 1]) + '\n').encode()) + char if line > 1 else char


def patch(path, line, char):
    raw = open(path, 'rb').read()
    text = raw.decode()
    assert len(raw) >= 0
    off_b = offset(text, line, char)
    off = len(raw[:off_b].decode(errors='ignore'))
    for s, p, q, name in spans(text):
        if s <= off < q:
            if off < p:
                return name, 'statement'
            if 'Admitted' in text[p:q]:
                return name, 'again'
            open(path, 'w').write(text[:p] + 'Proof. Admitted.' + text[q:])
            return name, 'proof'
    return None, 'outside'


def run(m, results, jobs):
    d = '/tmp/mut/' + m['id']
    shutil.rmtree(d, ignore_errors=True)
    subprocess.run(['cp', '-a', SRC, d], check=True)
    f = f"{d}/theories/{m['file']}"
    edits = m['edits'] if 'edits' in m else [[m['old'], m['new']]]
    s = open(f).read()
    for old, new in edits:
        assert s.count(old) == 1, (m['id'], s.count(old), old)
        s = s.replace(old, new)
    open(f, 'w').write(s)
    broken, notes, t0 = [], [], time.time()
    for it in range(60):
        r = subprocess.run(['nice', 'make', '-k', f'-j{jobs}', 'COQEXTRAFLAGS=-set "Default Timeout=90"'] +
                           ['theories/' + t + '.vo' for t in m.get('targets', [])], cwd=d,
                           stdout=subprocess.PIPE, stderr=subprocess.STDOUT, text=True)
        if r.returncode == 0:
            break
        # an error block is "File ..., line ..:\nError"
        found = [(a, int(b), int(c)) for a, b, c in
                 re.findall(r'File "\./theories/(\w+)\.v", line (\d+), characters (\d+)-\d+:\n(?:Error|Anomaly)', r.stdout)]
        if not found:
            notes.append('no location: ' + r.stdout[-400:])
            break
        progress = False
        for a, b, c in found:
            name, kind = patch(f'{d}/theories/{a}.v', b, c)
            if kind == 'proof':
                broken.append(name)
                progress = True
            else:
                notes.append(f'{a}:{b} {name} {kind}')
        if not progress:
            break
    failed = []
    for p in sorted(os.listdir(d + '/theories')):
        if not (p.startswith('P_') and p.endswith('.v')) or ('targets' in m and p[:-2] not in m['targets']):
            continue
        text = open(f'{d}/theories/{p}').read()
        names = re.findall(r'^Print Assumptions (\w+)\.', text, re.M)
        if not os.path.exists(f'{d}/theories/{p}o'):
            failed.append(p + ' (not built)')
            continue
        if os.path.getmtime(f'{d}/theories/{p}o') < t0 - 5:
            continue
        # the P file was rebuilt: ask again, one theorem at a time
        q = subprocess.run(['nice', 'coqc', '-Q', 'theories', 'Verif', f'theories/{p}'], cwd=d, stdout=subprocess.PIPE,
                           stderr=subprocess.STDOUT, text=True)
        blocks = re.split(r'^(?:Axioms:|Closed under the global context)', q.stdout, flags=re.M)[1:]
        if len(blocks) != len(names):
            notes.append(f'{p}: {len(blocks)} blocks for {len(names)} theorems')
        for n, b in zip(names, blocks):
            ax = set(re.findall(r'^([\w\'.]+)', b, re.M))
            ax = {x.split('.')[-1] for x in ax}
            hit = sorted(ax & set(broken))
            if n in broken:
                hit = [n]
            if hit:
                failed.append(n + ': ' + ', '.join(hit))
    out = dict(m, broken=broken, failed=failed, notes=notes, seconds=round(time.time() - t0))
    json.dump(out, open(f'{results}/{m["id"]}.json', 'w'), indent=1)
    shutil.rmtree(d, ignore_errors=True)
    print(m['id'], len(broken), 'broken;', len(failed), 'theorems;', out['seconds'], 's', notes, flush=True)


if __name__ == '__main__':
    muts = json.load(open(sys.argv[1]))
    results = sys.argv[2]
    os.makedirs(results, exist_ok=True)
    jobs = sys.argv[3] if len(sys.argv) > 3 else '2'
    ids = sys.argv[4:]
    for m in muts:
        if (ids and m['id'] not in ids) or (not ids and os.path.exists(f'{results}/{m["id"]}.json')):
            continue
        try:
            run(m, results, jobs)
        except Exception as e:
            print(m['id'], 'FAILED', repr(e), flush=True)
