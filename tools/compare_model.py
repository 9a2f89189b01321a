"""Compare the validators of /repo with their model, as texts.

For each method of a validator and the definition of the same name this compares the sequence of string literals, and the
sequence of calls and flags; the lists of reserved words are compared as lists.  It is no proof, but a check of the
transcription.  Differences that are intended are listed in KNOWN with the reason.

usage: python3 compare_model.py [repo [theories]]
"""
import re, sys
REPO = sys.argv[1] if len(sys.argv) > 1 else '/repo'
THEORIES = sys.argv[2] if len(sys.argv) > 2 else '/verif/rocq/theories'
SHARED = {'validateToken', 'matchToken', 'matchTokenNext', 'validateBrackets'}
KNOWN = {
    'validateCreateOther': 'the loop is skip_statement in VBase.v',
    'isValidName': 'return true is ret true',
    'validateLiteralValue': 'v.set(v.next()) is next_set true',
    'validatePositiveInteger': 'v.set(v.next()) is next_set true',
    ('postgresql', 'validateColumnConstraintsAux'): 'the statements after the test are written in both branches',
    ('mysql', 'validateColumnConstraintsAux'): 'the choice of the entry is constraint_entry',
}
GO_STRING, COQ_STRING = r'"((?:[^"\\]|\\.)*)"', r'"((?:[^"]|"")*)"'

def go_functions(text):
    return {m.group(1): re.sub(r'//.*', '', m.group(0)) for m in re.finditer(r'^func \(v \*\w+\) (\w+)\(.*?^\}', text, re.M | re.S)}

def coq_definitions(text):
    text = re.sub(r'\(\*.*?\*\)', '', text, flags=re.S)
    return {m.group(1): m.group(0) for m in
            re.finditer(r'^(?:Definition|Fixpoint) (\w+).*?\.\n(?=\n|\Z|Definition|Fixpoint)', text, re.M | re.S)}

def compare(dialect, module):
    go = go_functions(open(f'{REPO}/internal/validator/validator_{dialect}.go').read())
    coq = coq_definitions(open(f'{THEORIES}/{module}.v').read())
    names, differences = set(go) | SHARED, []
    for f, body in go.items():
        if f not in coq:
            differences.append(f'{f} is not modelled')
            continue
        a = [x.replace('\\"', '"') for x in re.findall(GO_STRING, body)]
        b = [x.replace('""', '"') for x in re.findall(COQ_STRING, coq[f])]
        body = re.sub(GO_STRING, 'S', body[body.index('{'):])
        body = re.sub(r'return (true|false)', '', body.replace('for true', 'for'))
        c = [x or y for x, y in re.findall(r'v\.(\w+)\(|\b(true|false)\b', body)]
        text = re.sub(COQ_STRING, 'S', coq[f])
        text = text[text.index(':='):].replace('skipOpt', 'matchTokenNext')
        d = re.findall(r"[A-Za-z_']\w*", text)
        keep = lambda l: [x for x in l if x in names or x in ('true', 'false')]
        if (a != b or keep(c) != keep(d)) and f not in KNOWN and (dialect, f) not in KNOWN:
            differences.append(f'{f}: {a} {keep(c)} / {b} {keep(d)}')
    print(dialect, len(go), 'methods,', len(differences), 'unexplained differences')
    return differences

def reserved():
    words, differences = open(f'{THEORIES}/Words.v').read(), []
    for dialect in ('sqlite', 'postgresql', 'mysql'):
        text = open(f'{REPO}/internal/validator/validator_{dialect}.go').read()
        for m in re.finditer(r'^var (\w+) = \[\]string\{(.*?)^\}', text, re.M | re.S):
            a = re.findall(GO_STRING, re.sub(r'//.*', '', m.group(2)))
            d = re.search(r'Definition ' + m.group(1) + r'\b.*?\]', words, re.S)
            b = re.findall(COQ_STRING, d.group(0)) if d else None
            print(m.group(1), len(a), 'words,', 'same list' if a == b else 'DIFFERENT')
            if a != b:
                differences.append(m.group(1))
    return differences

found = compare('sqlite', 'VSqlite') + compare('postgresql', 'VPostgres') + compare('mysql', 'VMysql') + reserved()
for x in found:
    print(x)
sys.exit(1 if found else 0)
