#!/usr/bin/env python3
"""Reads the C interface of /repo as text and writes the two tables of
rocq/theories/CApiTable.v (what each definition in facades/*.cpp and
collections.c does with its handles) and rocq/theories/CHeaderTable.v (what
include/electionguard/*.h says about each function).  The tables were then
compared by eye with the sources; the proofs use the generated text only."""
import re, glob, os
R = '/repo/src/electionguard/facades/'
H = '/repo/include/electionguard/'
OUT = os.path.join(os.path.dirname(os.path.abspath(__file__)), '../rocq/theories/')

def strip(s): return re.sub(r'//[^\n]*', '', re.sub(r'/\*.*?\*/', '', s, flags=re.S))

# ---- classes: method -> return type
cls = {}
for f in glob.glob(H + '*.hpp') + glob.glob('/repo/src/electionguard/*.hpp'):
    s = strip(open(f).read())
    for m in re.finditer(r'class (?:EG_API |EG_INTERNAL_API )?(\w+)(?:\s*:\s*[^{;]*)?\s*\{(.*?)^    \};', s, re.S | re.M):
        d = cls.setdefault(m.group(1), {})
        b = re.search(r'class (?:EG_API |EG_INTERNAL_API )?\w+\s*:\s*([^{]*)\{', m.group(0))
        d['__base__'] = b.group(1).strip() if b else ''
        for k in re.finditer(r'([\w:<>\*& ]+?[\s\*&>])(\w+)\(([^;{}]*)\)\s*(?:const)?\s*(?:override|noexcept)?\s*(?:;|\{)', m.group(2)):
            d[k.group(2)] = re.sub(r'\s+', ' ', k.group(1)).strip()
def method(c, m):
    while c in cls:
        if m in cls[c]: return cls[c][m]
        b = [x for x in re.findall(r'public (\w+)', cls[c]['__base__']) if x in cls and not x.startswith('Crypto') and x != 'DatabaseSerializable']
        if not b: return None
        c = b[0]

# ---- definitions
defs = []
for f in ['ballot', 'ballot_code', 'ballot_compact', 'chaum_pedersen', 'election', 'elgamal', 'encrypt', 'group', 'hash', 'manifest']:
    s = open(R + f + '.cpp').read()
    for m in re.finditer(r'^(?:EG_API )?((?:const )?\w+(?: \*)?)\s*\n?\s*\*?(eg_\w+)\(([^)]*)\)\s*\n\{\n(.*?)^\}', s, re.M | re.S):
        ret, name, args, body = m.groups()
        args = [re.sub(r'\s+', ' ', a).strip() for a in args.split(',') if a.strip()]
        defs.append(dict(file=f + '.cpp', line=s[:m.start()].count('\n') + 1, name=name, args=args, body=body))
s = open(R + 'collections.c').read()
for m in re.finditer(r'^(\w+) (eg_\w+)\(([^)]*)\) \{(.*?)\}$|^(\w+) (eg_\w+)\(([^)]*)\)\n\{\n(.*?)^\}', s, re.M | re.S):
    g = [x for x in m.groups() if x is not None]
    args = [re.sub(r'\s+', ' ', a).strip() for a in g[2].split(',') if a.strip()]
    defs.append(dict(file='collections.c', line=s[:m.start()].count('\n') + 1, name=g[1], args=args, body=g[3]))

# ---- handle types: the class each *_free deletes
handle = {'eg_linked_list_t': 'LinkedList'}
for d in defs:
    m = re.search(r'delete AS_TYPE\(\s*(\w+),\s*handle', d['body'])
    if m: handle[re.match(r'(\w+)', d['args'][0]).group(1)] = m.group(1)

def ctype(a):
    """A C parameter as the type the linker sees: const at the top level is dropped."""
    a = re.sub(r'^const (?=\w+ \w+$)', '', a)
    stars = a.count('*') + len(re.findall(r'\[\d*\]', a))
    c = 'const ' if a.startswith('const ') else ''
    return c + re.match(r'(?:const )?(?:enum |struct |unsigned )?(\w+)', a).group(1) + '*' * stars

# ---- header declarations with their comments
decl = {}
for h in sorted(glob.glob(H + '*.h')):
    s = open(h).read()
    for m in re.finditer(r'((?:/\*(?:(?!\*/).)*\*/|//[^\n]*\n)?)\s*EG_API\s+([\w \*]+?)\s*(eg_\w+)\(([^;]*?)\);', s, re.S):
        decl[m.group(3)] = dict(file=os.path.basename(h), line=s[:m.start(2)].count('\n') + 1, doc=m.group(1), name=m.group(3),
                                args=[x for x in (re.sub(r'\s+', ' ', a).strip() for a in m.group(4).split(',')) if x and x != 'void'])

def ins(d, types=None):
    r = []
    for a in d['args']:
        m = re.match(r'(?:const )?(\w+) \*(\w+)(\[\])?$', a)
        if m and m.group(1) in handle: r.append((m.group(2), handle[m.group(1)], bool(m.group(3))))
        elif m and d['name'] == 'eg_free_int_ptr': r.append((m.group(2), 'Text', False))
        elif m and re.search(r'msgpack_free$|eg_delete_int_ptr', d['name']): r.append((m.group(2), 'ByteBuffer', False))
    return r
def outs(d):
    r = []
    for a in d['args']:
        m = re.match(r'(?:const )?(\w+) \*\*(\w+)$', a)
        if m and m.group(2).startswith('out'):
            t = m.group(1)
            r.append((m.group(2), handle.get(t) or {'char': 'Text', 'uint8_t': 'ByteBuffer', 'uint64_t': 'Words'}[t]))
    return r

def impl(d):
    body = d['body']; name = d['name']
    assign = dict(re.findall(r'(?:auto|const auto)\s*\*?\s*(\w+)\s*=\s*([^;]*);', body))
    cast = {e: t for t, e in re.findall(r'AS_TYPE\(\s*(\w+),\s*(\w+)', body) if not t.startswith('eg_')}
    ps = []
    for n, c, arr in ins(d):
        target = cast.get(n, c)
        if re.search(r'delete (?:\[\] )?AS_TYPE\(\s*\w+,\s*' + n, body) or re.search(r'(?:delete\[\]|[^_]free\()\s*' + n, body): eff = 'Delete'
        else:
            # variables holding this argument
            vs = [v for v, e in assign.items() if re.search(r'AS_TYPE\(\s*\w+,\s*' + n + r'\b', e)]
            loops = re.findall(r'AS_TYPE\(\s*\w+,\s*' + n + r'\[i\]\);(.*?)\}', body, re.S)
            text = ' '.join(loops) if arr else body
            code = re.sub(r'//[^\n]*', '', text)
            if any(re.search(r'move\(\s*\*' + v + r'\)', code) for v in (['element'] if arr else vs)): eff = 'Move'
            elif any(re.search(r'unique_ptr<\w+>\s*(?:\w+)?[\(\{]\s*' + v + r'\s*[\)\}]', code) for v in vs): eff = 'Take'
            elif name == 'eg_encryption_mediator_new': eff = 'Keep'
            elif name == 'eg_linked_list_delete_last': eff = 'Trim'
            else: eff = 'Use'
        nul = bool(re.search(n + r'\s*==\s*(?:nullptr|NULL)', body))
        ps.append((c, target, eff, arr, nul))
    rs = []
    for o, c in outs(d):
        if d['file'] == 'collections.c':
            rs.append(('Fresh' if name == 'eg_linked_list_new' else 'Inner', c, c)); continue
        if c in ('Text', 'ByteBuffer'):
            k = re.search(r'\*' + o + r'\s*=\s*dynamicCopy\(', body); assert k, name
            # dynamicCopy of a string is malloc'd, of bytes new[]'d
            actual = 'ByteBuffer' if re.search(r'data_bytes|->to(?:Bson|MsgPack)', body) else 'Text'
            rs.append(('Fresh', c, actual)); continue
        if c == 'Words': rs.append(('Inner', c, c)); continue
        if c == 'LinkedList': rs.append(('Fresh', c, c)); continue
        e = re.sub(r'\s+', ' ', re.search(r'\*' + o + r'\s*=\s*AS_TYPE\(\s*\w+,\s*(.*?)\);\n', body, re.S).group(1))
        if e.endswith('.release()'):
            x = re.sub(r'\s+', ' ', assign.get(e[:-10], '?'))
            k = re.match(r'make_unique<(\w+)>', x) or re.match(r'(\w+)::(?:from\w*|make)\(', x)
            if k: t = k.group(1)
            else:
                k = re.search(r'AS_TYPE\((\w+), handle\)\s*->(\w+)\(', x)
                t = method(k.group(1), k.group(2)) if k else {
                    'BallotCode': 'ElementModQ', 'elgamalEncrypt': 'ElGamalCiphertext', 'encryptSelection': 'CiphertextBallotSelection',
                    'encryptContest': 'CiphertextBallotContest', 'encryptBallot': 'CiphertextBallot',
                    'encryptCompactBallot': 'CompactCiphertextBallot', 'pow_mod_p': 'ElementModP', 'rand_q': 'ElementModQ',
                    'hash_elems': 'ElementModQ'}[re.match(r'\w+', x).group(0)]
                if not t: t = {'crypto_hash_with': 'ElementModQ', 'compactEncrypt': 'CompactCiphertextBallot'}[k.group(2)]
                k = re.search(r'unique_ptr<(\w+)>', t); t = k.group(1) if k else t
            rs.append(('Fresh', c, t))
        else:
            v = re.sub(r'const_cast<\w+ \*>\((.*)\)$', r'\1', e)
            x = re.sub(r'\s+', ' ', assign.get(v, v))
            if 'collection.at' in x: x = assign['collection']
            if v == '&element.get()': x = assign['element']
            k = re.search(r'AS_TYPE\((\w+),\s*\w+\)\s*->\s*(\w+)\(', x)
            if k: t = method(k.group(1), k.group(2))
            else:
                k = re.search(r'keyPair->(\w+)\(', x)
                t = method('ElGamalKeyPair', k.group(1)) if k else None
            if t is None: rs.append(('Static', c, c)); continue
            k = re.search(r'reference_wrapper<(\w+)>', t) or re.search(r'(\w+) \*$', t)
            rs.append(('Inner', c, k.group(1)))
    return ps, rs

def says(d):
    """The uses and results the header states: *_free frees, the documentation or a name in _ref says reference."""
    ps = [(c, 'Free' if re.search(r'_free$|_int_ptr$', d['name']) else 'Borrow', arr) for n, c, arr in ins(d)]
    rs = []
    for o, c in outs(d):
        doc = d['doc']
        # every comment in these headers that says "not owned by the caller" documents the only out parameter
        ref = 'not owned' in doc or (o.endswith('_ref') and 'ifecycle' not in doc) or c == 'Words'
        rs.append((c, 'Reference' if ref else 'Owned'))
    return ps, rs

names = []
def q(x):
    """Functions are numbered; a number is written as the name of the function."""
    if x not in names: names.append(x)
    return x
bases = []
def ct(x):
    c = x.startswith('const '); x = x[6:] if c else x
    t = x.rstrip('*'); n = len(x) - len(t)
    if t not in bases: bases.append(t)
    r = 'c_' + t
    if c: r = 'Const ' + r
    for _ in range(n): r = 'Ptr ' + ('(%s)' % r if ' ' in r else r)
    return r
def l(xs): return '[' + '; '.join(xs) + ']'
b = lambda x: 'true' if x else 'false'
classes = []
def use(c):
    if c not in classes: classes.append(c)
rows_i, rows_h = [], []
for d in defs:
    ps, rs = impl(d)
    for c, t, *_ in ps: use(c); use(t)
    for k, c, t in rs: use(c); use(t)
    rows_i.append('(** facades/%s:%d. *)\n  fn %s\n    %s\n    %s\n    %s' % (d['file'], d['line'], q(d['name']),
        l(ct(ctype(a)) for a in d['args']),
        l('%s %s %s %s %s' % ('arr' if arr else 'arg', c, t, eff, b(nul)) for c, t, eff, arr, nul in ps),
        l('%s %s %s' % (k, c, t) for k, c, t in rs)))
for n, d in sorted(decl.items(), key=lambda x: (x[1]['file'], x[1]['line'])):
    ps, rs = says(d)
    for c, *_ in ps: use(c)
    for c, _ in rs: use(c)
    rows_h.append('(** %s:%d. *)\n  decl %s\n    %s\n    %s\n    %s' % (d['file'], d['line'], q(n),
        l(ct(ctype(a)) for a in d['args']),
        l('%s %s %s' % ('given_all' if arr else 'given', c, u) for c, u, arr in ps),
        l('(%s, %s)' % x for x in rs)))
if __name__ == '__main__':
    open(OUT + 'CApiClass.v', 'w').write('''(** The classes behind the opaque handle types of the C interface, one per
    [*_free] function of src/electionguard/facades/*.cpp, the linked list of
    collections.c, and the three plain C results: [Text] is a char array from
    malloc (convert.hpp:268-285), [ByteBuffer] a uint8_t array from new[]
    (convert.hpp:288-294), [Words] the limbs inside an element (group.cpp:83, 159).
    Written by tools/capi.py. *)
Inductive class :=
%s.
Scheme Equality for class.
''' % '\n'.join('| ' + c for c in classes))
    open(OUT + 'CApiTable.v', 'w').write('''(** What each function of the C interface does with handles: one row per definition
    in src/electionguard/facades/*.cpp and collections.c, in the order of the
    files.  Written by tools/capi.py from the text of the sources.  A row holds
    the name, the C types of the parameters as defined, the handle parameters
    (type in the definition, class the body casts to, effect, whether null is
    checked) and the handles returned (type, class of the object). *)
From Coq Require Import List.
From Verif Require Import CApiClass CApiNames CApiModel.
Import ListNotations.

Definition implementation : list func := [
  %s
].
''' % ';\n  '.join(rows_i))
    open(OUT + 'CHeaderTable.v', 'w').write('''(** What include/electionguard/*.h says about each function: one row per declaration.
    Written by tools/capi.py from the text of the headers.  A handle parameter is
    lent to the function unless the function is named [*_free] (or is one of the
    two [*_int_ptr] functions).  A result is a reference when its comment says it
    is "not owned by the caller" or it is named [*_ref] and no comment makes the
    caller responsible; otherwise it is the caller's. *)
From Coq Require Import List.
From Verif Require Import CApiClass CApiNames CApiSpec.
Import ListNotations.

Definition headers : list contract := [
  %s
].
''' % ';\n  '.join(rows_h))
    open(OUT + 'CApiNames.v', 'w').write('''(** Numbers for the functions and the C types of the interface, so that names can be
    compared quickly.  Written by tools/capi.py. *)
From Coq Require Import PArith.
Definition name := positive.
(** The C types: a named type, a pointer to a type, or a const one. *)
Inductive ctype := Base (n : positive) | Ptr (t : ctype) | Const (t : ctype).
Fixpoint ctype_eqb (a b : ctype) : bool :=
  match a, b with
  | Base n, Base m => Pos.eqb n m
  | Ptr x, Ptr y | Const x, Const y => ctype_eqb x y
  | _, _ => false
  end.
%s
%s
''' % ('\n'.join('Definition c_%s : ctype := Base %d.' % (t, i + 1) for i, t in enumerate(bases)),
       '\n'.join('Definition %s : name := %d%%positive.' % (t, i + 1) for i, t in enumerate(names + ['read_text', 'read_bytes', 'read_words']))))
    print(len(rows_i), len(rows_h), len(classes))
