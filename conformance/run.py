#!/usr/bin/env python3
"""Compare the model with the elections recorded in /repo/test_elections.

For every recorded transaction the model reads the JSON text and computes the bytes that are signed; the recorded
Ed25519 signature is then verified over these bytes (in Python, RFC 8032).  The RSA signature of the authenticator of
every vote is verified over the package that the model signs (SHA-256 full domain hash: package, modulus, a counter
byte, here always zero because the keys have 256 bits).  Afterwards the model validates the recorded
transactions one by one, as test_all_elections in cryptoballot/src/tests.rs does, with a library that accepts every
proof and decrypts to the recorded selection.  The contests of the recorded elections have no id, so the elections are
refused as they are (C100); for the second part an id is put in.

This is a test, not a proof, and not part of the build.  It needs the compiled theories in ../rocq."""
import hashlib, json, os, re, subprocess, sys, tempfile

HERE = os.path.dirname(os.path.abspath(__file__))
THEORIES = sys.argv[1] if len(sys.argv) > 1 else os.path.join(HERE, '..', 'rocq', 'theories')
REPO = '/repo/test_elections/test_election_%d/test_election_%d.json'

# Ed25519
p = 2**255 - 19
L = 2**252 + 27742317777372353535851937790883648493
d = -121665 * pow(121666, p - 2, p) % p
I = pow(2, (p - 1) // 4, p)
def xrec(y):
    xx = (y * y - 1) * pow(d * y * y + 1, p - 2, p)
    x = pow(xx, (p + 3) // 8, p)
    if (x * x - xx) % p: x = x * I % p
    if (x * x - xx) % p: return None
    return x if x % 2 == 0 else p - x
By = 4 * pow(5, p - 2, p) % p
B = (xrec(By), By)
def add(P, Q):
    (x1, y1), (x2, y2) = P, Q
    k = d * x1 * x2 * y1 * y2
    return ((x1 * y2 + x2 * y1) * pow(1 + k, p - 2, p) % p, (y1 * y2 + x1 * x2) * pow(1 - k, p - 2, p) % p)
def mul(P, e):
    Q = (0, 1)
    while e:
        if e & 1: Q = add(Q, P)
        P = add(P, P)
        e >>= 1
    return Q
def point(b):
    n = int.from_bytes(b, 'little')
    y = n & (2**255 - 1)
    x = xrec(y)
    return None if x is None else (p - x if x % 2 != n >> 255 else x, y)
def verify(pk, m, s):
    A, R, S = point(pk), point(s[:32]), int.from_bytes(s[32:], 'little')
    if A is None or R is None: return False
    h = int.from_bytes(hashlib.sha512(s[:32] + pk + m).digest(), 'little')
    return mul(B, S % L) == add(R, mul(A, h % L))

# RFC 8032, 7.1, TEST 2
assert verify(bytes.fromhex('3d4017c3e843895a92b70aa74d1b7ebc9c982ccf2ec4968cc0cd55f12af4660c'), b'\x72', bytes.fromhex(
    '92a009a9f0d4cab8720e820b5f642540a2b27b5416503f8fb3762223ebdb69da085ac1e43e15996e458f3613d0f11d8c387b2eaeb4302aeeb00d291612bb0c00'))

def rsa(key, package, sig):     # key: CBOR map, n and e as lists of 32 bit limbs, least significant first
    part = key.hex().split('6165')
    limbs = lambda h: sum(int(x, 16) << 32 * i for i, x in enumerate(re.findall('1a([0-9a-f]{8})', h)))
    n, e = limbs(part[0]), limbs(part[1])
    size = (n.bit_length() + 7) // 8
    h = hashlib.sha256(package + n.to_bytes(size, 'big') + b'\0').digest()
    return pow(int.from_bytes(sig, 'big'), e, n) == int.from_bytes(h, 'big')

HEAD = '''From Verif Require Import Base Hex Utf8 Cbor Value Ident Crypto Types Serde Store Validate Json Toy.
From Coq Require Import Strings.String.
Import StringSyntax.
Open Scope list_scope.
Definition Trust (pt : bytes) : Crypto := {|
  ed_pk_ok := anyb; ed_sig_ok := anyb; ed_secret := arr 32; ed_public := fun sk => any sk; ed_sign := fun sk m => any (toy_sign sk m);
  ed_verify := fun _ _ _ => true; rsa_pk_ok := anyb; rsa_hash := fun _ m => Some m; rsa_verify := fun _ _ _ => true;
  ct_ok := anyb; eg_pk_ok := anyb; commit_ok := anyb; pkproof_ok := anyb; dshare_ok := anyb; shproof_ok := anyb;
  share_verify := fun _ _ _ => true; threshold_decrypt := fun _ _ _ => Some pt; shuffle_verify := fun _ _ _ _ _ _ => true |}.
'''
def texts(name, txs):
    return 'Definition %s : list bytes := List.map list_byte_of_string [\n' % name \
        + ';\n'.join('"%s"%%string' % json.dumps(t).replace('"', '""') for t in txs) + '].\n'
def coq(body):
    with tempfile.TemporaryDirectory() as t:
        f = os.path.join(t, 'Run.v')
        open(f, 'w').write(HEAD + body)
        r = subprocess.run(['coqc', '-q', '-Q', THEORIES, 'Verif', f], capture_output=True, text=True)
        if r.returncode: sys.exit(r.stderr)
        return r.stdout

ok = True
for i in (1, 2):
    txs = json.load(open(REPO % (i, i)))
    out = coq(texts('ts', txs) + '''
Section R.
Let C := Trust []. Existing Instance C.
Definition out (t : bytes) : string := match stx_from_json t with Ok x => string_of_list_byte (hex_encode (tx_bytes (s_tx x))) | _ => EmptyString end.
Open Scope string_scope.
Eval vm_compute in List.map out ts.
End R.
''')
    packs = coq(texts('ts', txs) + '''
Section R.
Let C := Trust []. Existing Instance C.
Definition out (t : bytes) : string := match stx_from_json t with
  | Ok x => match s_tx x with XVote v => string_of_list_byte (hex_encode (auth_pack (vt_election v) (vt_ballot v) (vt_key v))) | _ => EmptyString end
  | _ => EmptyString end.
Open Scope string_scope.
Eval vm_compute in List.map out ts.
End R.
''')
    packs = [re.sub(r'\s', '', x) for x in re.findall(r'"([0-9a-f\s]*)"', packs)]
    assert len(packs) == len(txs)
    for t, b in zip(txs, packs):
        for a in t['tx'].get('authentication', []):
            keys = [x for x in txs[0]['tx']['authenticators'] if x['id'] == a['authenticator']][0]['public_keys']
            good = rsa(bytes.fromhex(keys[t['tx']['ballot_id']]), bytes.fromhex(b), bytes.fromhex(a['signature']))
            ok &= good
            print(i, 'authentication', 'verifies' if good else 'fails')
    signed = [re.sub(r'\s', '', x) for x in re.findall(r'"([0-9a-f\s]*)"', out)]
    assert len(signed) == len(txs)
    for t, b in zip(txs, signed):
        tx = t['tx']
        key = tx.get('trustee_public_key') or tx.get('anonymous_key') or tx.get('authority_public_key') or tx.get('authority_public')
        if t['type'] == 'election': want, got = 'refused', 'read' if b else 'refused'
        elif t['type'] == 'decryption': want, got = 'read', 'read' if b else 'refused'     # the signature of a decryption has no key
        else: want, got = 'verifies', ('verifies' if verify(bytes.fromhex(key), bytes.fromhex(b), bytes.fromhex(t['sig'])) else 'fails') if b else 'refused'
        ok &= want == got
        print(i, t['type'], got)
    for c in txs[0]['tx']['contests']:
        c['id'] = 'contest'
    body = texts('ts', txs) + '''
Fixpoint run {C : Crypto} (m : MemStore) (l : list bytes) : list bool :=
  match l with
  | [] => []
  | t :: r => match stx_from_json t with
              | Ok x => match validate true (ms_store m) x with Ok _ => true | _ => false end :: run (ms_set m x) r
              | _ => false :: run m r
              end
  end.
'''
    votes = [t['tx']['decrypted_vote'][0]['selection'].encode() for t in txs if t['type'] == 'decryption']
    for v in votes:     # a selection as a prost message: field 3, a string
        body += 'Eval vm_compute in @run (Trust (x1a :: u8_of %d :: list_byte_of_string "%s"%%string)) ms_empty ts.\n' % (len(v), v.decode())
    runs = [re.findall(r'true|false', x) for x in coq(body).split(' = ')[1:]]
    for n, t in enumerate(txs):
        k = [u for u in txs if u['type'] == 'decryption'].index(t) if t['type'] == 'decryption' else 0
        accepted = runs[k][n] == 'true'
        ok &= accepted
        print(i, t['type'], 'accepted' if accepted else 'NOT accepted')
print('conforms' if ok else 'DIFFERS')
sys.exit(0 if ok else 1)
