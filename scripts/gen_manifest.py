"""Writes MANIFEST.json from the theorem names in rocq/theories/Properties*.v.

A claim is "partial" when one of its theorems refutes part of the property
(suffix _refuted) or covers part of it (suffix _partial), "proved" otherwise.
"""
import glob, json, re

NOTES = {
    'C05': 'is_encodable agrees with encode except where the argument makes encode raise something else than EncodingError; the exact cases and witnesses are given.',
    'C08': 'Non-negative numbers with excess digits are rejected (exponents down to -1000997); negative ones are accepted and truncated, and may even be encoded as bytes that decode rejects (witnesses). The exact accepted set is proved.',
    'C11': 'Exact set of decode errors; OverflowError occurs for lengths beyond sys.maxsize (witness).',
    'C12': 'Holds in strict mode for top-level trailing data as stated; the lenient flag does not cover all padding (witness).',
    'C14': 'The strict flag reaches only top-level members; nested padding stays checked (witness).',
    'C16': 'Pointer lower bound is exact only when every static member occupies one word; otherwise a pointer may aim into the head (witness).',
    'C19': 'Proportional for types without T[] inside T[]; otherwise shared tails grow quadratically and beyond any constant factor (witness family). C60 has the general bound.',
    'C23': 'Holds for every string but the bare word "byte" (witness).',
    'C24': 'The accepted set is characterised exactly; it differs from the ABI on sized "bool" and on the bare word "byte" (witnesses).',
    'C28': 'Lookups, encodes and decodes in any number of threads are exact while nobody changes the registrations they use. With one updating thread the tables and the outcomes of the updates are as if it ran alone, and an update that runs undisturbed removes every stale coder. Otherwise false: two schedules leave a stale coder in the cache, a lookup during an update can answer False for a type that is registered throughout, two threads can both add the same matcher, register and unregister can leave a decoder without encoder (witnesses).',
    'C29': 'Holds for every history in which labelled matchers are unregistered by label or by the same object; otherwise an orphan label removes another entry (witness). A label given with a string is dropped (witness). Lookups: for type strings that make no matcher raise; C67 has the others.',
    'C30': 'Holds when the matcher object passed is the one registered; an equal one leaves the label occupied (witness).',
    'C31': 'Every failing register_*, and every failing paired call in programs that use paired calls only, changes nothing; register, unregister and unregister by an orphan label do not (witnesses).',
    'C33': 'Holds when no decoder instance with its own strict flag is registered; a registered StringDecoder instance violates it, also through a copy (witnesses).',
    'C40': 'Proved for argument lists and tuples nested in any way; arrays always raise AttributeError, and chunks shorter than a word break the pointer check of a following dynamic value (witnesses).',
    'C51': 'Proved as stated. The refutation is of "is_encodable returns a bool", which C05 has without the limit.',
    'C63': 'Proved as stated. The refutations are of "ByteStringEncoder accepts only bytes" and "TupleEncoder accepts only strings without array dimensions".',
    'C64': 'Proved as stated. The refutation is of "a push_frame that raises changes nothing": its frame stays on the stack.',
    'C66': 'Proved as stated, for parsimonious 0.10. The refutation is of "it always points at the first wrong character".',
    'C69': 'Proved as stated. The refutations show that neither restriction can be dropped.',
    'C67': 'Proved as stated. The refutations are of "a registration whose matcher does not match a type leaves it usable" and "the order of registrations does not matter".',
    'C38': 'Exact outcome of encode on every argument; witnesses for the non-EncodingError cases.',
}

# a refutation here witnesses an exception the property itself names
PROVED = {'C51', 'C62', 'C63', 'C64', 'C66', 'C67', 'C69', 'C72', 'C74', 'C75', 'C76', 'C79', 'C80', 'C83', 'C84', 'C88', 'C89'}

def main():
    names = {}
    for f in sorted(glob.glob('/verif/rocq/theories/Properties*.v')):
        for n in re.findall(r'^Theorem (C\d\d_\w+)', open(f).read(), re.M):
            names.setdefault(n[:3], []).append(n)
    claims = []
    for line in open('/verif/properties.jsonl'):
        c = json.loads(line)['id']
        ths = names.get(c)
        if not ths:
            continue
        part = c not in PROVED and any(t.endswith(('_refuted', '_partial')) for t in ths)
        claims.append({'property': c, 'status': 'partial' if part else 'proved', 'theorems': ths, 'note': NOTES.get(c, '')})
    with open('/verif/MANIFEST.json', 'w') as f:
        json.dump({'claims': claims}, f, indent=1)
        f.write('\n')
    print(len(claims), 'claims;', 'partial:', [c['property'] for c in claims if c['status'] == 'partial'])
main()
