#!/usr/bin/env python3
"""Turns the data tables of the project's own unit tests into Vectors.v.

The tables are read as text from /repo/tests/core/common/unit.py (only the
literal lists are evaluated, with the small helpers below standing in for the
test helpers); no project code is run."""
import ast
import re
import sys
from decimal import Decimal

SRC = "/repo/tests/core/common/unit.py"


def decode_hex(s):
    return bytes.fromhex(s[2:] if s.startswith("0x") else s)


def zpad32_right(b):
    return b.ljust(32, b"\0")


def make_word(d):
    m = re.match(r"^(([0f])<)?([0-9a-f]+)(>([0f]))?( \(([0-9]+) wide\))?$", d)
    _, lf, h, _, rf, _, w = m.groups()
    w = int(w) * 2 if w else 64
    return decode_hex(h.ljust(w, rf) if rf else h.rjust(w, lf or "0"))


def words(*ds):
    return b"".join(make_word(d) for d in ds)


env = dict(decode_hex=decode_hex, zpad32_right=zpad32_right, words=words, Decimal=Decimal)
for node in ast.parse(open(SRC).read()).body:
    if isinstance(node, ast.Assign) and isinstance(node.value, (ast.List, ast.BinOp)):
        env[node.targets[0].id] = eval(compile(ast.Expression(node.value), SRC, "eval"), env)


def coq_str(s):
    assert all(32 <= ord(c) < 127 and c != '"' for c in s), s
    return f'(lit "{s}")'


def val(v):
    if v is None:
        return "PNone"
    if isinstance(v, bool):
        return f"(PBool {str(v).lower()})"
    if isinstance(v, int):
        return f"(PInt ({v}))"
    if isinstance(v, float):
        return "(PFloat 0)"
    if isinstance(v, Decimal):
        t = v.as_tuple()
        c = int("".join(map(str, t.digits)))
        return f"(PDec (DFin {'true' if t.sign else 'false'} {c} ({t.exponent})))"
    if isinstance(v, bytes):
        return f'(PBytes (hx "{v.hex()}"))'
    if isinstance(v, str):
        return f"(PStr {coq_str(v)})"
    if isinstance(v, list):
        return "(PList [" + "; ".join(map(val, v)) + "])"
    if isinstance(v, tuple):
        return "(PTuple [" + "; ".join(map(val, v)) + "])"
    raise TypeError(v)


def split_top(ts):
    """components of a tuple type string without arrlist, else None"""
    if not (ts.startswith("(") and ts.endswith(")")):
        return None
    out, depth, cur = [], 0, ""
    for c in ts[1:-1]:
        if c == "," and depth == 0:
            out.append(cur)
            cur = ""
        else:
            depth += (c == "(") - (c == ")")
            cur += c
    return out + [cur]


def types(l):
    return "(PList [" + "; ".join(f"PStr {coq_str(t)}" for t in l) + "])"


def listify(v):
    return tuple(map(listify, v)) if isinstance(v, (list, tuple)) else v


rows = []


def both(tl, args, enc):
    rows.append(f'vec_enc {types(tl)} {val(args)} "{enc.hex()}"')
    fixed = any("fixed" in t for t in tl)
    for strict in ("true",) if fixed else ("true", "false"):
        rows.append(f'vec_dec {types(tl)} "{enc.hex()}" {strict} {val(listify(args))}')


for ts, v, enc, packed in env["CORRECT_TUPLE_ENCODINGS"]:
    comps = split_top(ts)
    if comps:
        both(comps, v, enc)
for ts, v, enc, packed in env["CORRECT_STATIC_ENCODINGS"]:
    both([ts], (v,), enc)
for ts, v, enc, packed in env["CORRECT_DYNAMIC_ENCODINGS"]:
    both([ts], (v,), words("20") + enc)
for ts, v, enc, packed in env["CORRECT_ENCODINGS"]:
    rows.append(f'vec_packed {types([ts])} {val((v,))} "{packed.hex()}"')
    rows.append(f"vec_encodable {coq_str(ts)} {val(v)} true")
for ts, v in env["NOT_ENCODABLE"]:
    rows.append(f"vec_encodable {coq_str(ts)} {val(v)} false")

out = ["""(** Test vectors: the tables of /repo/tests/core/common/unit.py (used there by
    tests/core/abi_tests and tests/core/packed), generated by
    scripts/gen_vectors.py and run through the model.  These are tests of the
    model's fidelity, not proofs of any property: each block is evaluated once
    when this file is compiled ([Eval vm_compute in]) and must give [true]. *)
From Coq Require Import Strings.String.
From Verif Require Import Py Bytes Address Decimals Codec.
Open Scope Z_scope.

Definition hx (s : string) : bytes := bytes_of_hex (lit s).
Arguments hx s%string.

(** Python's [==] on the values that occur below (Decimals compare
    numerically). *)
Fixpoint pv_eqb (a b : pyval) : bool :=
  match a, b with
  | PBool x, PBool y => Bool.eqb x y
  | PInt x, PInt y => x =? y
  | PDec x, PDec y => match dec_cmp x y with Eq => true | _ => false end
  | PBytes x, PBytes y => bytes_eqb x y
  | PStr x, PStr y => str_eqb x y
  | PTuple x, PTuple y =>
      (fix go (x y : list pyval) : bool :=
         match x, y with
         | [], [] => true
         | u :: x', v :: y' => pv_eqb u v && go x' y'
         | _, _ => false
         end) x y
  | _, _ => false
  end.

Definition vec_enc (ts args : pyval) (expected : string) : bool :=
  match encode ts args with Ok b => bytes_eqb b (hx expected) | Err _ => false end.
Arguments vec_enc ts args expected%string.
Definition vec_dec (ts : pyval) (data : string) (strict : bool) (expected : pyval) : bool :=
  match decode ts (PBytes (hx data)) strict with Ok v => pv_eqb v expected | Err _ => false end.
Arguments vec_dec ts data%string strict expected.
Definition vec_packed (ts args : pyval) (expected : string) : bool :=
  match encode_packed ts args with Ok b => bytes_eqb b (hx expected) | Err _ => false end.
Arguments vec_packed ts args expected%string.
Definition vec_encodable (ts : pystr) (v : pyval) (expected : bool) : bool :=
  match is_encodable (PStr ts) v, is_encodable_packed (PStr ts) v with
  | Ok b, Ok b' => Bool.eqb b expected && Bool.eqb b' expected
  | _, _ => false
  end.
"""]
n = 40
names = []
for i in range(0, len(rows), n):
    nm = f"vectors_{i // n}"
    names.append(nm)
    out.append(f"Definition {nm} : bool := Eval vm_compute in forallb (fun b => b)\n  [ " + ";\n    ".join(rows[i:i + n]) + " ].\n")
    out.append(f"Example {nm}_ok : {nm} = true.\nProof. exact eq_refl. Qed.\n")
open("/verif/rocq/theories/Vectors.v", "w").write("\n".join(out))
print(len(rows), "vectors")
