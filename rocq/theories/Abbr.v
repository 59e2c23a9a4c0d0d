(** eth_abi/utils/string.py.  The text [repr(value)] is given; whether repr
    raises is the subject of C51. *)
From Coq Require Import Strings.String.
From Verif Require Import Py Bytes.
Open Scope Z_scope.

(** utils/string.py:6-19 abbr *)
Definition abbr (rep : pystr) (limit : Z) : result pystr :=
  if limit <? len rep then
    if limit <? 3 then Err ValueError else Ok (take_z (limit - 3) rep ++ lit "...")
  else Ok rep.
(** utils/string.py:6: the default limit *)
Definition abbr_default (rep : pystr) : result pystr := abbr rep 79.
