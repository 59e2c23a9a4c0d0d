(** C66: the grammar of grammar.py run by parsimonious, and where its errors point. *)
From Coq Require Import Strings.String Lia.
From Verif Require Import Py Grammar GrammarSpec GrammarProofs Peg PegSpec PointerProofs.
Open Scope nat_scope.
Open Scope string_scope.
Open Scope list_scope.

(** ** C66 *)

(** Matching and visiting give a type exactly for the strings of the grammar. *)
Theorem C66_grammar (s : pystr) (t : abi_type) : peg_parse s = Parsed (VType t) <-> g_type s t.
Proof. rewrite peg_ok. apply parse_spec. Qed.
Print Assumptions C66_grammar.
Example C66_grammar_case : peg_parse (lit "(uint256,int8[3][],(a,b128x18)[4])[]") =
  Parsed (VType (Tup [ Basic (lit "uint") (SubInt 256) []; Basic (lit "int") (SubInt 8) [Some 3%Z; None];
    Tup [Basic (lit "a") SubNone []; Basic (lit "b") (SubPair 128 18) []] [Some 4%Z] ] [None])).
Proof. lazy. reflexivity. Qed.

(** The parser of Grammar.v, which the other theorems are about, is this one. *)
Theorem C66_same_type (s : pystr) (t : abi_type) : peg_parse s = Parsed (VType t) <-> parse s = Ok t.
Proof. exact (peg_ok s t). Qed.
Print Assumptions C66_same_type.
Theorem C66_same_value_error (s : pystr) : peg_parse s = ZeroSized <-> parse s = Err ValueError.
Proof. exact (peg_zero s). Qed.
Print Assumptions C66_same_value_error.
Theorem C66_same_parse_error (s : pystr) : (exists pos, peg_parse s = Stopped pos) <-> parse s = Err ParseError.
Proof. exact (peg_stopped s). Qed.
Print Assumptions C66_same_parse_error.
(** There is no other outcome. *)
Theorem C66_total (s : pystr) :
  (exists t, peg_parse s = Parsed (VType t)) \/ peg_parse s = ZeroSized \/ exists pos, peg_parse s = Stopped pos.
Proof. exact (peg_total s). Qed.
Print Assumptions C66_total.
Example C66_same_case : peg_parse (lit "(a,(),b") = ZeroSized /\ peg_parse (lit "(a,,b") = Stopped 3.
Proof. split; lazy; reflexivity. Qed.

(** The text before the position is right: it can be completed to a type. *)
Theorem C66_before (s : pystr) (pos : nat) : peg_parse s = Stopped pos -> pos <= length s /\ begins (firstn pos s).
Proof. exact (stops_begins s pos). Qed.
Print Assumptions C66_before.
Example C66_before_case : peg_parse (lit "(int, bool)") = Stopped 5 /\ firstn 5 (lit "(int, bool)") = lit "(int,".
Proof. split; lazy; reflexivity. Qed.

(** If the string begins with a type, the position is the end of the longest one. *)
Theorem C66_after_type (s : pystr) (pos : nat) : peg_parse s = Stopped pos -> has_type_prefix s ->
  pos < length s /\ longest_type s (firstn pos s).
Proof. exact (stops_after_type s pos). Qed.
Print Assumptions C66_after_type.
Example C66_after_type_case : map (fun s => peg_parse (lit s)) ["uint8x"; "int0"; "fixed128x0"; "a[1][2"; "(a)b"; "int "] =
  [Stopped 5; Stopped 3; Stopped 8; Stopped 4; Stopped 3; Stopped 3].
Proof. lazy. reflexivity. Qed.

(** Otherwise the character there is wrong, or an array size that is not closed
    begins there, or the text ends too early and its last part begins before. *)
Theorem C66_where (s : pystr) (pos : nat) : peg_parse s = Stopped pos -> ~ has_type_prefix s ->
  exists a b, s = a ++ b /\ length a = pos /\ points_at a b.
Proof. exact (stops_where s pos). Qed.
Print Assumptions C66_where.
Example C66_where_case :
  map (fun s => peg_parse (lit s)) ["(uint8x;"; "(uint8[;"; "(a,;"; "((a);b)"; "(a[3][4;)"; "(a8x"; "("; ""; "1"] =
  [Stopped 7; Stopped 7; Stopped 3; Stopped 4; Stopped 5; Stopped 4; Stopped 1; Stopped 0; Stopped 0].
Proof. lazy. reflexivity. Qed.
(** The position is not always that of the first wrong character: an array size
    that is not closed is reported where it begins, and in a text that is too
    short the error is reported before its end. *)
Theorem C66_first_wrong_refuted :
  (exists pos, peg_parse (lit "(uint8[32;)") = Stopped pos /\ begins (firstn (S pos) (lit "(uint8[32;)")))
  /\ (exists pos, peg_parse (lit "(uint256") = Stopped pos /\ pos < length (lit "(uint256") /\ begins (lit "(uint256")).
Proof.
  split.
  - exists 6. split; [lazy; reflexivity|]. exists (lit "])"). exists (Tup [Basic (lit "uint") (SubInt 8) [None]] []).
    apply parse_spec. lazy. reflexivity.
  - exists 5. split; [lazy; reflexivity|]. split; [lazy; lia|]. exists (lit ")"). exists (Tup [Basic (lit "uint") (SubInt 256) []] []).
    apply parse_spec. lazy. reflexivity.
Qed.
Print Assumptions C66_first_wrong_refuted.

(** The message quotes up to five characters from the position and gives it
    counted from one. *)
Theorem C66_message (s : pystr) (pos : nat) : peg_parse s = Stopped pos ->
  parse_error_str s pos = lit "Parse error at '" ++ firstn 5 (skipn pos s) ++ lit "' (column " ++ str_of_Z (Z.of_nat (pos + 1))
    ++ lit ") in type string '" ++ s ++ lit "'".
Proof. exact (stops_message s pos). Qed.
Print Assumptions C66_message.
Example C66_message_case : parse_error_str (lit "(int,bool,)") 10 = lit "Parse error at ')' (column 11) in type string '(int,bool,)'".
Proof. lazy. reflexivity. Qed.
