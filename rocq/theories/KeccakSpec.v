(** Keccak-256 as FIPS 202 describes Keccak[512], bit by bit: the state is an
    array of 5 x 5 x 64 bits, and a byte string is the sequence of the bits of
    its bytes, lowest bits first.  (Keccak-256 differs from SHA3-256 only in that
    no suffix 01 is added to the message.) *)
From Coq Require Import Strings.Byte List Arith NArith ZArith Bool.
Import ListNotations.
Open Scope nat_scope.

Definition array := nat -> nat -> nat -> bool.
Definition byte_bits (b : byte) : list bool := map (fun i => N.testbit (Byte.to_N b) (N.of_nat i)) (seq 0 8).
Definition bits (bs : list byte) : list bool := flat_map byte_bits bs.

(** FIPS 202, 3.2.1 *)
Definition parity (A : array) (x z : nat) : bool := xorb (A x 0 z) (xorb (A x 1 z) (xorb (A x 2 z) (xorb (A x 3 z) (A x 4 z)))).
Definition theta (A : array) : array := fun x y z => xorb (A x y z) (xorb (parity A ((x + 4) mod 5) z) (parity A ((x + 1) mod 5) ((z + 63) mod 64))).
(** 3.2.2: the walk over the lanes and how far the t-th lane is turned *)
Fixpoint walk (t : nat) : nat * nat := match t with O => (1, 0) | S t => let '(x, y) := walk t in (y, (2 * x + 3 * y) mod 5) end.
Definition offset (x y : nat) : nat :=
  match find (fun t => (fst (walk t) =? x) && (snd (walk t) =? y)) (seq 0 24) with
  | Some t => ((t + 1) * (t + 2) / 2) mod 64
  | None => 0
  end.
Definition rho (A : array) : array := fun x y z => A x y ((z + (64 - offset x y)) mod 64).
(** 3.2.3 *)
Definition pi (A : array) : array := fun x y z => A ((x + 3 * y) mod 5) x z.
(** 3.2.4 *)
Definition chi (A : array) : array := fun x y z => xorb (A x y z) (negb (A ((x + 1) mod 5) y z) && A ((x + 2) mod 5) y z).
(** 3.2.5: the bits of the round constants, from a shift register *)
Definition register_step (R : list bool) : list bool :=
  match R with
  | [r0; r1; r2; r3; r4; r5; r6; r7] => [r7; r0; r1; r2; xorb r3 r7; xorb r4 r7; xorb r5 r7; r6]
  | _ => []
  end.
Definition rc (t : nat) : bool := hd false (Nat.iter (t mod 255) register_step [true; false; false; false; false; false; false; false]).
Definition round_bit (r z : nat) : bool := existsb (fun j => (z =? 2 ^ j - 1) && rc (j + 7 * r)) (seq 0 7).
Definition iota (r : nat) (A : array) : array := fun x y z => if (x =? 0) && (y =? 0) then xorb (A x y z) (round_bit r z) else A x y z.
(** 3.3 *)
Definition round (r : nat) (A : array) : array := iota r (chi (pi (rho (theta A)))).
Definition permutation (A : array) : array := fold_left (fun A r => round r A) (seq 0 24) A.

(** 4 and 5.1: the sponge with rate 1088 and the padding 1 0...0 1 *)
Definition padding (n : nat) : list bool := true :: repeat false (Z.to_nat ((- Z.of_nat n - 2) mod 1088)) ++ [true].
Definition absorbed (P : list bool) (A : array) (i : nat) : array :=
  permutation (fun x y z => if 64 * (5 * y + x) + z <? 1088 then xorb (A x y z) (nth (1088 * i + (64 * (5 * y + x) + z)) P false) else A x y z).
Definition sponge (M : list bool) : array :=
  let P := M ++ padding (length M) in fold_left (absorbed P) (seq 0 (length P / 1088)) (fun _ _ _ => false).
Definition keccak_bits (M : list bool) : list bool := map (fun k => sponge M (k / 64 mod 5) (k / 64 / 5) (k mod 64)) (seq 0 256).
