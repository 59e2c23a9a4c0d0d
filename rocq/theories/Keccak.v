(** Keccak-256 (external: eth_hash, reached through eth_utils.keccak, used by
    eth_utils.to_checksum_address).  Only needed to make the EIP-55 checksum
    test of addresses concrete; KeccakProofs.v relates it to the standard. *)
From Verif Require Import Py Bytes.
From Coq Require Import Strings.Byte.
Open Scope N_scope.

Definition lane_mask : N := 2 ^ 64 - 1.
Definition rotl (x : N) (n : N) : N :=
  N.land (N.lor (N.shiftl x n) (N.shiftr x (64 - n))) lane_mask.

Definition lane (st : list N) (i : nat) : N := nth i st 0.
Definition idx (x y : nat) : nat := (Nat.modulo x 5 + 5 * Nat.modulo y 5)%nat.

Definition range5 : list nat := [0; 1; 2; 3; 4]%nat.
Definition range25 : list nat := seq 0 25.

Definition rho_offsets : list N :=
  [0; 1; 62; 28; 27;  36; 44; 6; 55; 20;  3; 10; 43; 25; 39;
   41; 45; 15; 21; 8;  18; 2; 61; 56; 14].

Definition round_constants : list N :=
  [0x0000000000000001; 0x0000000000008082; 0x800000000000808A; 0x8000000080008000;
   0x000000000000808B; 0x0000000080000001; 0x8000000080008081; 0x8000000000008009;
   0x000000000000008A; 0x0000000000000088; 0x0000000080008009; 0x000000008000000A;
   0x000000008000808B; 0x800000000000008B; 0x8000000000008089; 0x8000000000008003;
   0x8000000000008002; 0x8000000000000080; 0x000000000000800A; 0x800000008000000A;
   0x8000000080008081; 0x8000000000008080; 0x0000000080000001; 0x8000000080008008].

Definition keccak_round (st : list N) (rc : N) : list N :=
  let c := map (fun x => fold_left N.lxor (map (fun y => lane st (idx x y)) range5) 0) range5 in
  let d := map (fun x => N.lxor (lane c (Nat.modulo (x + 4) 5))
                                (rotl (lane c (Nat.modulo (x + 1) 5)) 1)) range5 in
  let a := map (fun i => N.lxor (lane st i) (lane d (Nat.modulo i 5))) range25 in
  (* rho and pi: B[y, 2x+3y] = rot(A[x, y]); position i = X + 5Y holds
     A[x, y] with y = X and x = X + 3Y mod 5 *)
  let b := map (fun i =>
                  let X := Nat.modulo i 5 in
                  let Y := Nat.div i 5 in
                  let src := idx (X + 3 * Y) X in
                  rotl (lane a src) (lane rho_offsets src)) range25 in
  let chi := map (fun i =>
                    let x := Nat.modulo i 5 in
                    let y := Nat.div i 5 in
                    N.lxor (lane b i)
                      (N.land (N.lxor (lane b (idx (x + 1) y)) lane_mask)
                              (lane b (idx (x + 2) y)))) range25 in
  match chi with
  | h :: t => N.lxor h rc :: t
  | [] => []
  end.

Definition keccak_f (st : list N) : list N := fold_left keccak_round round_constants st.

(** little-endian lanes *)
Definition lane_of_bytes (bs : bytes) : N :=
  fold_right (fun b acc => Byte.to_N b + 256 * acc) 0 bs.
Fixpoint bytes_of_lane (n : nat) (x : N) : bytes :=
  match n with
  | O => []
  | S n' => byte_of_Z (Z.of_N (x mod 256)) :: bytes_of_lane n' (x / 256)
  end.

Fixpoint chunks (fuel : nat) (k : nat) (bs : bytes) : list bytes :=
  match fuel, bs with
  | O, _ | _, [] => []
  | S f, _ => firstn k bs :: chunks f k (skipn k bs)
  end.

Definition rate : nat := 136.

(** multi-rate padding 0x01 .. 0x80 *)
Definition keccak_pad (bs : bytes) : bytes :=
  let q := (rate - Nat.modulo (length bs) rate)%nat in
  if Nat.eqb q 1 then bs ++ [x81]
  else bs ++ x01 :: repeat x00 (q - 2) ++ [x80].

Definition absorb (st : list N) (block : bytes) : list N :=
  let lanes := map lane_of_bytes (chunks 17 8 block) in
  keccak_f (map (fun i => N.lxor (lane st i) (lane lanes i)) range25).

Definition keccak256 (bs : bytes) : bytes :=
  let padded := keccak_pad bs in
  let st := fold_left absorb (chunks (length padded) rate padded) (repeat 0 25) in
  flat_map (bytes_of_lane 8) (firstn 4 st).
