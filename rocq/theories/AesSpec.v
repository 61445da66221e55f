(** * AES-128, after FIPS publication 197
    Written from the standard, independently of the code.  A byte is an integer of [0, 256); a state is the list of its
    16 bytes in the order of the input (column by column); a word is a list of 4 bytes. *)
From Verif Require Import Base.

(** FIPS 197, 4.2.1: multiplication by x in GF(2^8) modulo x^8 + x^4 + x^3 + x + 1. *)
Definition xtime (b : Z) : Z := if b <? 128 then 2 * b else Z.lxor (2 * b) 283.

(** 4.2: multiplication in GF(2^8): the sum of [a * x^i] over the bits [i] of [b]. *)
Fixpoint gmul_bits (n : nat) (a b : Z) : Z :=
  match n with
  | O => 0
  | S n' => Z.lxor (if Z.odd b then a else 0) (gmul_bits n' (xtime a) (b / 2))
  end.
Definition gmul (a b : Z) : Z := gmul_bits 8 a b.

(** 5.1.1: the multiplicative inverse, 0 being mapped to itself. *)
Definition ginv (b : Z) : Z :=
  match find (fun x => gmul b x =? 1) (zseq 0 256) with Some x => x | None => 0 end.

Definition bit (b : Z) (i : Z) : bool := Z.testbit b (i mod 8).

(** 5.1.1: the affine transformation over GF(2), equation (5.1). *)
Definition affine (b : Z) : Z :=
  fold_right (fun i acc =>
    acc + Z.b2z (xorb (bit b i) (xorb (bit b (i + 4)) (xorb (bit b (i + 5)) (xorb (bit b (i + 6)) (xorb (bit b (i + 7)) (bit 99 i))))))
          * 2 ^ i) 0 (zseq 0 8).

Definition sbox (b : Z) : Z := affine (ginv b).

Definition sub_bytes (s : list Z) : list Z := map sbox s.

(** 5.1.2: row [r] is shifted left by [r] columns; the byte of row [r] and column [c] is at place [r + 4c]. *)
Definition shift_rows (s : list Z) : list Z :=
  map (fun i => nth ((i mod 4) + 4 * ((i / 4 + i mod 4) mod 4)) s 0) (seq 0 16).

(** 5.1.3 *)
Definition mix_column (c : list Z) : list Z :=
  match c with
  | [a0; a1; a2; a3] =>
      [ Z.lxor (Z.lxor (gmul 2 a0) (gmul 3 a1)) (Z.lxor a2 a3);
        Z.lxor (Z.lxor a0 (gmul 2 a1)) (Z.lxor (gmul 3 a2) a3);
        Z.lxor (Z.lxor a0 a1) (Z.lxor (gmul 2 a2) (gmul 3 a3));
        Z.lxor (Z.lxor (gmul 3 a0) a1) (Z.lxor a2 (gmul 2 a3)) ]
  | _ => []
  end.
Definition mix_columns (s : list Z) : list Z :=
  flat_map (fun i => mix_column (firstn 4 (skipn (4 * i) s))) (seq 0 4).

(** 5.1.4 *)
Definition xor_bytes (a b : list Z) : list Z := map2 Z.lxor a b.
Definition add_round_key (s key : list Z) : list Z := xor_bytes s key.

(** 5.2: key expansion for a key of four words. *)
Definition rot_word (x : list Z) : list Z := match x with a :: r => r ++ [a] | [] => [] end.
Definition sub_word (x : list Z) : list Z := map sbox x.
(** x^(i-1) *)
Fixpoint xpow (n : nat) : Z := match n with O => 1 | S n' => xtime (xpow n') end.
Definition rcon (i : nat) : list Z := [xpow (i - 1); 0; 0; 0].

Definition next_word (ws : list (list Z)) : list Z :=
  let i := length ws in
  let temp := nth (i - 1) ws [] in
  let temp := if Nat.eqb (Nat.modulo i 4) 0 then xor_bytes (sub_word (rot_word temp)) (rcon (Nat.div i 4)) else temp in
  xor_bytes (nth (i - 4) ws []) temp.
Fixpoint expand (n : nat) (ws : list (list Z)) : list (list Z) :=
  match n with O => ws | S n' => expand n' (ws ++ [next_word ws]) end.

(** The 44 words of the schedule. *)
Definition key_schedule (key : list Z) : list (list Z) :=
  expand 40 [firstn 4 key; firstn 4 (skipn 4 key); firstn 4 (skipn 8 key); firstn 4 (skipn 12 key)].

(** The round key of round [r]. *)
Definition round_key (key : list Z) (r : nat) : list Z := concat (firstn 4 (skipn (4 * r) (key_schedule key))).

(** 5.1: nine full rounds and a last one without MixColumns. *)
Definition round (key : list Z) (s : list Z) (r : nat) : list Z :=
  add_round_key (mix_columns (shift_rows (sub_bytes s))) (round_key key r).
Definition cipher (key input : list Z) : list Z :=
  let s := add_round_key input (round_key key 0) in
  let s := fold_left (round key) (seq 1 9) s in
  add_round_key (shift_rows (sub_bytes s)) (round_key key 10).

(** How the crate uses it: a key or a counter [v] below [2^128] is the 16 bytes of its little-endian representation, and
    the block of a counter is the encryption of the counter. *)
Definition byte_at (v i : Z) : Z := v / 256 ^ i mod 256.
Definition le16 (v : Z) : list Z := map (byte_at v) (zseq 0 16).
Definition aes_block (key : Z) (counter : Z) : list Z := cipher (le16 key) (le16 counter).
