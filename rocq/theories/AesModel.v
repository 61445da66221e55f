(** * Model of the three block ciphers of concrete-csprng
    /repo/concrete-csprng/src/generators/implem/{aesni,aarch64,soft}/block_cipher.rs.
    A 128-bit register is the list of its 16 bytes, the least significant first.  The processor instructions are modelled
    after their manuals, which describe them with the transformations of FIPS 197 ([AesSpec]).  All the targets are little
    endian, so [transmute] of a [u128] into a register and [to_ne_bytes] give the bytes from the least significant on.
    The detection of the processor features (which panics when they are missing) is not modelled. *)
From Verif Require Import Base AesSpec.

(** [u128 -> [u8; 16]], [u32 -> [u8; 4]] and back *)
Fixpoint to_bytes (k : nat) (v : Z) : list Z :=
  match k with O => [] | S k' => v mod 256 :: to_bytes k' (v / 256) end.
Fixpoint of_bytes (l : list Z) : Z := match l with [] => 0 | b :: l' => b + 256 * of_bytes l' end.

(** ** x86: Intel's manual *)
(** [_mm_xor_si128] *)
Definition mm_xor (a b : list Z) : list Z := map2 Z.lxor a b.
(** [_mm_slli_si128(a, imm)]: shift left by bytes, that is towards the most significant ones. *)
Definition mm_slli (a : list Z) (imm : nat) : list Z := firstn 16 (repeat 0 imm ++ a).
(** 32-bit lane of a register *)
Definition lane (a : list Z) (i : nat) : list Z := firstn 4 (skipn (4 * i) a).
(** [_mm_shuffle_epi32(a, imm)]: lane [j] of the result is the lane of [a] selected by bits [2j, 2j+1] of [imm]. *)
Definition mm_shuffle (a : list Z) (imm : nat) : list Z :=
  lane a (imm mod 4) ++ lane a (imm / 4 mod 4) ++ lane a (imm / 16 mod 4) ++ lane a (imm / 64 mod 4).
(** [_mm_aesenc_si128]: ShiftRows, SubBytes, MixColumns, exclusive or with the round key. *)
Definition mm_aesenc (a key : list Z) : list Z := mm_xor (mix_columns (sub_bytes (shift_rows a))) key.
(** [_mm_aesenclast_si128]: the same without MixColumns. *)
Definition mm_aesenclast (a key : list Z) : list Z := mm_xor (sub_bytes (shift_rows a)) key.
(** [_mm_aeskeygenassist_si128(a, imm)]: SubWord(X1), RotWord(SubWord(X1)) xor imm, SubWord(X3), RotWord(SubWord(X3)) xor imm. *)
Definition mm_keygenassist (a : list Z) (imm : Z) : list Z :=
  let x1 := sub_word (lane a 1) in let x3 := sub_word (lane a 3) in
  x1 ++ map2 Z.lxor (rot_word x1) [imm; 0; 0; 0] ++ x3 ++ map2 Z.lxor (rot_word x3) [imm; 0; 0; 0].

(** aesni/block_cipher.rs:111-126 aes_128_assist *)
Definition aes_128_assist (temp1 temp2 : list Z) : list Z :=
  let temp2 := mm_shuffle temp2 255 in
  let temp3 := mm_slli temp1 4 in
  let temp1 := mm_xor temp1 temp3 in
  let temp3 := mm_slli temp3 4 in
  let temp1 := mm_xor temp1 temp3 in
  let temp3 := mm_slli temp3 4 in
  let temp1 := mm_xor temp1 temp3 in
  mm_xor temp1 temp2.

(** aesni/block_cipher.rs:128-164 aes_128_key_expansion: the constants of the successive calls, and the register [temp1]
    stored after each. *)
Definition rcons : list Z := [1; 2; 4; 8; 16; 32; 64; 128; 27; 54].
Fixpoint key_expansion_from (temp1 : list Z) (imms : list Z) : list (list Z) :=
  match imms with
  | [] => []
  | imm :: imms' => let temp1 := aes_128_assist temp1 (mm_keygenassist temp1 imm) in temp1 :: key_expansion_from temp1 imms'
  end.
Definition aes_128_key_expansion (key : list Z) : list (list Z) := key :: key_expansion_from key rcons.

(** aesni/block_cipher.rs:47-52 generate_round_keys *)
Definition aesni_round_keys (key : Z) : list (list Z) := aes_128_key_expansion (to_bytes 16 key).

(** aesni/block_cipher.rs:57-109 aes_encrypt_many, one of its eight messages; [keys.iter().take(10).skip(1)] are the
    keys of the loop. *)
Definition aesni_encrypt (keys : list (list Z)) (message : list Z) : list Z :=
  let tmp := mm_xor message (nth 0 keys []) in
  let tmp := fold_left mm_aesenc (skipn 1 (firstn 10 keys)) tmp in
  mm_aesenclast tmp (nth 10 keys []).

(** aesni/block_cipher.rs:32-44 generate_batch *)
Definition aesni_generate_batch (p : profile) (keys : list (list Z)) (aes_ctr : Z) : outcome (list Z) :=
  let! ctrs := omap (fun j => plain p 128 (aes_ctr + j)) (zseq 0 8) in
  Ret (concat (map (fun c => aesni_encrypt keys (to_bytes 16 c)) ctrs)).

(** ** aarch64: ARM's manual *)
(** [vaeseq_u8(data, key)]: AddRoundKey, ShiftRows, SubBytes.  [vaesmcq_u8]: MixColumns. *)
Definition vaeseq (data key : list Z) : list Z := sub_bytes (shift_rows (map2 Z.lxor data key)).
Definition vaesmcq (data : list Z) : list Z := mix_columns data.
Definition veorq (a b : list Z) : list Z := map2 Z.lxor a b.
(** [vdupq_n_u32], [vdupq_n_u8], [vgetq_lane_u32::<0>] *)
Definition vdup_u32 (x : Z) : list Z := to_bytes 4 x ++ to_bytes 4 x ++ to_bytes 4 x ++ to_bytes 4 x.
Definition vdup_u8 (x : Z) : list Z := repeat x 16.
Definition vget_lane0 (a : list Z) : Z := of_bytes (firstn 4 a).

(** aarch64/block_cipher.rs:58-69 sub_word *)
Definition arm_sub_word (word : Z) : Z :=
  let data := vdup_u32 word in
  let temp := vaeseq data (vdup_u8 0) in
  vget_lane0 temp.

(** [u32::rotate_right] *)
Definition rotate_right32 (x n : Z) : Z := Z.lor (Z.shiftr x n) (Z.shiftl x (32 - n) mod 2 ^ 32).

(** aarch64/block_cipher.rs:91-101: the word [i] of the schedule, from the words before it; [RCONS] of line 9. *)
Definition arm_next_word (words : list Z) : Z :=
  let i := length words in
  if Nat.eqb (Nat.modulo i 4) 0 then
    Z.lxor (Z.lxor (nth (i - 4) words 0) (rotate_right32 (arm_sub_word (nth (i - 1) words 0)) 8)) (nth (i / 4 - 1) rcons 0)
  else Z.lxor (nth (i - 4) words 0) (nth (i - 1) words 0).
Fixpoint arm_words (n : nat) (words : list Z) : list Z :=
  match n with O => words | S n' => arm_words n' (words ++ [arm_next_word words]) end.

(** Four consecutive words of memory, seen as the registers they are. *)
Fixpoint registers (n : nat) (words : list Z) : list (list Z) :=
  match n with O => [] | S n' => concat (map (to_bytes 4) (firstn 4 words)) :: registers n' (skipn 4 words) end.

(** aarch64/block_cipher.rs:79-104 generate_round_keys: the memory of the 11 round keys is filled word by word. *)
Definition arm_round_keys (key : Z) : list (list Z) :=
  let k := to_bytes 16 key in
  registers 11 (arm_words 40 (map (fun i => of_bytes (lane k i)) (seq 0 4))).

(** aarch64/block_cipher.rs:112-130 encrypt; the message and the result are [u128]. *)
Definition arm_encrypt (message : Z) (keys : list (list Z)) : Z :=
  let data := to_bytes 16 message in
  let data := fold_left (fun data key => vaesmcq (vaeseq data key)) (firstn 9 keys) data in
  let data := vaeseq data (nth 9 keys []) in
  let data := veorq data (nth 10 keys []) in
  of_bytes data.

(** aarch64/block_cipher.rs:37-49 generate_batch *)
Definition arm_generate_batch (p : profile) (keys : list (list Z)) (aes_ctr : Z) : outcome (list Z) :=
  let! blocks := omap (fun i => let! c := plain p 128 (aes_ctr + i) in Ret (to_bytes 16 (arm_encrypt c keys))) (zseq 0 8) in
  Ret (concat blocks).

(** ** Portable: the [aes] crate, a dependency, whose [Aes128] is taken to be the cipher of FIPS 197. *)
(** soft/block_cipher.rs:15-20 new keeps the key bytes, 22-34 generate_batch, 40-81 aes_encrypt_many *)
Definition soft_generate_batch (p : profile) (key : Z) (aes_ctr : Z) : outcome (list Z) :=
  let aes := cipher (to_bytes 16 key) in
  let! ctrs := omap (fun j => plain p 128 (aes_ctr + j)) (zseq 0 8) in
  Ret (concat (map (fun c => aes (to_bytes 16 c)) ctrs)).
