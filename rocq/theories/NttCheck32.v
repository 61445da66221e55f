(** * The 32-bit tables pass the check.  Generated by tools/gen_ntt_checks.py. *)
From Verif Require Import Base NttTableProofs NttTables32.

Lemma check_32 : check_table MOD_32_4096 12 ROOTS_32_4096 INVROOTS_32_4096 = true.
Proof. vm_cast_no_check (eq_refl true). Qed.
Lemma ROOTS_32_128_prefix : ROOTS_32_128 = firstn (2 ^ 7)%nat ROOTS_32_4096.
Proof. vm_cast_no_check (@eq_refl (list Z) ROOTS_32_128). Qed.
Lemma INVROOTS_32_128_prefix : INVROOTS_32_128 = firstn (2 ^ 7)%nat INVROOTS_32_4096.
Proof. vm_cast_no_check (@eq_refl (list Z) INVROOTS_32_128). Qed.
Lemma ROOTS_32_256_prefix : ROOTS_32_256 = firstn (2 ^ 8)%nat ROOTS_32_4096.
Proof. vm_cast_no_check (@eq_refl (list Z) ROOTS_32_256). Qed.
Lemma INVROOTS_32_256_prefix : INVROOTS_32_256 = firstn (2 ^ 8)%nat INVROOTS_32_4096.
Proof. vm_cast_no_check (@eq_refl (list Z) INVROOTS_32_256). Qed.
Lemma ROOTS_32_512_prefix : ROOTS_32_512 = firstn (2 ^ 9)%nat ROOTS_32_4096.
Proof. vm_cast_no_check (@eq_refl (list Z) ROOTS_32_512). Qed.
Lemma INVROOTS_32_512_prefix : INVROOTS_32_512 = firstn (2 ^ 9)%nat INVROOTS_32_4096.
Proof. vm_cast_no_check (@eq_refl (list Z) INVROOTS_32_512). Qed.
Lemma ROOTS_32_1024_prefix : ROOTS_32_1024 = firstn (2 ^ 10)%nat ROOTS_32_4096.
Proof. vm_cast_no_check (@eq_refl (list Z) ROOTS_32_1024). Qed.
Lemma INVROOTS_32_1024_prefix : INVROOTS_32_1024 = firstn (2 ^ 10)%nat INVROOTS_32_4096.
Proof. vm_cast_no_check (@eq_refl (list Z) INVROOTS_32_1024). Qed.
Lemma ROOTS_32_2048_prefix : ROOTS_32_2048 = firstn (2 ^ 11)%nat ROOTS_32_4096.
Proof. vm_cast_no_check (@eq_refl (list Z) ROOTS_32_2048). Qed.
Lemma INVROOTS_32_2048_prefix : INVROOTS_32_2048 = firstn (2 ^ 11)%nat INVROOTS_32_4096.
Proof. vm_cast_no_check (@eq_refl (list Z) INVROOTS_32_2048). Qed.
Lemma ROOTS_32_4096_prefix : ROOTS_32_4096 = firstn (2 ^ 12)%nat ROOTS_32_4096.
Proof. vm_cast_no_check (@eq_refl (list Z) ROOTS_32_4096). Qed.
Lemma INVROOTS_32_4096_prefix : INVROOTS_32_4096 = firstn (2 ^ 12)%nat INVROOTS_32_4096.
Proof. vm_cast_no_check (@eq_refl (list Z) INVROOTS_32_4096). Qed.
