(** * The 64-bit tables pass the check.  Generated by tools/gen_ntt_checks.py. *)
From Verif Require Import Base NttTableProofs NttTables64.

Lemma check_64 : check_table MOD_64_4096 12 ROOTS_64_4096 INVROOTS_64_4096 = true.
Proof. vm_cast_no_check (eq_refl true). Qed.
Lemma ROOTS_64_128_prefix : ROOTS_64_128 = firstn (2 ^ 7)%nat ROOTS_64_4096.
Proof. vm_cast_no_check (@eq_refl (list Z) ROOTS_64_128). Qed.
Lemma INVROOTS_64_128_prefix : INVROOTS_64_128 = firstn (2 ^ 7)%nat INVROOTS_64_4096.
Proof. vm_cast_no_check (@eq_refl (list Z) INVROOTS_64_128). Qed.
Lemma ROOTS_64_256_prefix : ROOTS_64_256 = firstn (2 ^ 8)%nat ROOTS_64_4096.
Proof. vm_cast_no_check (@eq_refl (list Z) ROOTS_64_256). Qed.
Lemma INVROOTS_64_256_prefix : INVROOTS_64_256 = firstn (2 ^ 8)%nat INVROOTS_64_4096.
Proof. vm_cast_no_check (@eq_refl (list Z) INVROOTS_64_256). Qed.
Lemma ROOTS_64_512_prefix : ROOTS_64_512 = firstn (2 ^ 9)%nat ROOTS_64_4096.
Proof. vm_cast_no_check (@eq_refl (list Z) ROOTS_64_512). Qed.
Lemma INVROOTS_64_512_prefix : INVROOTS_64_512 = firstn (2 ^ 9)%nat INVROOTS_64_4096.
Proof. vm_cast_no_check (@eq_refl (list Z) INVROOTS_64_512). Qed.
Lemma ROOTS_64_1024_prefix : ROOTS_64_1024 = firstn (2 ^ 10)%nat ROOTS_64_4096.
Proof. vm_cast_no_check (@eq_refl (list Z) ROOTS_64_1024). Qed.
Lemma INVROOTS_64_1024_prefix : INVROOTS_64_1024 = firstn (2 ^ 10)%nat INVROOTS_64_4096.
Proof. vm_cast_no_check (@eq_refl (list Z) INVROOTS_64_1024). Qed.
Lemma ROOTS_64_2048_prefix : ROOTS_64_2048 = firstn (2 ^ 11)%nat ROOTS_64_4096.
Proof. vm_cast_no_check (@eq_refl (list Z) ROOTS_64_2048). Qed.
Lemma INVROOTS_64_2048_prefix : INVROOTS_64_2048 = firstn (2 ^ 11)%nat INVROOTS_64_4096.
Proof. vm_cast_no_check (@eq_refl (list Z) INVROOTS_64_2048). Qed.
Lemma ROOTS_64_4096_prefix : ROOTS_64_4096 = firstn (2 ^ 12)%nat ROOTS_64_4096.
Proof. vm_cast_no_check (@eq_refl (list Z) ROOTS_64_4096). Qed.
Lemma INVROOTS_64_4096_prefix : INVROOTS_64_4096 = firstn (2 ^ 12)%nat INVROOTS_64_4096.
Proof. vm_cast_no_check (@eq_refl (list Z) INVROOTS_64_4096). Qed.
