(** * The arithmetic of the amortized bootstrap over the real numbers: integers *)
From Coq Require Import Reals Lra.
From Verif Require Import Base Word WordFacts NegaRing PolySpec RingSum ExtProdModel ExtProdSpec.
From Verif Require Import CudaFftSpec CudaPbsModel CudaPbsSpec CudaPbsRealModel.
Local Open Scope R_scope.

(** ** Integers *)
Lemma floor_unique x n : IZR n <= x < IZR n + 1 -> floor x = n.
Proof.
  intros [A B]. unfold floor. destruct (base_Int_part x) as [C D]. assert (E1 : IZR (Int_part x) < IZR (n + 1)) by (rewrite plus_IZR; lra). assert (E2 : IZR n < IZR (Int_part x + 1)) by (rewrite plus_IZR; lra).
  apply lt_IZR in E1. apply lt_IZR in E2. clear - E1 E2. lia.
Qed.
Lemma floor_int n : floor (IZR n) = n. Proof. apply floor_unique. lra. Qed.
Lemma floor_div X M : (0 < M)%Z -> floor (IZR X / IZR M) = (X / M)%Z.
Proof.
  intros HM. pose proof (Z.div_mod X M ltac:(lia)) as D. pose proof (Z.mod_pos_bound X M HM) as B. apply floor_unique.
  assert (PM : 0 < IZR M) by (apply IZR_lt, HM). set (q := (X / M)%Z) in *. set (r := (X mod M)%Z) in *. clearbody q r. subst X. rewrite plus_IZR, mult_IZR.
  assert (0 <= IZR r < IZR M) by (split; [apply IZR_le|apply IZR_lt]; apply B). replace ((IZR M * IZR q + IZR r) / IZR M) with (IZR q + IZR r / IZR M) by (field; lra).
  assert (0 <= IZR r / IZR M) by (apply Rmult_le_pos; [lra|]; apply Rlt_le, Rinv_0_lt_compat, PM).
  assert (IZR r / IZR M < 1) by (apply (Rmult_lt_reg_r (IZR M)); [exact PM|]; unfold Rdiv; rewrite Rmult_assoc, Rinv_l by lra; lra). lra.
Qed.
Lemma frac_div X M : (0 < M)%Z -> (IZR X / IZR M - IZR (floor (IZR X / IZR M))) * IZR M = IZR (X mod M).
Proof.
  intros HM. rewrite floor_div by exact HM. assert (PM : 0 < IZR M) by (apply IZR_lt, HM). rewrite Z.mod_eq by lia. rewrite minus_IZR, mult_IZR. field. lra.
Qed.
Lemma nearest_int n : nearest (IZR n) = n.
Proof. unfold nearest. rewrite floor_int. destruct (Rlt_dec _ _) as [|C]; [reflexivity|]. exfalso. apply C. lra. Qed.
Lemma typecast_int w n : w = 32%Z \/ w = 64%Z -> (0 <= n)%Z -> (w = 32%Z -> n < 2 ^ 32)%Z -> typecast_double_to_torus w (IZR n) = (n mod 2 ^ w)%Z.
Proof.
  intros [-> | ->] H0 H1; unfold typecast_double_to_torus; cbn [Z.eqb Pos.eqb].
  - specialize (H1 eq_refl). rewrite nearest_int, Z.max_r, Z.min_r, Z.mod_small by lia. reflexivity.
  - rewrite floor_int. reflexivity.
Qed.
Definition modulus (w : Z) : Z := to_double (2 ^ w - 1).
Lemma modulus_value w : w = 32%Z \/ w = 64%Z -> modulus w = if Z.eqb w 32 then (2 ^ 32 - 1)%Z else (2 ^ 64)%Z.
Proof. intros [-> | ->]; vm_compute; reflexivity. Qed.
Lemma modulus_pos w : w = 32%Z \/ w = 64%Z -> (0 < modulus w <= 2 ^ w)%Z.
Proof. intros [-> | ->]; vm_compute; split; (reflexivity || discriminate). Qed.

Lemma first_value w X : w = 32%Z \/ w = 64%Z -> torus_first w (IZR X / max_word w) = (X mod modulus w)%Z.
Proof.
  intros Hw. pose proof (modulus_pos w Hw) as HM. unfold torus_first, max_word. fold (modulus w). rewrite frac_div by apply HM. rewrite floor_int.
  unfold round_carry. destruct (Rle_dec _ _) as [C|C]; [exfalso; lra|]. rewrite Rplus_0_r. pose proof (Z.mod_pos_bound X (modulus w) (proj1 HM)) as B.
  rewrite typecast_int; [apply Z.mod_small; clear - B HM; lia|exact Hw|apply B|]. intros ->. clear - B HM. lia.
Qed.
Lemma second_value w X : w = 32%Z \/ w = 64%Z -> torus_second w (IZR X / max_word w) = ((X mod modulus w + if Z.ltb (X / modulus w) (X mod modulus w) then 1 else 0) mod 2 ^ w)%Z.
Proof.
  intros Hw. pose proof (modulus_pos w Hw) as HM. unfold torus_second, max_word. fold (modulus w). rewrite frac_div by apply HM. rewrite floor_div by apply HM.
  pose proof (Z.mod_pos_bound X (modulus w) (proj1 HM)) as B. set (r := (X mod modulus w)%Z) in *. set (q := (X / modulus w)%Z) in *. clearbody r q.
  unfold round_carry. destruct (Rle_dec _ _) as [C|C]; destruct (Z.ltb_spec q r) as [L|L].
  - rewrite <- plus_IZR. apply typecast_int; [exact Hw|clear - B; lia|]. intros ->. pose proof (modulus_value 32 Hw) as E. cbn [Z.eqb Pos.eqb] in E. clear - B E. lia.
  - exfalso. apply IZR_le in L. lra.
  - exfalso. apply C. assert (E : IZR (q + 1) <= IZR r) by (apply IZR_le; clear - L; lia). rewrite plus_IZR in E. lra.
  - rewrite Rplus_0_r, Z.add_0_r. apply typecast_int; [exact Hw|apply B|]. intros ->. pose proof (modulus_value 32 Hw) as E. cbn [Z.eqb Pos.eqb] in E. clear - B E. lia.
Qed.
(** The word added is the integer, up to the number of times the modulus fits in it when the modulus is not the number of words, and to one. *)
Definition torus_value (w : Z) (X : Z) (V : Z) : Prop := exists e, (0 <= e <= 1)%Z /\ eqm (2 ^ w) V (X + (if Z.eqb w 32 then X / modulus w else 0) + e).
Lemma modulus_eqm w X : w = 32%Z \/ w = 64%Z -> eqm (2 ^ w) (X mod modulus w) (X + (if Z.eqb w 32 then X / modulus w else 0)).
Proof.
  intros Hw. pose proof (modulus_pos w Hw) as HM. pose proof (modulus_value w Hw) as E. rewrite Z.mod_eq by (clear - HM; lia). destruct Hw as [-> | ->]; cbn [Z.eqb Pos.eqb] in *; rewrite E.
  - set (q := (X / (2 ^ 32 - 1))%Z). unfold eqm. replace (X - (2 ^ 32 - 1) * q)%Z with (X + q + (- q) * 2 ^ 32)%Z by ring. apply Z_mod_plus_full.
  - set (q := (X / 2 ^ 64)%Z). unfold eqm. replace (X - 2 ^ 64 * q)%Z with (X + 0 + (- q) * 2 ^ 64)%Z by ring. apply Z_mod_plus_full.
Qed.
Lemma first_torus w X : w = 32%Z \/ w = 64%Z -> torus_value w X (torus_first w (IZR X / max_word w)).
Proof. intros Hw. exists 0%Z. split; [lia|]. rewrite first_value, Z.add_0_r by exact Hw. apply modulus_eqm, Hw. Qed.
Lemma second_torus w X : w = 32%Z \/ w = 64%Z -> torus_value w X (torus_second w (IZR X / max_word w)).
Proof.
  intros Hw. rewrite second_value by exact Hw. exists (if Z.ltb (X / modulus w) (X mod modulus w) then 1 else 0)%Z. split; [destruct (Z.ltb _ _); lia|].
  rewrite eqm_mod. apply eqm_add; [apply modulus_eqm, Hw|reflexivity].
Qed.

(** ** The conversion of integers to double *)
Lemma to_double_close x : (0 <= x <= 2 ^ 63)%Z -> (Z.abs (to_double x - x) <= 512)%Z.
Proof.
  intros Hx. unfold to_double. destruct (Z.ltb_spec x (2 ^ 53)) as [L|L]; [rewrite Z.sub_diag; cbn; lia|].
  assert (Hx0 : (0 < x)%Z) by (assert (0 < 2 ^ 53)%Z by reflexivity; lia). destruct (Z.log2_spec x Hx0) as [G1 G2].
  assert (G3 : (53 <= Z.log2 x)%Z) by (apply Z.log2_le_pow2; [exact Hx0|exact L]).
  assert (G4 : (Z.log2 x <= 63)%Z) by (replace 63%Z with (Z.log2 (2 ^ 63)) by reflexivity; apply Z.log2_le_mono, Hx).
  set (s := (Z.log2 x - 52)%Z). destruct (Z.eq_dec (Z.log2 x) 63) as [E63|N63].
  { assert (x = 2 ^ 63)%Z as -> by (rewrite E63 in G1; clear - G1 Hx; lia). vm_compute. discriminate. }
  assert (Hs : (2 ^ (s - 1) <= 512)%Z) by (change 512%Z with (2 ^ 9)%Z; apply Z.pow_le_mono_r; [reflexivity|]; unfold s; clear - G4 N63; lia).
  assert (H2s : (2 ^ s = 2 * 2 ^ (s - 1))%Z) by (rewrite <- Z.pow_succ_r by (unfold s; lia); f_equal; lia).
  assert (Hp : (0 < 2 ^ (s - 1))%Z) by (apply pow2_pos; unfold s; lia).
  pose proof (Z.div_mod x (2 ^ s) ltac:(lia)) as D. pose proof (Z.mod_pos_bound x (2 ^ s) ltac:(lia)) as B. set (q := (x / 2 ^ s)%Z) in *. set (r := (x mod 2 ^ s)%Z) in *. set (h := (2 ^ (s - 1))%Z) in *. rewrite H2s in *. clearbody q r h. cbv zeta.
  clear - D B Hs Hp. destruct (Z.ltb_spec h r); cbn [orb]; [lia|]. destruct (Z.eqb_spec r h); cbn [andb]; [destruct (Z.odd q); lia|lia].
Qed.
Lemma to_double_small x : (x < 2 ^ 53)%Z -> to_double x = x.
Proof. intros H. unfold to_double. destruct (Z.ltb_spec x (2 ^ 53)); [reflexivity|lia]. Qed.
Definition key_rounding (w : Z) : Z := if Z.eqb w 32 then 0 else 512.
Lemma signed_close w x : w = 32%Z \/ w = 64%Z -> is_word w x -> (Z.abs (signed_to_double (sgn w x) - sgn w x) <= key_rounding w)%Z.
Proof.
  intros Hw Hx. pose proof (sgn_range w x ltac:(destruct Hw as [-> | ->]; reflexivity) Hx) as B. set (y := sgn w x) in *. clearbody y. unfold signed_to_double, key_rounding.
  destruct Hw as [-> | ->]; cbn [Z.eqb Pos.eqb].
  - change (32 - 1)%Z with 31%Z in B. assert (2 ^ 31 < 2 ^ 53)%Z by reflexivity. destruct (Z.ltb_spec y 0); rewrite to_double_small by lia; lia.
  - change (64 - 1)%Z with 63%Z in B. destruct (Z.ltb_spec y 0).
    + pose proof (to_double_close (- y) ltac:(lia)). lia.
    + apply to_double_close. lia.
Qed.
Lemma as_double_64 x : is_word 64 x -> exists e, (Z.abs e <= 1024)%Z /\ as_double 64 x = ((x + e) mod 2 ^ 64)%Z.
Proof.
  intros Hx. exists (to_double x - x)%Z. split; [|unfold as_double; f_equal; ring]. destruct Hx as [H0 H1]. destruct (Z.le_gt_cases x (2 ^ 63)) as [L|L]; [pose proof (to_double_close x ltac:(lia)); lia|].
  unfold to_double. destruct (Z.ltb_spec x (2 ^ 53)) as [L5|L5]; [rewrite Z.sub_diag; cbn; lia|].
  assert (E : Z.log2 x = 63%Z) by (apply Z.log2_unique; [lia|]; split; [lia|exact H1]). rewrite E. change (63 - 52)%Z with 11%Z. change (11 - 1)%Z with 10%Z.
  pose proof (Z.div_mod x (2 ^ 11) ltac:(discriminate)) as D. pose proof (Z.mod_pos_bound x (2 ^ 11) ltac:(reflexivity)) as B. set (q := (x / 2 ^ 11)%Z) in *. set (r := (x mod 2 ^ 11)%Z) in *. clearbody q r. cbv zeta.
  change (2 ^ 11)%Z with 2048%Z in *. change (2 ^ 10)%Z with 1024%Z. clear - D B. destruct (Z.ltb_spec 1024 r); cbn [orb]; [lia|]. destruct (Z.eqb_spec r 1024); cbn [andb]; [destruct (Z.odd q); lia|lia].
Qed.
Lemma as_double_32 x : is_word 32 x -> as_double 32 x = x.
Proof. intros [H0 H1]. unfold as_double. assert (2 ^ 32 < 2 ^ 53)%Z by reflexivity. rewrite to_double_small by lia. apply Z.mod_small. split; assumption. Qed.
