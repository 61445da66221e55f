(** * Modulus switching between w-bit words and residues modulo q: proofs *)
From Verif Require Import Base Word WordFacts KeyswitchTheorems NttModel NttSpec.

(** Value of mod_switch_into before the reduction *)
Definition into0 (w q x : Z) : Z := (x * q + 2 ^ (w - 1)) / 2 ^ w.
Definition into (w q x : Z) : Z := into0 w q x mod q.
(** Value of mod_switch_from before the cast *)
Definition from0 (w q v : Z) : Z := (v * 2 ^ w + q / 2) / q.
Definition from (w q v : Z) : Z := from0 w q v mod 2 ^ w.

Section Switch.
Context (p : profile) (w q : Z) (Hw : 0 < w) (Hq : 1 < q < 2 ^ w).

Lemma half2 : 2 ^ w = 2 * 2 ^ (w - 1).
Proof. clear - Hw. replace w with (1 + (w - 1)) at 1 by lia. rewrite Z.pow_add_r by lia. reflexivity. Qed.

Lemma into_ok x : is_word w x -> mod_switch_into p (2 * w) q w x = Ret (into w q x).
Proof.
  intros Hx. unfold is_word in Hx. unfold mod_switch_into, into, into0. pose proof half2 as H2. pose proof (pow2_pos (w - 1) ltac:(lia)) as Hp.
  assert (E : 2 ^ (2 * w) = 2 ^ w * 2 ^ w) by (rewrite <- Z.pow_add_r by lia; f_equal; lia).
  set (M := 2 ^ w) in *. set (h := 2 ^ (w - 1)) in *.
  rewrite plain_ok by (rewrite E; nia). cbn [obind]. rewrite shl_ok by lia. cbn [obind].
  assert (Eh : shl (2 * w) 1 (w - 1) = h) by (unfold shl; rewrite Z.mul_1_l; apply Z.mod_small; rewrite E; fold h; nia).
  rewrite Eh. rewrite plain_ok by (rewrite E; nia). cbn [obind]. rewrite shr_ok by lia. cbn [obind]. unfold rem_q.
  destruct (Z.eqb_spec q 0); [lia|]. unfold shr. reflexivity.
Qed.

Lemma from_ok v : residue q v -> mod_switch_from p (2 * w) q w v = Ret (from w q v).
Proof.
  intros Hv. unfold residue in Hv. unfold mod_switch_from, from, from0. pose proof half2 as H2. pose proof (pow2_pos (w - 1) ltac:(lia)) as Hp.
  assert (E : 2 ^ (2 * w) = 2 ^ w * 2 ^ w) by (rewrite <- Z.pow_add_r by lia; f_equal; lia).
  rewrite shl_ok by lia. cbn [obind]. rewrite shr_ok by lia. cbn [obind]. destruct (Z.eqb_spec q 0); [lia|].
  unfold shl, shr. change (2 ^ 1) with 2. rewrite (Z.mod_small (v * 2 ^ w)) by (rewrite E; nia).
  rewrite Z.lor_comm. do 3 f_equal.
  assert (D : Z.land (q / 2) (v * 2 ^ w) = 0).
  { rewrite <- Z.shiftl_mul_pow2 by lia. apply Z.bits_inj'. intros i Hi. rewrite Z.land_spec, Z.bits_0.
    destruct (Z_lt_le_dec i w) as [Hnw|Hnw].
    - rewrite Z.shiftl_spec_low by lia. apply andb_false_r.
    - rewrite (Z.bits_above_log2 (q / 2)); [reflexivity|apply Z.div_pos; lia|].
      destruct (Z.eq_dec (q / 2) 0) as [->|]; [cbn; lia|].
      apply Z.log2_lt_pow2; [apply Z.le_neq; split; [apply Z.div_pos; lia|lia]|].
      apply Z.lt_le_trans with (2 ^ w); [lia|]. apply Z.pow_le_mono_r; lia. }
  rewrite <- Z.lxor_lor by exact D. rewrite <- Z.add_nocarry_lxor by exact D. lia.
Qed.

Lemma into0_spec x : - 2 ^ w < 2 * (2 ^ w * into0 w q x - x * q) <= 2 ^ w.
Proof.
  unfold into0. pose proof half2 as H2. pose proof (pow2_pos (w - 1) ltac:(lia)) as Hp. set (M := 2 ^ w) in *. set (h := 2 ^ (w - 1)) in *. clearbody M h.
  pose proof (Z.div_mod (x * q + h) M ltac:(lia)) as E. pose proof (Z.mod_pos_bound (x * q + h) M ltac:(lia)). lia.
Qed.
Lemma into_residue x : residue q (into w q x).
Proof. unfold residue, into. apply Z.mod_pos_bound. lia. Qed.
Lemma from0_spec v : - q <= 2 * (q * from0 w q v - v * 2 ^ w) <= q.
Proof.
  unfold from0. set (M := 2 ^ w) in *. clearbody M.
  pose proof (Z.div_mod (v * M + q / 2) q ltac:(lia)) as E. pose proof (Z.mod_pos_bound (v * M + q / 2) q ltac:(lia)).
  pose proof (Z.div_mod q 2 ltac:(lia)). pose proof (Z.mod_pos_bound q 2 ltac:(lia)). lia.
Qed.
Lemma from_word v : is_word w (from w q v).
Proof. unfold from. apply Z.mod_pos_bound, pow2_pos. lia. Qed.

Lemma into0_range x : is_word w x -> 0 <= into0 w q x <= q.
Proof.
  intros Hx. unfold is_word in Hx. pose proof (into0_spec x) as H. set (M := 2 ^ w) in *. set (m := into0 w q x) in *. clearbody M m. nia.
Qed.
Lemma from0_range v : residue q v -> 0 <= from0 w q v <= 2 ^ w.
Proof.
  intros Hv. unfold residue in Hv. pose proof (from0_spec v) as H. set (M := 2 ^ w) in *. set (m := from0 w q v) in *. clearbody M m. nia.
Qed.
(** Above q/2 words are hit at most twice. *)
Lemma into_big x : 2 ^ w < 2 * q -> is_word w x -> into w q x = into0 w q x.
Proof.
  intros Hb Hx. unfold into. apply Z.mod_small. pose proof (into0_range x Hx). split; [lia|]. pose proof (into0_spec x) as H'.
  unfold is_word in Hx. set (M := 2 ^ w) in *. set (m := into0 w q x) in *. clearbody M m. nia.
Qed.

Lemma into_from v : residue q v -> into w q (from w q v) = v.
Proof.
  intros Hv. pose proof (from0_spec v) as Hf. pose proof (from0_range v Hv) as Hr.
  assert (Hi : into0 w q (from0 w q v) = v).
  { pose proof (into0_spec (from0 w q v)) as Hs. set (M := 2 ^ w) in *. set (y := from0 w q v) in *. set (m := into0 w q y) in *. clearbody M y m. unfold residue in Hv. nia. }
  unfold into, from. destruct (Z.eq_dec (from0 w q v) (2 ^ w)) as [E|E].
  - exfalso. assert (v <= q - 1) by (unfold residue in Hv; lia). rewrite E in Hf. nia.
  - rewrite (Z.mod_small (from0 w q v)) by lia. rewrite Hi. apply Z.mod_small. exact Hv.
Qed.

Lemma from_into x : 2 ^ w < 2 * q -> is_word w x -> torus_dist w x (from w q (into w q x)) <= 1.
Proof.
  intros Hb Hx. rewrite (into_big x Hb Hx). pose proof (into0_spec x) as H1. pose proof (from0_spec (into0 w q x)) as H2.
  unfold from. set (y := from0 w q (into0 w q x)) in *. set (m := into0 w q x) in *.
  assert (Hd : Z.abs (y - x) <= 1) by (unfold is_word in Hx; set (M := 2 ^ w) in *; clearbody M y m; nia).
  apply (torus_dist_le w x _ (y - x)); [exact Hw| |exact Hd]. unfold eqm. rewrite Z.mod_mod by (pose proof (pow2_pos w); lia). f_equal. lia.
Qed.

(** Small words, taken as signed numbers, are switched exactly. *)
Lemma into_small x : is_word w x -> 2 * Z.abs (sgn w x) * (2 ^ w - q) < 2 ^ w -> into w q x = sgn w x mod q.
Proof.
  intros Hx Hs. pose proof (into0_spec x) as H1. unfold into, sgn in *. unfold is_word in Hx.
  destruct (Z.ltb_spec x (2 ^ (w - 1))) as [Hl|Hl].
  - f_equal. set (M := 2 ^ w) in *. set (m := into0 w q x) in *. clearbody M m. nia.
  - replace (into0 w q x) with ((x - 2 ^ w) + 1 * q).
    + apply Z.mod_add. lia.
    + set (M := 2 ^ w) in *. set (m := into0 w q x) in *. clearbody M m.
      assert (Hm : M * (m - q - (x - M)) + (x - M) * (M - q) = M * m - x * q) by ring.
      set (s := x - M) in *. assert (s < 0) by lia. set (t := m - q - s) in *. clearbody t. nia.
Qed.
End Switch.
