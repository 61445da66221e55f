(** * Theorems about modulus switching: C38 *)
From Verif Require Import Base Word WordFacts NttModel NttSpec NttSwitchProofs NttTables32 NttTables64 NttTableTheorems.

(** From a word to a residue: never a panic, the result is a residue, and it represents x q / 2^w rounded
    to the nearest integer (q being 0). *)
Theorem C38_into : forall p w q x, 0 < w -> 1 < q < 2 ^ w -> is_word w x ->
  exists m k, mod_switch_into p (2 * w) q w x = Ret m /\ residue q m /\ (k = 0 \/ k = 1) /\
    2 * Z.abs (2 ^ w * (m + k * q) - x * q) <= 2 ^ w.
Proof.
  intros p w q x Hw Hq Hx. pose proof (into0_range w q Hw Hq x Hx) as Hr. pose proof (into0_spec w q Hw Hq x) as Hs.
  exists (into w q x), (into0 w q x / q). split; [apply into_ok; assumption|]. split; [apply into_residue; assumption|].
  assert (E : into w q x + into0 w q x / q * q = into0 w q x) by (unfold into; pose proof (Z.div_mod (into0 w q x) q); lia).
  rewrite E. split; [|lia]. destruct (Z.eq_dec (into0 w q x) q) as [->|]; [right; apply Z.div_same; lia|left; apply Z.div_small; lia].
Qed.

(** From a residue to a word: v 2^w / q rounded to the nearest integer. *)
Theorem C38_from : forall p w q v, 0 < w -> 1 < q < 2 ^ w -> residue q v ->
  exists y k, mod_switch_from p (2 * w) q w v = Ret y /\ is_word w y /\ (k = 0 \/ k = 1) /\
    2 * Z.abs (q * (y + k * 2 ^ w) - v * 2 ^ w) <= q.
Proof.
  intros p w q v Hw Hq Hv. pose proof (from0_range w q Hq v Hv) as Hr. pose proof (from0_spec w q Hq v) as Hs. pose proof (pow2_pos w ltac:(lia)) as Hp.
  exists (from w q v), (from0 w q v / 2 ^ w). split; [apply from_ok; assumption|]. split; [apply from_word; assumption|].
  assert (E : from w q v + from0 w q v / 2 ^ w * 2 ^ w = from0 w q v) by (unfold from; pose proof (Z.div_mod (from0 w q v) (2 ^ w)); lia).
  rewrite E. split; [|lia]. destruct (Z.eq_dec (from0 w q v) (2 ^ w)) as [->|]; [right; apply Z.div_same; lia|left; apply Z.div_small; lia].
Qed.

(** A residue survives the round trip through words. *)
Theorem C38_residue_round_trip : forall p w q v, 0 < w -> 1 < q < 2 ^ w -> residue q v ->
  (let! y := mod_switch_from p (2 * w) q w v in mod_switch_into p (2 * w) q w y) = Ret v.
Proof.
  intros p w q v Hw Hq Hv. rewrite from_ok by assumption. cbn [obind]. rewrite into_ok by (try assumption; apply from_word; assumption).
  f_equal. apply into_from; assumption.
Qed.

(** A word comes back changed by at most one unit, when the modulus has w bits. *)
Theorem C38_word_round_trip : forall p w q x, 0 < w -> 2 ^ (w - 1) < q < 2 ^ w -> 1 < q -> is_word w x ->
  exists y, (let! m := mod_switch_into p (2 * w) q w x in mod_switch_from p (2 * w) q w m) = Ret y /\ is_word w y /\ torus_dist w x y <= 1.
Proof.
  intros p w q x Hw Hq Hq1 Hx. assert (Hq' : 1 < q < 2 ^ w) by lia. rewrite into_ok by assumption. cbn [obind].
  rewrite from_ok by (try assumption; apply into_residue; assumption).
  eexists. split; [reflexivity|]. split; [apply from_word; assumption|]. apply from_into; try assumption.
  pose proof (half2 w Hw). lia.
Qed.

(** Not always unchanged: both shipped moduli are below 2^w, so that two words meet in one
    residue and one of them does not come back. *)
Theorem C38_word_round_trip_refuted : forall t p, In t shipped ->
  exists x y, is_word (pr_w t) x /\
    (let! m := mod_switch_into p (pr_W t) (pr_q t) (pr_w t) x in mod_switch_from p (pr_W t) (pr_q t) (pr_w t) m) = Ret y /\ y <> x /\
    mod_switch_into p (pr_W t) (pr_q t) (pr_w t) x = mod_switch_into p (pr_W t) (pr_q t) (pr_w t) y.
Proof.
  assert (H32 : forall p, is_word 32 15420 /\ (let! m := mod_switch_into p 64 4294828033 32 15420 in mod_switch_from p 64 4294828033 32 m) = Ret 15421 /\
     15421 <> 15420 /\ mod_switch_into p 64 4294828033 32 15420 = mod_switch_into p 64 4294828033 32 15421).
  { intros p. split; [split; vm_compute; congruence|]. split; [destruct p; vm_compute; reflexivity|]. split; [lia|]. destruct p; vm_compute; reflexivity. }
  assert (H64 : forall p, is_word 64 80422123142595 /\ (let! m := mod_switch_into p 128 18446744073709436929 64 80422123142595 in mod_switch_from p 128 18446744073709436929 64 m) = Ret 80422123142594 /\
     80422123142594 <> 80422123142595 /\ mod_switch_into p 128 18446744073709436929 64 80422123142595 = mod_switch_into p 128 18446744073709436929 64 80422123142594).
  { intros p. split; [split; vm_compute; congruence|]. split; [destruct p; vm_compute; reflexivity|]. split; [lia|]. destruct p; vm_compute; reflexivity. }
  intros t p Ht. unfold shipped in Ht. cbn [In] in Ht.
  repeat (destruct Ht as [<-|Ht]; [cbn [pr_w pr_W pr_q]; first [eexists; eexists; exact (H32 p) | eexists; eexists; exact (H64 p)]|]).
  contradiction.
Qed.

(** A word that is small as a signed number keeps its signed value. *)
Theorem C38_small_exact : forall p w q x, 0 < w -> 1 < q < 2 ^ w -> is_word w x -> 2 * Z.abs (sgn w x) * (2 ^ w - q) < 2 ^ w ->
  mod_switch_into p (2 * w) q w x = Ret (sgn w x mod q).
Proof. intros p w q x Hw Hq Hx Hs. rewrite into_ok by assumption. f_equal. apply into_small; assumption. Qed.

(** Which words that covers for the shipped moduli: below 15421 for 32-bit words and below
    80422123142595 for 64-bit words. *)
Theorem C38_shipped_small : forall t p x, In t shipped -> is_word (pr_w t) x ->
  Z.abs (sgn (pr_w t) x) < (if pr_w t =? 32 then 15421 else 80422123142595) ->
  mod_switch_into p (pr_W t) (pr_q t) (pr_w t) x = Ret (sgn (pr_w t) x mod pr_q t).
Proof.
  intros t p x Ht Hx Hs. destruct (C37_shipped_tables t Ht) as ((Hq & _) & EW & Hr & _). rewrite EW.
  assert (Hc : (pr_w t = 32 /\ pr_q t = 4294828033) \/ (pr_w t = 64 /\ pr_q t = 18446744073709436929)).
  { unfold shipped in Ht. cbn [In] in Ht. repeat (destruct Ht as [<-|Ht]; [cbn [pr_w pr_q]; first [left; split; reflexivity|right; split; reflexivity]|]). contradiction. }
  destruct Hc as [[Ew Eq]|[Ew Eq]]; rewrite Ew, Eq in *; apply C38_small_exact; try assumption; try lia.
  - cbn [Z.eqb Pos.eqb] in Hs. change (2 ^ 32) with 4294967296. lia.
  - cbn [Z.eqb Pos.eqb] in Hs. change (2 ^ 64) with 18446744073709551616. lia.
Qed.

Example C38_case : 1 < 4294828033 < 2 ^ 32 /\ 2 ^ (32 - 1) < 4294828033 /\ is_word 32 0xfffffffd /\ sgn 32 0xfffffffd = -3 /\
  mod_switch_into Debug 64 4294828033 32 0xfffffffd = Ret 4294828030 /\
  mod_switch_into Debug 64 4294828033 32 0x80000000 = Ret 2147414017 /\ mod_switch_from Debug 64 4294828033 32 2147414017 = Ret 0x80000001.
Proof. split; [vm_compute; split; reflexivity|]. split; [vm_compute; reflexivity|]. split; [vm_compute; split; congruence|]. repeat split; vm_compute; reflexivity. Qed.
Print Assumptions C38_into.
Print Assumptions C38_from.
Print Assumptions C38_residue_round_trip.
Print Assumptions C38_word_round_trip.
Print Assumptions C38_word_round_trip_refuted.
Print Assumptions C38_small_exact.
Print Assumptions C38_shipped_small.
