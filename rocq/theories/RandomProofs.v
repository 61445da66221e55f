(** * Proofs about the random generators *)
From Verif Require Import Base Word WordFacts NegaRing PolySpec PolyModel PolyProofs RandomModel.

(** ** Specification: the words held by a table of bytes *)

(** The little-endian word of [w] bits at byte position [q]. *)
Definition table_word (w : Z) (tab : Z -> Z) (q : Z) : Z :=
  le_value (map tab (zseq q (Z.to_nat (w / 8)))).
(** [n] consecutive words. *)
Definition table_words (w : Z) (tab : Z -> Z) (q : Z) (n : nat) : list Z :=
  map (fun i => table_word w tab (q + i * (w / 8))) (zseq 0 n).

Definition bytes_ok (tab : Z -> Z) : Prop := forall q, 0 <= tab q < 256.

Lemma zseq_app a n m : zseq a (n + m) = zseq a n ++ zseq (a + Z.of_nat n) m.
Proof.
  revert a. induction n as [|n IH]; intros a; cbn [zseq app Nat.add].
  - f_equal. lia.
  - rewrite IH. f_equal. f_equal. f_equal. lia.
Qed.

Lemma zseq_shift c a n : zseq (a + c) n = map (fun i => i + c) (zseq a n).
Proof.
  revert a. induction n as [|n IH]; intros a; cbn [zseq map]; [reflexivity|].
  f_equal. rewrite <- IH. f_equal. lia.
Qed.

Lemma in_zseq x a n : In x (zseq a n) <-> a <= x < a + Z.of_nat n.
Proof.
  revert a. induction n as [|n IH]; intros a; cbn [zseq In]; [lia|]. rewrite IH. lia.
Qed.

Lemma zseq_map_ext {A} (f g : Z -> A) a n :
  (forall i, a <= i < a + Z.of_nat n -> f i = g i) -> map f (zseq a n) = map g (zseq a n).
Proof. intros H. apply map_ext_in. intros i Hi. apply H. apply in_zseq. assumption. Qed.

Lemma bg_advance_advance g a b : bg_advance (bg_advance g a) b = bg_advance g (a + b).
Proof. unfold bg_advance. cbn. f_equal. lia. Qed.
Lemma bg_advance_0 g : bg_advance g 0 = g.
Proof. destruct g. unfold bg_advance. cbn. f_equal. lia. Qed.

Lemma read_bytes_ok k g : bg_pos g + Z.of_nat k <= bg_end g ->
  read_bytes k g = Ret (map (bg_table g) (zseq (bg_pos g) k), bg_advance g (Z.of_nat k)).
Proof.
  revert g. induction k as [|k IH]; intros g H.
  - cbn. rewrite bg_advance_0. reflexivity.
  - cbn [read_bytes]. unfold generate_next. destruct (Z.ltb_spec (bg_pos g) (bg_end g)); [|lia]. cbn [obind].
    rewrite IH by (cbn; lia). cbn [obind zseq map]. rewrite bg_advance_advance. replace (1 + Z.of_nat k) with (Z.of_nat (S k)) by lia. reflexivity.
Qed.

Lemma read_bytes_panic k g : (0 < k)%nat -> bg_end g < bg_pos g + Z.of_nat k -> read_bytes k g = Panic.
Proof.
  revert g. induction k as [|k IH]; intros g Hk H; [lia|].
  cbn [read_bytes]. unfold generate_next. destruct (Z.ltb_spec (bg_pos g) (bg_end g)); [|reflexivity]. cbn [obind].
  destruct k as [|k]; [lia|].
  rewrite IH by (cbn; lia). reflexivity.
Qed.

Lemma uniform_one_ok w g : 0 <= w -> bg_pos g + w / 8 <= bg_end g ->
  uniform_one w g = Ret (table_word w (bg_table g) (bg_pos g), bg_advance g (w / 8)).
Proof.
  intros Hw H. unfold uniform_one. assert (0 <= w / 8) by lia.
  rewrite read_bytes_ok by lia. cbn [obind]. rewrite Z2Nat.id by assumption. reflexivity.
Qed.

Lemma uniform_tensor_ok w n g : 0 <= w -> bg_pos g + Z.of_nat n * (w / 8) <= bg_end g ->
  generate_tensor (uniform_one w) n g
  = Ret (table_words w (bg_table g) (bg_pos g) n, bg_advance g (Z.of_nat n * (w / 8))).
Proof.
  intros Hw. assert (Hb : 0 <= w / 8) by lia. set (b := w / 8) in *.
  revert g. induction n as [|n IH]; intros g H.
  - cbn. rewrite bg_advance_0. reflexivity.
  - cbn [generate_tensor]. rewrite uniform_one_ok by (auto; fold b; lia). cbn [obind]. fold b.
    rewrite IH by (cbn; lia). cbn [obind]. unfold table_words. fold b. cbn [zseq map].
    rewrite bg_advance_advance. replace (b + Z.of_nat n * b) with (Z.of_nat (S n) * b) by lia.
    do 3 f_equal.
    + f_equal. lia.
    + cbn [bg_table bg_pos bg_advance]. rewrite (zseq_shift 1 0), map_map.
      apply map_ext. intros i. f_equal. lia.
Qed.

Lemma uniform_tensor_panic w n g : 0 < w / 8 -> (0 < n)%nat -> bg_pos g <= bg_end g ->
  bg_end g < bg_pos g + Z.of_nat n * (w / 8) -> generate_tensor (uniform_one w) n g = Panic.
Proof.
  intros Hb Hn Hle H. revert g Hle H. induction n as [|n IH]; intros g Hle H; [lia|].
  cbn [generate_tensor]. set (b := w / 8) in *.
  destruct (Z.le_gt_cases (bg_pos g + b) (bg_end g)) as [Hok|Hno].
  - rewrite uniform_one_ok by (fold b; subst b; lia). cbn [obind]. fold b.
    rewrite IH; [reflexivity| |cbn; lia|cbn; lia].
    destruct n; [lia|lia].
  - unfold uniform_one. fold b. rewrite read_bytes_panic by lia. reflexivity.
Qed.

Lemma table_words_length w tab q n : length (table_words w tab q n) = n.
Proof. unfold table_words. rewrite map_length. apply zseq_len. Qed.

Lemma table_words_app w tab q n m :
  table_words w tab q (n + m) = table_words w tab q n ++ table_words w tab (q + Z.of_nat n * (w / 8)) m.
Proof.
  unfold table_words. rewrite zseq_app, map_app. f_equal. rewrite Z.add_0_l.
  replace (Z.of_nat n) with (0 + Z.of_nat n) at 1 by lia. rewrite (zseq_shift (Z.of_nat n) 0), map_map. apply map_ext.
  intros i. f_equal. lia.
Qed.

Lemma le_value_range l : Forall (fun b => 0 <= b < 256) l -> 0 <= le_value l < 256 ^ Z.of_nat (length l).
Proof.
  induction 1 as [|a l Ha Hl IH]; [cbn; lia|].
  cbn [le_value length]. rewrite Nat2Z.inj_succ, Z.pow_succ_r by lia. nia.
Qed.

Lemma table_word_range w tab q : bytes_ok tab -> 0 <= w -> w mod 8 = 0 -> is_word w (table_word w tab q).
Proof.
  intros Hb Hw Hm. unfold table_word, is_word.
  pose proof (le_value_range (map tab (zseq q (Z.to_nat (w / 8))))) as H.
  rewrite map_length, zseq_len, Z2Nat.id in H by lia.
  replace (2 ^ w) with (256 ^ (w / 8)).
  - apply H. apply Forall_forall. intros x Hx. rewrite in_map_iff in Hx. destruct Hx as (i & <- & _). apply Hb.
  - change 256 with (2 ^ 8). rewrite <- Z.pow_mul_r by lia. f_equal. lia.
Qed.

Lemma table_words_words w tab q n : bytes_ok tab -> 0 <= w -> w mod 8 = 0 -> Forall (is_word w) (table_words w tab q n).
Proof.
  intros Hb Hw Hm. unfold table_words. apply Forall_forall. intros x Hx. rewrite in_map_iff in Hx.
  destruct Hx as (i & <- & _). apply table_word_range; assumption.
Qed.

Lemma le_value_byte l i : Forall (fun b => 0 <= b < 256) l -> (i < length l)%nat ->
  (le_value l / 256 ^ Z.of_nat i) mod 256 = nth i l 0.
Proof.
  intros H. revert i. induction H as [|a l Ha Hl IH]; intros i Hi; [cbn in Hi; lia|].
  pose proof (le_value_range l Hl) as Hr.
  destruct i as [|i].
  - cbn [le_value nth]. change (256 ^ Z.of_nat 0) with 1. rewrite Z.div_1_r.
    replace (a + 256 * le_value l) with (a + le_value l * 256) by lia. rewrite Z_mod_plus_full. apply Z.mod_small. assumption.
  - cbn [le_value nth length] in *. rewrite Nat2Z.inj_succ, Z.pow_succ_r by lia. rewrite <- Z.div_div by (try apply Z.pow_pos_nonneg; lia).
    replace (a + 256 * le_value l) with (a + le_value l * 256) by lia. rewrite Z.div_add by lia.
    rewrite (Z.div_small a) by assumption. rewrite Z.add_0_l. apply IH. lia.
Qed.

(** ** Forks *)
Lemma bg_fork_ok p g n b : 0 < n -> 0 < b -> n * b < 2 ^ usize_bits -> n * b <= bg_end g - bg_pos g ->
  bg_fork p g n b = Ret (Some (map (fun i => bg_window g (i * b) b) (zseq 0 (Z.to_nat n)), bg_advance g (n * b))).
Proof.
  intros Hn Hb Hov Hle. unfold bg_fork.
  destruct (Z.eqb_spec n 0), (Z.eqb_spec b 0); try lia. cbn [orb].
  rewrite plain_ok by nia. cbn [obind]. destruct (Z.leb_spec (n * b) (bg_end g - bg_pos g)); [reflexivity|lia].
Qed.

Lemma bg_fork_inv p g n b ms m : 0 <= n -> 0 <= b -> n * b < 2 ^ usize_bits ->
  bg_fork p g n b = Ret (Some (ms, m)) ->
  0 < n /\ 0 < b /\ n * b <= bg_end g - bg_pos g /\
  ms = map (fun i => bg_window g (i * b) b) (zseq 0 (Z.to_nat n)) /\ m = bg_advance g (n * b).
Proof.
  intros Hn Hb Hov. unfold bg_fork.
  destruct (Z.eqb_spec n 0), (Z.eqb_spec b 0); cbn [orb]; try discriminate.
  rewrite plain_ok by nia. cbn [obind]. destruct (Z.leb_spec (n * b) (bg_end g - bg_pos g)); [|discriminate].
  intros E. injection E as <- <-. repeat split; lia.
Qed.
