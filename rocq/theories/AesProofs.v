(** * Lemmas on the AES block ciphers *)
From Verif Require Import Base AesSpec AesModel.

Definition byte (b : Z) : Prop := 0 <= b < 256.
Definition bytes (n : nat) (l : list Z) : Prop := length l = n /\ Forall byte l.

(** Destruct a list of known length. *)
Ltac lists l H := destruct l as [|? l]; [try discriminate H|first [discriminate H|lists l H]].

Ltac all_of := repeat (apply Forall_cons; [tauto|]); apply Forall_nil.

(** Equality of expressions of exclusive or. *)
Ltac xor_solve := apply Z.bits_inj'; intros ?k ?Hk; rewrite ?Z.lxor_spec, ?Z.bits_0;
  repeat match goal with |- context [Z.testbit ?x ?k] => destruct (Z.testbit x k) end; reflexivity.

(** ** Bytes *)
Lemma lxor_range n a b : 0 <= n -> 0 <= a < 2 ^ n -> 0 <= b < 2 ^ n -> 0 <= Z.lxor a b < 2 ^ n.
Proof.
  intros Hn Ha Hb. assert (H0 : 0 <= Z.lxor a b) by (apply Z.lxor_nonneg; lia). split; [exact H0|].
  destruct (Z.eq_dec (Z.lxor a b) 0) as [->|Hz]; [apply Z.pow_pos_nonneg; lia|].
  apply Z.log2_lt_pow2; [lia|]. eapply Z.le_lt_trans; [apply Z.log2_lxor; lia|].
  destruct (Z.eq_dec a 0) as [->|Za]; destruct (Z.eq_dec b 0) as [->|Zb]; cbn in Hz; try (rewrite Z.lxor_0_l in Hz);
    try (rewrite Z.lxor_0_r in Hz); try contradiction; cbn [Z.log2].
  - apply Z.max_lub_lt; [|apply Z.log2_lt_pow2; lia]. assert (b < 2 ^ n) by lia. apply Z.log2_lt_pow2 in H; [|lia]. pose proof (Z.log2_nonneg b). cbn. lia.
  - apply Z.max_lub_lt; [apply Z.log2_lt_pow2; lia|]. assert (a < 2 ^ n) by lia. apply Z.log2_lt_pow2 in H; [|lia]. pose proof (Z.log2_nonneg a). cbn. lia.
  - apply Z.max_lub_lt; apply Z.log2_lt_pow2; lia.
Qed.
Lemma byte_lxor a b : byte a -> byte b -> byte (Z.lxor a b).
Proof. unfold byte. change 256 with (2 ^ 8). intros. apply lxor_range; lia. Qed.

Lemma xor_length a : forall b, length a = length b -> length (map2 Z.lxor a b) = length a.
Proof. induction a; intros [|y b] H; cbn in *; try discriminate; auto. Qed.
Lemma bytes_xor n a b : bytes n a -> bytes n b -> bytes n (map2 Z.lxor a b).
Proof.
  intros [La Fa] [Lb Fb]. split; [rewrite xor_length; congruence|]. clear n La Lb.
  revert b Fb. induction Fa; intros [|y b] Fb; cbn; constructor; inversion Fb; subst; auto using byte_lxor.
Qed.

Lemma to_bytes_length k : forall v, length (to_bytes k v) = k.
Proof. induction k; intros v; cbn [to_bytes length]; auto. Qed.
Lemma to_bytes_bytes k v : bytes k (to_bytes k v).
Proof. split; [apply to_bytes_length|]. revert v. induction k; intros v; cbn [to_bytes]; constructor; auto. unfold byte. apply Z.mod_pos_bound. lia. Qed.
Lemma to_of_bytes n l : bytes n l -> to_bytes n (of_bytes l) = l.
Proof.
  intros [<- F]. induction F as [|b l Hb _ IH]; [reflexivity|]. cbn [length to_bytes of_bytes]. unfold byte in Hb. f_equal.
  - rewrite Z.mul_comm, Z.mod_add, Z.mod_small; lia.
  - rewrite Z.mul_comm, Z.div_add, Z.div_small by lia. exact IH.
Qed.
Lemma of_to_bytes k : forall v, 0 <= v < 256 ^ Z.of_nat k -> of_bytes (to_bytes k v) = v.
Proof.
  induction k; intros v H; [cbn in *; lia|]. cbn [to_bytes of_bytes]. rewrite Nat2Z.inj_succ, Z.pow_succ_r in H by lia.
  rewrite IHk; [|split; [apply Z.div_pos; lia|apply Z.div_lt_upper_bound; lia]]. rewrite Z.add_comm. symmetry. apply Z.div_mod. lia.
Qed.
Lemma to_bytes_at k : forall v, to_bytes k v = map (byte_at v) (zseq 0 k).
Proof.
  assert (G : forall k v i, 0 <= i -> to_bytes k (v / 256 ^ i) = map (byte_at v) (zseq i k)).
  { clear k. induction k; intros v i Hi; [reflexivity|]. cbn [to_bytes zseq map]. f_equal.
    rewrite Z.div_div, <- (IHk v (i + 1)) by lia. rewrite Z.pow_add_r by lia. f_equal. }
  intros v. rewrite <- G by lia. now rewrite Z.div_1_r.
Qed.
Lemma le16_bytes v : le16 v = to_bytes 16 v.
Proof. symmetry. apply (to_bytes_at 16). Qed.

(** ** The operations on states *)
Lemma sbox_byte b : byte (sbox b).
Proof.
  assert (G : forall (f : Z -> bool) n i, 0 <= i ->
    0 <= fold_right (fun i acc => acc + Z.b2z (f i) * 2 ^ i) 0 (zseq i n) <= 2 ^ (i + Z.of_nat n) - 2 ^ i).
  { intros f. induction n as [|n IH]; intros i Hi; cbn [zseq fold_right]; [rewrite Z.add_0_r; lia|].
    specialize (IH (i + 1) ltac:(lia)). replace (i + 1 + Z.of_nat n) with (i + Z.of_nat (S n)) in IH by lia.
    rewrite (Z.pow_add_r 2 i 1) in IH by lia. assert (0 < 2 ^ i) by (apply Z.pow_pos_nonneg; lia). destruct (f i); cbn [Z.b2z]; lia. }
  unfold sbox, affine, byte. set (x := ginv b). clearbody x.
  pose proof (G (fun i => xorb (bit x i) (xorb (bit x (i + 4)) (xorb (bit x (i + 5)) (xorb (bit x (i + 6)) (xorb (bit x (i + 7)) (bit 99 i))))))
              8%nat 0 ltac:(lia)) as H.
  change (2 ^ (0 + Z.of_nat 8) - 2 ^ 0) with 255 in H. cbv beta in H. clear G. split; [apply H|]. eapply Z.le_lt_trans; [apply H|reflexivity].
Qed.
Global Opaque sbox.
Lemma sub_bytes_bytes n s : length s = n -> bytes n (sub_bytes s).
Proof. intros H. split; [unfold sub_bytes; now rewrite map_length|]. clear H. induction s; constructor; auto using sbox_byte. Qed.
Lemma shift_rows_length s : length (shift_rows s) = 16%nat.
Proof. reflexivity. Qed.
Lemma shift_rows_bytes s : bytes 16 s -> bytes 16 (shift_rows s).
Proof.
  intros [L F]. split; [reflexivity|]. lists s L. rewrite !Forall_cons_iff in F.
  unfold shift_rows. cbn. all_of.
Qed.
Lemma sub_shift s : length s = 16%nat -> sub_bytes (shift_rows s) = shift_rows (sub_bytes s).
Proof. intros L. lists s L. reflexivity. Qed.
Lemma mix_columns_length s : length s = 16%nat -> length (mix_columns s) = 16%nat.
Proof. intros L. lists s L. reflexivity. Qed.

Lemma xtime_byte b : byte b -> byte (xtime b).
Proof.
  intros H. unfold xtime. destruct (Z.ltb_spec b 128); [unfold byte in *; lia|].
  pose proof (lxor_range 9 (2 * b) 283 ltac:(lia)) as R. unfold byte in *. specialize (R ltac:(lia) ltac:(lia)).
  assert (T : Z.testbit (Z.lxor (2 * b) 283) 8 = false).
  { rewrite Z.lxor_spec. replace (Z.testbit (2 * b) 8) with true; [reflexivity|]. symmetry.
    change 8 with (Z.succ 7). rewrite Z.testbit_even_succ by lia. rewrite Z.testbit_true by lia.
    replace (b / 2 ^ 7) with 1; [reflexivity|]. apply Z.div_unique with (b - 128); lia. }
  set (x := Z.lxor (2 * b) 283) in *. clearbody x. split; [lia|]. destruct (Z.lt_ge_cases x 256); [assumption|].
  apply Z.testbit_false in T; [|lia]. replace (x / 2 ^ 8) with 1 in T by (apply Z.div_unique with (x - 256); lia). discriminate.
Qed.
Lemma gmul_bits_byte n : forall a b, byte a -> byte (gmul_bits n a b).
Proof.
  induction n; intros a b H; cbn [gmul_bits]; [unfold byte; lia|]. apply byte_lxor; [|auto using xtime_byte].
  destruct (Z.odd b); [assumption|unfold byte; lia].
Qed.
Lemma gmul_byte a b : byte a -> byte (gmul a b).
Proof. apply gmul_bits_byte. Qed.
Lemma mix_column_bytes c : bytes 4 c -> bytes 4 (mix_column c).
Proof.
  intros [L F]. lists c L. rewrite !Forall_cons_iff in F. destruct F as (H1 & H2 & H3 & H4 & _).
  split; [reflexivity|]. unfold mix_column.
  assert (byte 2 /\ byte 3) as [? ?] by (unfold byte; lia).
  repeat (apply Forall_cons; [repeat match goal with |- byte (Z.lxor _ _) => apply byte_lxor end; first [assumption|apply gmul_byte; assumption]|]). apply Forall_nil.
Qed.
Lemma bytes_app n m a b : bytes n a -> bytes m b -> bytes (n + m) (a ++ b).
Proof. intros [La Fa] [Lb Fb]. split; [rewrite app_length; lia|]. apply Forall_app. auto. Qed.
Lemma mix_columns_bytes s : bytes 16 s -> bytes 16 (mix_columns s).
Proof.
  intros [L F]. lists s L. rewrite !Forall_cons_iff in F. unfold mix_columns. cbn [seq flat_map].
   match goal with |- bytes 16 ?l => change (bytes (4 + (4 + (4 + (4 + 0)))) l) end.
  repeat apply bytes_app; try (apply mix_column_bytes; split; [reflexivity|]; cbn; all_of).
  split; [reflexivity|constructor].
Qed.

(** ** Key schedules *)
(** One round of the schedule, on four words. *)
Definition step (m : nat) (q : list (list Z)) : list (list Z) :=
  match q with
  | [a; b; c; d] =>
      let e := xor_bytes a (xor_bytes (sub_word (rot_word d)) [xpow m; 0; 0; 0]) in
      let f := xor_bytes b e in let g := xor_bytes c f in let h := xor_bytes d g in
      [e; f; g; h]
  | _ => []
  end.
Fixpoint quads (n m : nat) (q : list (list Z)) : list (list (list Z)) :=
  match n with O => [] | S n' => let q' := step m q in q' :: quads n' (S m) q' end.

Definition quad (q : list (list Z)) : Prop := length q = 4%nat /\ Forall (bytes 4) q.

Lemma rot_bytes x : bytes 4 x -> bytes 4 (rot_word x).
Proof. intros [L F]. lists x L. rewrite !Forall_cons_iff in F. split; [reflexivity|]. cbn. all_of. Qed.
Lemma xpow_byte m : byte (xpow m).
Proof. induction m; cbn [xpow]; [unfold byte; lia|auto using xtime_byte]. Qed.
Lemma step_quad m q : quad q -> quad (step m q).
Proof.
  intros [L F]. destruct q as [|a [|b [|c [|d [|? ?]]]]]; try discriminate. rewrite !Forall_cons_iff in F. destruct F as (Ha & Hb & Hc & Hd & _).
  split; [reflexivity|]. cbn [step].
  assert (H : bytes 4 (xor_bytes a (xor_bytes (sub_word (rot_word d)) [xpow m; 0; 0; 0]))).
  { apply bytes_xor; [exact Ha|]. apply bytes_xor; [apply sub_bytes_bytes; apply (rot_bytes d Hd)|].
    split; [reflexivity|]. repeat (apply Forall_cons; [first [apply xpow_byte|unfold byte; lia]|]). apply Forall_nil. }
  set (e := xor_bytes a _) in *. clearbody e. repeat (apply Forall_cons; [repeat apply bytes_xor; assumption|]). apply Forall_nil.
Qed.
Lemma quads_quad n : forall m q, quad q -> Forall quad (quads n m q).
Proof. induction n; intros m q H; cbn [quads]; constructor; [|apply IHn]; now apply step_quad. Qed.
Lemma quads_length n : forall m q, length (quads n m q) = n.
Proof. induction n; intros; cbn [quads length]; auto. Qed.

(** The words of the standard, round by round. *)
Lemma next_word_at pre m (ws : list (list Z)) : length pre = (4 * m)%nat ->
  next_word (pre ++ ws) =
  xor_bytes (nth (length ws - 4) ws [])
    (if Nat.eqb (length ws mod 4) 0 then xor_bytes (sub_word (rot_word (nth (length ws - 1) ws []))) (rcon (m + length ws / 4))
     else nth (length ws - 1) ws []) \/ (length ws < 4)%nat.
Proof.
  intros L. destruct (Nat.lt_ge_cases (length ws) 4) as [?|H]; [now right|left].
  unfold next_word. rewrite app_length, L.
  rewrite !app_nth2 by lia. rewrite L.
  replace (4 * m + length ws - 4 - 4 * m)%nat with (length ws - 4)%nat by lia.
  replace (4 * m + length ws - 1 - 4 * m)%nat with (length ws - 1)%nat by lia.
  replace ((4 * m + length ws) mod 4)%nat with (length ws mod 4)%nat
    by (rewrite Nat.add_comm, Nat.mul_comm, Nat.mod_add; lia).
  replace ((4 * m + length ws) / 4)%nat with (m + length ws / 4)%nat; [reflexivity|].
  rewrite (Nat.mul_comm 4), Nat.div_add_l; lia.
Qed.

Lemma expand_step n pre m q : length pre = (4 * m)%nat -> quad q ->
  expand (4 + n) (pre ++ q) = expand n ((pre ++ q) ++ step m q).
Proof.
  intros L [Lq _]. destruct q as [|a [|b [|c [|d [|? ?]]]]]; try discriminate. cbn [expand Nat.add step].
  set (e := xor_bytes a _). set (f := xor_bytes b e). set (g := xor_bytes c f). set (h := xor_bytes d g).
  assert (E1 : next_word (pre ++ [a; b; c; d]) = e).
  { destruct (next_word_at pre m [a; b; c; d] L) as [->|H]; [|cbn in H; lia]. cbn [length Nat.sub nth Nat.eqb Nat.modulo Nat.divmod fst snd Nat.div].
    unfold rcon. replace (m + 1 - 1)%nat with m by lia. reflexivity. }
  rewrite E1, <- ?app_assoc. cbn [app].
  assert (E2 : next_word (pre ++ [a; b; c; d; e]) = f) by (destruct (next_word_at pre m [a; b; c; d; e] L) as [->|H]; [reflexivity|cbn in H; lia]).
  rewrite E2, <- ?app_assoc. cbn [app].
  assert (E3 : next_word (pre ++ [a; b; c; d; e; f]) = g) by (destruct (next_word_at pre m [a; b; c; d; e; f] L) as [->|H]; [reflexivity|cbn in H; lia]).
  rewrite E3, <- ?app_assoc. cbn [app].
  assert (E4 : next_word (pre ++ [a; b; c; d; e; f; g]) = h) by (destruct (next_word_at pre m [a; b; c; d; e; f; g] L) as [->|H]; [reflexivity|cbn in H; lia]).
  rewrite E4, <- ?app_assoc. reflexivity.
Qed.

Lemma expand_quads n : forall pre m q, length pre = (4 * m)%nat -> quad q ->
  expand (4 * n) (pre ++ q) = pre ++ q ++ concat (quads n m q).
Proof.
  induction n; intros pre m q L H; [cbn; now rewrite app_nil_r|].
  replace (4 * S n)%nat with (4 + 4 * n)%nat by lia. rewrite (expand_step _ _ _ _ L H).
  rewrite (IHn (pre ++ q) (S m)); [|rewrite app_length, L; destruct H; lia|now apply step_quad].
  cbn [quads concat]. now rewrite <- !app_assoc.
Qed.

Definition key_quad (key : list Z) : list (list Z) := [lane key 0; lane key 1; lane key 2; lane key 3].
Lemma key_quad_ok key : bytes 16 key -> quad (key_quad key).
Proof.
  intros [L F]. lists key L. rewrite !Forall_cons_iff in F. split; [reflexivity|].
  unfold key_quad, lane. cbn. repeat (constructor; [split; [reflexivity|all_of]|]). constructor.
Qed.
Lemma key_quad_concat key : bytes 16 key -> concat (key_quad key) = key.
Proof. intros [L F]. lists key L. reflexivity. Qed.

Lemma firstn_skipn_concat (qs : list (list (list Z))) : Forall quad qs -> forall r, (r < length qs)%nat ->
  firstn 4 (skipn (4 * r) (concat qs)) = nth r qs [].
Proof.
  induction 1 as [|q qs [Lq _] _ IH]; intros r Hr; cbn [length] in Hr; [lia|]. cbn [concat]. destruct r as [|r].
  - destruct q as [|a [|b [|c [|d [|? ?]]]]]; try discriminate; reflexivity.
  - replace (4 * S r)%nat with (length q + 4 * r)%nat by lia. rewrite skipn_app.
    rewrite skipn_all2 by lia. replace (length q + 4 * r - length q)%nat with (4 * r)%nat by lia. cbn [app nth]. apply IH. lia.
Qed.

Lemma round_keys_quads key r : bytes 16 key -> (r < 11)%nat ->
  round_key key r = concat (nth r (key_quad key :: quads 10 0 (key_quad key)) []).
Proof.
  intros H Hr. pose proof (key_quad_ok key H) as Q.
  assert (E : key_schedule key = concat (key_quad key :: quads 10 0 (key_quad key))).
  { cbn [concat]. rewrite <- (app_nil_l (key_quad key ++ _)). rewrite <- (expand_quads 10 [] 0 (key_quad key) eq_refl Q). reflexivity. }
  unfold round_key. rewrite E. rewrite firstn_skipn_concat; [reflexivity|constructor; auto using quads_quad|cbn [length]; rewrite quads_length; lia].
Qed.
Lemma concat_quad q : quad q -> bytes 16 (concat q).
Proof.
  intros [L F]. destruct q as [|a [|b [|c [|d [|? ?]]]]]; try discriminate. rewrite !Forall_cons_iff in F. destruct F as (Ha & Hb & Hc & Hd & _).
  cbn [concat]. change (bytes (4 + (4 + (4 + (4 + 0)))) (a ++ b ++ c ++ d ++ [])). repeat apply bytes_app; auto. split; [reflexivity|constructor].
Qed.
Lemma round_key_bytes key r : bytes 16 key -> (r < 11)%nat -> bytes 16 (round_key key r).
Proof.
  intros H Hr. rewrite round_keys_quads by assumption. apply concat_quad. pose proof (key_quad_ok key H) as Q.
  assert (F : Forall quad (key_quad key :: quads 10 0 (key_quad key))) by (constructor; auto using quads_quad).
  rewrite Forall_forall in F. apply F. apply nth_In. cbn [length]. rewrite quads_length. lia.
Qed.

(** The schedule of the x86 implementation. *)
Lemma assist_step m q : quad q -> aes_128_assist (concat q) (mm_keygenassist (concat q) (xpow m)) = concat (step m q).
Proof.
  intros [L F]. destruct q as [|a [|b [|c [|d [|? ?]]]]]; try discriminate. rewrite !Forall_cons_iff in F.
  destruct F as ([La _] & [Lb _] & [Lc _] & [Ld _] & _). lists a La. lists b Lb. lists c Lc. lists d Ld.
  cbn [concat app step]. generalize (xpow m). intros x. unfold aes_128_assist, mm_keygenassist, mm_shuffle, mm_slli, mm_xor, lane, xor_bytes, sub_word.
  change (255 mod 4)%nat with 3%nat. change (255 / 4 mod 4)%nat with 3%nat. change (255 / 16 mod 4)%nat with 3%nat. change (255 / 64 mod 4)%nat with 3%nat.
  cbn [repeat app firstn skipn Nat.mul Nat.add map rot_word map2].
  repeat (apply (f_equal2 (@cons Z)); [xor_solve|]). reflexivity.
Qed.
Lemma key_expansion_quads n : forall m q, quad q ->
  key_expansion_from (concat q) (map xpow (seq m n)) = map (@concat Z) (quads n m q).
Proof.
  induction n; intros m q H; [reflexivity|]. cbn [seq map key_expansion_from quads].
  rewrite (assist_step m q H). f_equal. apply IHn. now apply step_quad.
Qed.
Lemma aesni_keys key : aesni_round_keys key = map (round_key (to_bytes 16 key)) (seq 0 11).
Proof.
  set (k := to_bytes 16 key). assert (Hk : bytes 16 k) by apply to_bytes_bytes. pose proof (key_quad_ok k Hk) as Q.
  unfold aesni_round_keys, aes_128_key_expansion. fold k.
  change rcons with (map xpow (seq 0 10)). rewrite <- (key_quad_concat k Hk) at 1 2.
  rewrite (key_expansion_quads 10 0 _ Q).
  rewrite <- (map_cons (@concat Z)). apply nth_ext with (d := concat []) (d' := round_key k 0).
  - rewrite !map_length. cbn [length]. now rewrite quads_length, seq_length.
  - intros r Hr. rewrite map_length in Hr. cbn [length] in Hr. rewrite quads_length in Hr.
    rewrite !map_nth, seq_nth by lia. rewrite round_keys_quads by (auto; lia). reflexivity.
Qed.
