(** * Lemmas on the AES block ciphers: the rounds, the schedule on words, injectivity *)
From Coq Require Import Ring.
From Verif Require Import Base AesSpec AesModel AesProofs.

(** ** Rounds *)
Definition full_round (s key : list Z) : list Z := add_round_key (mix_columns (shift_rows (sub_bytes s))) key.
Lemma full_round_bytes s key : bytes 16 s -> bytes 16 key -> bytes 16 (full_round s key).
Proof.
  intros Hs Hk. apply bytes_xor; [|exact Hk]. apply mix_columns_bytes, shift_rows_bytes, sub_bytes_bytes. apply Hs.
Qed.
Lemma fold_rounds_bytes keys : Forall (bytes 16) keys -> forall s, bytes 16 s -> bytes 16 (fold_left full_round keys s).
Proof. induction 1; intros s Hs; cbn [fold_left]; auto using full_round_bytes. Qed.
Lemma fold_aesenc keys : Forall (bytes 16) keys -> forall s, bytes 16 s -> fold_left mm_aesenc keys s = fold_left full_round keys s.
Proof.
  induction 1 as [|k keys Hk _ IH]; intros s Hs; [reflexivity|]. cbn [fold_left].
  replace (mm_aesenc s k) with (full_round s k); [apply IH; now apply full_round_bytes|].
  unfold mm_aesenc, full_round, add_round_key, xor_bytes, mm_xor. now rewrite sub_shift by apply Hs.
Qed.
Lemma fold_left_map {A B C} (f : A -> C -> A) (g : B -> C) l : forall a, fold_left f (map g l) a = fold_left (fun a b => f a (g b)) l a.
Proof. induction l; intros; cbn [map fold_left]; auto. Qed.
Local Opaque round_key.
Lemma cipher_fold key input :
  cipher key input = add_round_key (shift_rows (sub_bytes (fold_left full_round (map (round_key key) (seq 1 9)) (add_round_key input (round_key key 0))))) (round_key key 10).
Proof. unfold cipher. rewrite fold_left_map. reflexivity. Qed.

Lemma round_keys_bytes key a n : bytes 16 key -> (a + n <= 11)%nat -> Forall (bytes 16) (map (round_key key) (seq a n)).
Proof. intros H Ha. apply Forall_map, Forall_forall. intros r Hr. apply in_seq in Hr. apply round_key_bytes; [exact H|lia]. Qed.

Lemma cipher_bytes key input : bytes 16 key -> bytes 16 input -> bytes 16 (cipher key input).
Proof.
  intros Hk Hi. rewrite cipher_fold. apply bytes_xor; [|apply round_key_bytes; [exact Hk|lia]]. apply shift_rows_bytes, sub_bytes_bytes.
  apply fold_rounds_bytes; [apply round_keys_bytes; [exact Hk|lia]|]. apply bytes_xor; [exact Hi|]. apply round_key_bytes; [exact Hk|lia].
Qed.

Lemma aesni_encrypt_ok key msg : bytes 16 msg ->
  aesni_encrypt (aesni_round_keys key) msg = cipher (to_bytes 16 key) msg.
Proof.
  intros H. rewrite aesni_keys. pose proof (to_bytes_bytes 16 key) as Hk. set (k := to_bytes 16 key) in *. clearbody k.
  unfold aesni_encrypt. change (nth 0 (map (round_key k) (seq 0 11)) []) with (round_key k 0).
  change (nth 10 (map (round_key k) (seq 0 11)) []) with (round_key k 10).
  change (skipn 1 (firstn 10 (map (round_key k) (seq 0 11)))) with (map (round_key k) (seq 1 9)).
  assert (H0 : bytes 16 (mm_xor msg (round_key k 0))) by (apply bytes_xor; [exact H|apply round_key_bytes; [exact Hk|lia]]).
  rewrite fold_aesenc; [|apply round_keys_bytes; [exact Hk|lia]|exact H0].
  rewrite cipher_fold. unfold mm_aesenclast, mm_xor, add_round_key, xor_bytes. rewrite sub_shift; [reflexivity|].
  apply fold_rounds_bytes; [apply round_keys_bytes; [exact Hk|lia]|exact H0].
Qed.

(** ** aarch64 *)
Lemma add_lxor x y n : 0 <= n -> 0 <= x < 2 ^ n -> x + 2 ^ n * y = Z.lxor x (Z.shiftl y n).
Proof.
  intros Hn Hx. rewrite <- Z.add_nocarry_lxor; [rewrite Z.shiftl_mul_pow2 by lia; lia|].
  apply Z.bits_inj'. intros k Hk. rewrite Z.land_spec, Z.bits_0. destruct (Z.lt_ge_cases k n).
  - rewrite Z.shiftl_spec_low by lia. apply andb_false_r.
  - rewrite <- (Z.mod_small x (2 ^ n)) by lia. rewrite Z.mod_pow2_bits_high by lia. reflexivity.
Qed.
Lemma add_lor x y n : 0 <= n -> 0 <= x < 2 ^ n -> Z.lor x (y * 2 ^ n) = x + 2 ^ n * y.
Proof.
  intros Hn Hx. rewrite add_lxor by assumption. rewrite <- Z.shiftl_mul_pow2 by lia. apply Z.bits_inj'. intros k Hk.
  rewrite Z.lor_spec, Z.lxor_spec. destruct (Z.lt_ge_cases k n).
  - rewrite Z.shiftl_spec_low by lia. now destruct (Z.testbit x k).
  - rewrite <- (Z.mod_small x (2 ^ n)) by lia. rewrite Z.mod_pow2_bits_high by lia. now destruct (Z.testbit (Z.shiftl y n) k).
Qed.
Lemma of_bytes_lxor n : forall a b, bytes n a -> bytes n b -> of_bytes (map2 Z.lxor a b) = Z.lxor (of_bytes a) (of_bytes b).
Proof.
  induction n as [|n IH]; intros a b [La Fa] [Lb Fb]; destruct a as [|x a], b as [|y b]; try discriminate; [reflexivity|].
  injection La as La. injection Lb as Lb. inversion Fa; inversion Fb; subst. cbn [map2 of_bytes].
  rewrite (IH a b) by (split; auto). change 256 with (2 ^ 8).
  rewrite !add_lxor by (try (lia || assumption); apply lxor_range; try lia; assumption).
  rewrite Z.shiftl_lxor. xor_solve.
Qed.
Lemma of_bytes_range n l : bytes n l -> 0 <= of_bytes l < 256 ^ Z.of_nat n.
Proof.
  intros [<- F]. induction F as [|b l Hb _ IH]; [cbn; lia|]. cbn [length of_bytes]. rewrite Nat2Z.inj_succ, Z.pow_succ_r by lia. unfold byte in Hb. lia.
Qed.
Lemma rotate_ok x : bytes 4 x -> rotate_right32 (of_bytes x) 8 = of_bytes (rot_word x).
Proof.
  intros [L F]. lists x L. rewrite !Forall_cons_iff in F. destruct F as (Ha & Hb & Hc & Hd & _). unfold byte in *.
  unfold rotate_right32. cbn [rot_word app of_bytes]. rewrite Z.shiftr_div_pow2, Z.shiftl_mul_pow2 by lia. change (2 ^ 8) with 256.
  replace ((z + 256 * (z0 + 256 * (z1 + 256 * (z2 + 256 * 0)))) / 256) with (z0 + 256 * (z1 + 256 * z2))
    by (apply Z.div_unique with z; lia).
  replace ((z + 256 * (z0 + 256 * (z1 + 256 * (z2 + 256 * 0)))) * 2 ^ (32 - 8) mod 2 ^ 32) with (z * 2 ^ 24)
    by (apply Z.mod_unique with (z0 + 256 * (z1 + 256 * z2)); lia).
  rewrite add_lor; lia.
Qed.
Lemma arm_sub_word_ok x : bytes 4 x -> arm_sub_word (of_bytes x) = of_bytes (sub_word x).
Proof.
  intros H. unfold arm_sub_word, vdup_u32. rewrite (to_of_bytes 4 x H). destruct H as [L _]. lists x L.
  unfold vget_lane0, vaeseq, vdup_u8. cbn [app repeat map2]. rewrite !Z.lxor_0_r. reflexivity.
Qed.

Definition words_ok (ws : list (list Z)) : Prop := Forall (bytes 4) ws.
Lemma nth_words ws i : words_ok ws -> (i < length ws)%nat -> bytes 4 (nth i ws []).
Proof. intros H Hi. unfold words_ok in H. rewrite Forall_forall in H. apply H. now apply nth_In. Qed.
Lemma nth_of_bytes ws i : nth i (map of_bytes ws) 0 = of_bytes (nth i ws []).
Proof. change 0 with (of_bytes []). apply map_nth. Qed.
Lemma rcons_at i : (1 <= i <= 10)%nat -> of_bytes (rcon i) = nth (i - 1) rcons 0.
Proof. intros H. do 11 (destruct i as [|i]; [first [lia|reflexivity]|]). lia. Qed.
Lemma rcon_bytes i : bytes 4 (rcon i).
Proof. split; [reflexivity|]. unfold rcon. repeat (apply Forall_cons; [first [apply xpow_byte|unfold byte; lia]|]). apply Forall_nil. Qed.

Lemma next_word_bytes ws : words_ok ws -> (4 <= length ws)%nat -> bytes 4 (next_word ws).
Proof.
  intros H Hl. unfold next_word. apply bytes_xor; [apply nth_words; [exact H|lia]|].
  assert (B : bytes 4 (nth (length ws - 1) ws [])) by (apply nth_words; [exact H|lia]).
  destruct (Nat.eqb _ 0); [|exact B]. apply bytes_xor; [|apply rcon_bytes]. apply sub_bytes_bytes. apply (rot_bytes _ B).
Qed.
Lemma sub_rot x : sub_word (rot_word x) = rot_word (sub_word x).
Proof. destruct x; [reflexivity|]. unfold sub_word, rot_word. cbn [map]. now rewrite map_app. Qed.
Lemma arm_next_word_ok ws : words_ok ws -> (4 <= length ws < 44)%nat -> arm_next_word (map of_bytes ws) = of_bytes (next_word ws).
Proof.
  intros H Hl. unfold arm_next_word, next_word. rewrite map_length, !nth_of_bytes.
  assert (B1 : bytes 4 (nth (length ws - 1) ws [])) by (apply nth_words; [exact H|lia]).
  assert (B4 : bytes 4 (nth (length ws - 4) ws [])) by (apply nth_words; [exact H|lia]).
  destruct (Nat.eqb_spec (length ws mod 4) 0) as [Em|Em].
  - assert (S1 : bytes 4 (sub_word (nth (length ws - 1) ws []))) by (apply sub_bytes_bytes; apply B1).
    unfold xor_bytes. rewrite sub_rot, (of_bytes_lxor 4), (of_bytes_lxor 4); [|apply rot_bytes; exact S1|apply rcon_bytes|exact B4|].
    + rewrite arm_sub_word_ok, rotate_ok by assumption. rewrite rcons_at; [now rewrite Z.lxor_assoc|]. lia.
    + apply bytes_xor; [apply rot_bytes; exact S1|apply rcon_bytes].
  - unfold xor_bytes. now rewrite (of_bytes_lxor 4).
Qed.
Lemma arm_words_ok n : forall ws, words_ok ws -> (4 <= length ws)%nat -> (length ws + n <= 44)%nat ->
  arm_words n (map of_bytes ws) = map of_bytes (expand n ws).
Proof.
  induction n as [|n IH]; intros ws H H4 Hn; [reflexivity|]. cbn [arm_words expand]. rewrite arm_next_word_ok by (auto; lia).
  change [of_bytes (next_word ws)] with (map of_bytes [next_word ws]). rewrite <- map_app. apply IH.
  - apply Forall_app. split; [exact H|]. constructor; [now apply next_word_bytes|constructor].
  - rewrite app_length. lia.
  - rewrite app_length. cbn [length]. lia.
Qed.

Lemma expand_ok n : forall ws, words_ok ws -> (4 <= length ws)%nat -> words_ok (expand n ws) /\ length (expand n ws) = (length ws + n)%nat.
Proof.
  induction n as [|n IH]; intros ws H H4; cbn [expand]; [split; [exact H|lia]|].
  destruct (IH (ws ++ [next_word ws])) as [A B].
  - apply Forall_app. split; [exact H|]. constructor; [now apply next_word_bytes|constructor].
  - rewrite app_length. lia.
  - split; [exact A|]. rewrite B, app_length. cbn [length]. lia.
Qed.
Lemma skipn_twice {A} a : forall b (l : list A), skipn b (skipn a l) = skipn (a + b) l.
Proof. induction a as [|a IH]; intros b l; [reflexivity|]. destruct l as [|x l]; cbn [skipn Nat.add]; [apply skipn_nil|apply IH]. Qed.
Lemma registers_ok n : forall ws, words_ok ws -> registers n (map of_bytes ws) = map (fun r => concat (firstn 4 (skipn (4 * r) ws))) (seq 0 n).
Proof.
  induction n as [|n IH]; intros ws H; [reflexivity|]. cbn [registers seq map]. f_equal.
  - rewrite firstn_map, map_map. change (4 * 0)%nat with 0%nat. cbn [skipn].
    f_equal. rewrite <- (map_id (firstn 4 ws)) at 2. apply map_ext_in. intros x Hx. apply to_of_bytes.
    unfold words_ok in H. rewrite Forall_forall in H. apply H. rewrite <- (firstn_skipn 4 ws). apply in_or_app. now left.
  - rewrite skipn_map, IH.
    + rewrite <- seq_shift, map_map. apply map_ext. intros r. now rewrite skipn_twice, Nat.mul_succ_r, Nat.add_comm.
    + unfold words_ok in *. rewrite <- (firstn_skipn 4 ws) in H. now apply Forall_app in H.
Qed.
Local Transparent round_key.
Lemma key_words_ok k : bytes 16 k -> words_ok (key_quad k).
Proof. intros H. apply (key_quad_ok k H). Qed.
Lemma arm_keys key : arm_round_keys key = map (round_key (to_bytes 16 key)) (seq 0 11).
Proof.
  unfold arm_round_keys. pose proof (to_bytes_bytes 16 key) as Hk. set (k := to_bytes 16 key) in *. clearbody k.
  change (map (fun i => of_bytes (lane k i)) (seq 0 4)) with (map of_bytes (key_quad k)).
  pose proof (key_words_ok k Hk) as W. rewrite arm_words_ok; [|exact W|cbn; lia|cbn; lia].
  rewrite registers_ok; [|apply expand_ok; [exact W|cbn; lia]].
  apply map_ext. intros r. unfold round_key, key_schedule, key_quad, lane. reflexivity.
Qed.
Local Opaque round_key.

Lemma arm_rounds ks : Forall (bytes 16) ks -> forall d k0, bytes 16 d -> bytes 16 k0 ->
  map2 Z.lxor (fold_left (fun data key => vaesmcq (vaeseq data key)) (removelast (k0 :: ks)) d) (last (k0 :: ks) [])
  = fold_left full_round ks (map2 Z.lxor d k0).
Proof.
  induction 1 as [|k ks Hk _ IH]; intros d k0 Hd Hk0; [reflexivity|].
  change (removelast (k0 :: k :: ks)) with (k0 :: removelast (k :: ks)). change (last (k0 :: k :: ks) []) with (last (k :: ks) []).
  cbn [fold_left]. assert (B : bytes 16 (map2 Z.lxor d k0)) by now apply bytes_xor. rewrite IH.
  - unfold vaesmcq, vaeseq, full_round, add_round_key, xor_bytes. rewrite sub_shift by apply B. reflexivity.
  - unfold vaesmcq, vaeseq. apply mix_columns_bytes, sub_bytes_bytes. reflexivity.
  - exact Hk.
Qed.
Lemma arm_encrypt_ok key c : to_bytes 16 (arm_encrypt c (arm_round_keys key)) = cipher (to_bytes 16 key) (to_bytes 16 c).
Proof.
  rewrite arm_keys. pose proof (to_bytes_bytes 16 key) as Hk. pose proof (to_bytes_bytes 16 c) as Hc. unfold arm_encrypt.
  set (k := to_bytes 16 key) in *. set (m := to_bytes 16 c) in *. clearbody k m. 
  change (nth 10 (map (round_key k) (seq 0 11)) []) with (round_key k 10).
  change (nth 9 (map (round_key k) (seq 0 11)) []) with (last (round_key k 0 :: map (round_key k) (seq 1 9)) []).
  change (firstn 9 (map (round_key k) (seq 0 11))) with (removelast (round_key k 0 :: map (round_key k) (seq 1 9))).
  set (d := fold_left _ _ m). unfold veorq, vaeseq. 
  assert (E : map2 Z.lxor d (last (round_key k 0 :: map (round_key k) (seq 1 9)) []) = fold_left full_round (map (round_key k) (seq 1 9)) (map2 Z.lxor m (round_key k 0))).
  { apply arm_rounds; [apply round_keys_bytes; [exact Hk|lia]|exact Hc|apply round_key_bytes; [exact Hk|lia]]. }
  rewrite E. rewrite cipher_fold. unfold add_round_key, xor_bytes.
  assert (B : bytes 16 (fold_left full_round (map (round_key k) (seq 1 9)) (map2 Z.lxor m (round_key k 0)))).
  { apply fold_rounds_bytes; [apply round_keys_bytes; [exact Hk|lia]|]. apply bytes_xor; [exact Hc|apply round_key_bytes; [exact Hk|lia]]. }
  rewrite sub_shift by apply B. rewrite to_of_bytes; [reflexivity|].
  apply bytes_xor; [|apply round_key_bytes; [exact Hk|lia]]. apply shift_rows_bytes, sub_bytes_bytes. apply B.
Qed.

(** ** Injectivity *)
Lemma xor_inj k : forall a b, length a = length k -> length b = length k -> map2 Z.lxor a k = map2 Z.lxor b k -> a = b.
Proof.
  induction k as [|z k IH]; intros [|x a] [|y b] La Lb H; try discriminate; [reflexivity|].
  cbn [map2] in H. injection H as H1 H2. injection La as La. injection Lb as Lb. f_equal; [|auto].
  rewrite <- (Z.lxor_0_r x), <- (Z.lxor_0_r y), <- (Z.lxor_nilpotent z), <- !Z.lxor_assoc. congruence.
Qed.
Lemma shift_rows_inj a b : length a = 16%nat -> length b = 16%nat -> shift_rows a = shift_rows b -> a = b.
Proof. intros La Lb H. lists a La. lists b Lb. cbn in H. injection H as; subst. reflexivity. Qed.

Local Transparent sbox.
Definition sbox_table : list Z := Eval vm_compute in map sbox (zseq 0 256).
Lemma sbox_table_ok : map sbox (zseq 0 256) = sbox_table.
Proof. vm_compute. reflexivity. Qed.
Local Opaque sbox.
Lemma zseq_nth a n i : (i < n)%nat -> nth_error (zseq a n) i = Some (a + Z.of_nat i).
Proof. revert a i. induction n; intros a i H; [lia|]. destruct i; cbn [zseq nth_error]; [f_equal; lia|]. rewrite IHn by lia. f_equal. lia. Qed.
Lemma sbox_at b : byte b -> nth_error sbox_table (Z.to_nat b) = Some (sbox b).
Proof.
  intros H. unfold byte in H. rewrite <- sbox_table_ok. apply map_nth_error. rewrite zseq_nth by lia. f_equal. lia.
Qed.
Lemma sbox_nodup : NoDup sbox_table.
Proof.
  assert (H : (fix nd (l : list Z) : bool := match l with [] => true | x :: l' => negb (existsb (Z.eqb x) l') && nd l' end) sbox_table = true) by (vm_compute; reflexivity).
  revert H. generalize sbox_table. induction l as [|x l IH]; intros H; constructor.
  - apply andb_true_iff in H as [H _]. intros I. apply negb_true_iff in H. enough (existsb (Z.eqb x) l = true) by congruence.
    apply existsb_exists. exists x. split; [exact I|]. apply Z.eqb_refl.
  - apply IH. now apply andb_true_iff in H.
Qed.
Lemma sbox_inj x y : byte x -> byte y -> sbox x = sbox y -> x = y.
Proof.
  intros Hx Hy E. pose proof (sbox_at x Hx) as Ex. pose proof (sbox_at y Hy) as Ey. rewrite E, <- Ey in Ex.
  assert (Z.to_nat x = Z.to_nat y); [|unfold byte in *; lia].
  apply (proj1 (NoDup_nth_error sbox_table) sbox_nodup); [|exact Ex]. apply nth_error_Some. congruence.
Qed.
Lemma sub_bytes_inj n a b : bytes n a -> bytes n b -> sub_bytes a = sub_bytes b -> a = b.
Proof.
  intros [<- Fa] [L Fb]. revert b Fb L. induction Fa as [|x a Hx _ IH]; intros [|y b] Fb L H; try discriminate; [reflexivity|].
  cbn in H. injection H as H1 H2. injection L as L. inversion Fb; subst. f_equal; [now apply sbox_inj|auto].
Qed.

Lemma xtime_gmul_lin a n : forall x y, gmul_bits n a (Z.lxor x y) = Z.lxor (gmul_bits n a x) (gmul_bits n a y).
Proof.
  revert a. induction n as [|n IH]; intros a x y; [reflexivity|]. cbn [gmul_bits].
  rewrite <- !Z.div2_div, Z.div2_spec, !Z.div2_spec, Z.shiftr_lxor, IH.
  rewrite <- !Z.bit0_odd, Z.lxor_spec. destruct (Z.testbit x 0), (Z.testbit y 0); cbn [xorb]; xor_solve.
Qed.
Lemma gmul_lxor c x y : gmul c (Z.lxor x y) = Z.lxor (gmul c x) (gmul c y).
Proof. apply xtime_gmul_lin. Qed.

(** The inverse of MixColumns, 5.3.3. *)
Definition unmix (k0 k1 k2 k3 a0 a1 a2 a3 : Z) : Z :=
  Z.lxor (Z.lxor (gmul k0 a0) (gmul k1 a1)) (Z.lxor (gmul k2 a2) (gmul k3 a3)).
Definition byte_ok (f : Z -> bool) : bool := forallb f (zseq 0 256).
Lemma byte_okP f x : byte_ok f = true -> byte x -> f x = true.
Proof.
  intros H Hx. unfold byte_ok in H. rewrite forallb_forall in H. apply H. unfold byte in Hx.
  apply nth_error_In with (Z.to_nat x). rewrite zseq_nth by lia. f_equal. lia.
Qed.
Definition id_check (k0 k1 k2 k3 x : Z) : bool :=
  (Z.lxor (Z.lxor (gmul k0 (gmul 2 x)) (gmul k1 x)) (Z.lxor (gmul k2 x) (gmul k3 (gmul 3 x))) =? x) &&
  (Z.lxor (Z.lxor (gmul k0 (gmul 3 x)) (gmul k1 (gmul 2 x))) (Z.lxor (gmul k2 x) (gmul k3 x)) =? 0) &&
  (Z.lxor (Z.lxor (gmul k0 x) (gmul k1 (gmul 3 x))) (Z.lxor (gmul k2 (gmul 2 x)) (gmul k3 x)) =? 0) &&
  (Z.lxor (Z.lxor (gmul k0 x) (gmul k1 x)) (Z.lxor (gmul k2 (gmul 3 x)) (gmul k3 (gmul 2 x))) =? 0).
Lemma id_check_ok : byte_ok (id_check 14 11 13 9) = true.
Proof. vm_compute. reflexivity. Qed.
Lemma unmix_mix a0 a1 a2 a3 : byte a0 -> byte a1 -> byte a2 -> byte a3 ->
  unmix 14 11 13 9
    (Z.lxor (Z.lxor (gmul 2 a0) (gmul 3 a1)) (Z.lxor a2 a3))
    (Z.lxor (Z.lxor a0 (gmul 2 a1)) (Z.lxor (gmul 3 a2) a3))
    (Z.lxor (Z.lxor a0 a1) (Z.lxor (gmul 2 a2) (gmul 3 a3)))
    (Z.lxor (Z.lxor (gmul 3 a0) a1) (Z.lxor a2 (gmul 2 a3))) = a0.
Proof.
  intros H0 H1 H2 H3. unfold unmix. rewrite !gmul_lxor.
  pose proof (byte_okP _ a0 id_check_ok H0) as C0. pose proof (byte_okP _ a1 id_check_ok H1) as C1.
  pose proof (byte_okP _ a2 id_check_ok H2) as C2. pose proof (byte_okP _ a3 id_check_ok H3) as C3.
  unfold id_check in *. rewrite !andb_true_iff, !Z.eqb_eq in C0, C1, C2, C3.
  destruct C0 as [[[E0 _] _] _], C1 as [[[_ E1] _] _], C2 as [[_ E2] _], C3 as [_ E3].
  transitivity (Z.lxor (Z.lxor a0 0) (Z.lxor 0 0)); [|now rewrite !Z.lxor_0_r].
  match type of E0 with ?T = _ => transitivity (Z.lxor (Z.lxor T 0) (Z.lxor 0 0)); [|now rewrite E0] end.
  rewrite <- E1 at 1. rewrite <- E2 at 1. rewrite <- E3 at 1. clear.
  apply Z.bits_inj'. intros k _. rewrite !Z.lxor_spec. ring.
Qed.
Lemma mix_rot a : length a = 4%nat -> mix_column (rot_word a) = rot_word (mix_column a).
Proof.
  intros L. lists a L. cbn [rot_word app mix_column].
  repeat (apply (f_equal2 (@cons Z)); [apply Z.bits_inj'; intros k _; rewrite !Z.lxor_spec; ring|]). reflexivity.
Qed.
Lemma mix_first a b : bytes 4 a -> bytes 4 b -> mix_column a = mix_column b -> hd 0 a = hd 0 b.
Proof.
  intros [La Fa] [Lb Fb] H. lists a La. lists b Lb. rewrite !Forall_cons_iff in Fa, Fb.
  destruct Fa as (A0 & A1 & A2 & A3 & _), Fb as (B0 & B1 & B2 & B3 & _). cbn [mix_column] in H. injection H as E0 E1 E2 E3. cbn [hd].
  rewrite <- (unmix_mix z z0 z1 z2), <- (unmix_mix z3 z4 z5 z6) by assumption. now rewrite E0, E1, E2, E3.
Qed.
Lemma mix_column_inj a b : bytes 4 a -> bytes 4 b -> mix_column a = mix_column b -> a = b.
Proof.
  intros Ha Hb H.
  assert (R : forall a b, bytes 4 a -> bytes 4 b -> mix_column a = mix_column b -> mix_column (rot_word a) = mix_column (rot_word b)).
  { clear. intros a b Ha Hb H. rewrite !mix_rot by (apply Ha || apply Hb). now rewrite H. }
  pose proof (rot_bytes _ Ha) as Ha1. pose proof (rot_bytes _ Ha1) as Ha2. pose proof (rot_bytes _ Ha2) as Ha3.
  pose proof (rot_bytes _ Hb) as Hb1. pose proof (rot_bytes _ Hb1) as Hb2. pose proof (rot_bytes _ Hb2) as Hb3.
  pose proof (R _ _ Ha Hb H) as H1. pose proof (R _ _ Ha1 Hb1 H1) as H2. pose proof (R _ _ Ha2 Hb2 H2) as H3.
  apply mix_first in H, H1, H2, H3; try assumption. destruct Ha as [La _], Hb as [Lb _]. lists a La. lists b Lb.
  cbn in H, H1, H2, H3. subst. reflexivity.
Qed.
Lemma mix_columns_inj a b : bytes 16 a -> bytes 16 b -> mix_columns a = mix_columns b -> a = b.
Proof.
  intros Ha Hb H.
  pose proof (proj2 (key_quad_ok a Ha)) as Qa. pose proof (proj2 (key_quad_ok b Hb)) as Qb.
  rewrite <- (key_quad_concat a Ha), <- (key_quad_concat b Hb). unfold key_quad in *. rewrite !Forall_cons_iff in Qa, Qb.
  destruct Qa as (A0 & A1 & A2 & A3 & _), Qb as (B0 & B1 & B2 & B3 & _).
  unfold mix_columns in H. cbn [seq flat_map] in H. unfold lane in *.
  assert (S : forall (x y x' y' : list Z), length x = length x' -> x ++ y = x' ++ y' -> x = x' /\ y = y').
  { clear. induction x as [|u x IH]; intros y [|u' x'] y' L E; try discriminate; [auto|]. cbn in E. injection E as -> E. injection L as L.
    destruct (IH _ _ _ L E) as [-> ->]. auto. }
  apply S in H as [E0 H]; [|now rewrite !(fun c P => proj1 (mix_column_bytes c P))].
  apply S in H as [E1 H]; [|now rewrite !(fun c P => proj1 (mix_column_bytes c P))].
  apply S in H as [E2 H]; [|now rewrite !(fun c P => proj1 (mix_column_bytes c P))].
  rewrite !app_nil_r in H.
  apply mix_column_inj in E0, E1, E2, H; try assumption. now rewrite E0, E1, E2, H.
Qed.

Lemma full_round_inj k a b : bytes 16 k -> bytes 16 a -> bytes 16 b -> full_round a k = full_round b k -> a = b.
Proof.
  intros Hk Ha Hb H. unfold full_round, add_round_key, xor_bytes in H.
  assert (Sa : bytes 16 (sub_bytes a)) by (apply sub_bytes_bytes; apply Ha). assert (Sb : bytes 16 (sub_bytes b)) by (apply sub_bytes_bytes; apply Hb).
  apply xor_inj in H; [|rewrite mix_columns_length; [symmetry; apply Hk|reflexivity]..].
  apply mix_columns_inj in H; [|now apply shift_rows_bytes..]. apply shift_rows_inj in H; [|apply Sa|apply Sb].
  now apply (sub_bytes_inj 16) in H.
Qed.
Lemma fold_rounds_inj ks : Forall (bytes 16) ks -> forall a b, bytes 16 a -> bytes 16 b ->
  fold_left full_round ks a = fold_left full_round ks b -> a = b.
Proof.
  induction 1 as [|k ks Hk _ IH]; intros a b Ha Hb H; [exact H|]. cbn [fold_left] in H.
  apply (full_round_inj k); auto. apply IH; auto using full_round_bytes.
Qed.
Lemma cipher_inj key a b : bytes 16 key -> bytes 16 a -> bytes 16 b -> cipher key a = cipher key b -> a = b.
Proof.
  intros Hk Ha Hb H. rewrite !cipher_fold in H. unfold add_round_key, xor_bytes in H.
  pose proof (round_keys_bytes key 1 9 Hk ltac:(lia)) as Hks. pose proof (round_key_bytes key 0 Hk ltac:(lia)) as H0.
  pose proof (round_key_bytes key 10 Hk ltac:(lia)) as H10.
  assert (Xa : bytes 16 (map2 Z.lxor a (round_key key 0))) by now apply bytes_xor.
  assert (Xb : bytes 16 (map2 Z.lxor b (round_key key 0))) by now apply bytes_xor.
  pose proof (fold_rounds_bytes _ Hks _ Xa) as Fa. pose proof (fold_rounds_bytes _ Hks _ Xb) as Fb.
  pose proof (sub_bytes_bytes 16 _ (proj1 Fa)) as Sa. pose proof (sub_bytes_bytes 16 _ (proj1 Fb)) as Sb.
  apply xor_inj in H; [|symmetry; apply H10..]. apply shift_rows_inj in H; [|apply Sa|apply Sb].
  apply (sub_bytes_inj 16) in H; try assumption. apply fold_rounds_inj in H; try assumption.
  apply xor_inj in H; [exact H| |]; [rewrite (proj1 Ha)|rewrite (proj1 Hb)]; symmetry; apply H0.
Qed.
