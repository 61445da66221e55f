(** * C63: the parts of the scratch memory that the blocks of the bootstrap kernels use *)
From Verif Require Import Base CudaScratchModel.
Local Open Scope Z_scope.

(** Two regions with no byte in common; a region inside the memory: [device] bytes in pbs_buffer, [shared] bytes in the shared memory of a block *)
Definition disjoint (r s : region) : Prop := at_ r <> at_ s \/ start r + bytes r <= start s \/ start s + bytes s <= start r.
Definition inside (device shared : Z) (r : region) : Prop := 0 <= start r /\ start r + bytes r <= match at_ r with Device => device | Shared _ => shared end.
Definition aligned (n : Z) (r : region) : Prop := start r mod n = 0.
(** Different buffers of a block, and buffers of different blocks, have no byte in common. *)
Definition separate (blocks : Z) (regions : Z -> list region) : Prop :=
  forall i j x y r s, 0 <= i < blocks -> 0 <= j < blocks -> nth_error (regions i) x = Some r -> nth_error (regions j) y = Some s -> i <> j \/ x <> y -> disjoint r s.

(** The supported sizes: words of 4 or 8 bytes, polynomials of a multiple of 4 coefficients *)
Definition sizes_ok (sizeof k N : Z) : Prop := (sizeof = 4 \/ sizeof = 8) /\ 0 <= k /\ 0 < N /\ N mod 4 = 0.

Lemma small64 x : 0 <= x < 2 ^ 64 -> u64 x = x. Proof. apply Z.mod_small. Qed.
Lemma small32 x : 0 <= x < 2 ^ 32 -> u32 x = x. Proof. apply Z.mod_small. Qed.
Lemma times_le a b c : 0 <= c -> a <= b -> a * c <= b * c. Proof. intros. apply Z.mul_le_mono_nonneg_r; assumption. Qed.

Lemma some_inj (a b : region) : Some a = Some b -> a = b. Proof. congruence. Qed.

Section Amortized.
Context (sizeof k N count : Z).
Hypothesis (Hs : sizes_ok sizeof k N) (Hc : 0 < count) (Hb : count * ((k + 1) * N) < 2 ^ 32).
Notation M := ((k + 1) * N).
Notation full := (2 * (sizeof * M) + 8 * N + 8 * M).
Lemma facts : (sizeof = 4 \/ sizeof = 8) /\ 0 < N /\ N <= M /\ M <= count * M /\ M < 2 ^ 32 /\ N mod 4 = 0 /\ M mod 4 = 0.
Proof.
  destruct Hs as (Hz & Hk & HN & H4). assert (E1 : N <= M) by nia. assert (E2 : M <= count * M) by nia.
  split; [exact Hz|]. split; [exact HN|]. split; [exact E1|]. split; [exact E2|]. split; [lia|]. split; [exact H4|]. rewrite Z.mul_mod, H4, Z.mul_0_r by lia. reflexivity.
Qed.
Lemma full_eq : amortized_full_sm sizeof k N = full.
Proof.
  destruct facts as (Hz & HN & E1 & E2 & E3 & H4 & HM). unfold amortized_full_sm. replace (sizeof * N * (k + 1)) with (sizeof * M) by ring.
  rewrite (small64 (16 * N)) by lia. replace (16 * N) with (8 * N * 2) by ring. rewrite Z.div_mul by lia. replace (8 * N * (k + 1)) with (8 * M) by ring. set (m := M) in *. clearbody m.
  destruct Hz as [-> | ->]; [rewrite (small64 (4 * m)) by lia|]; rewrite (small64 (8 * m)) by lia; [rewrite (small64 (4 * m + 4 * m)) by lia|rewrite (small64 (8 * m + 8 * m)) by lia]; rewrite small64 by lia; ring.
Qed.
Lemma partial_eq : amortized_partial_sm N = 8 * N.
Proof. destruct facts as (Hz & HN & E1 & E2 & E3 & H4 & HM). unfold amortized_partial_sm. rewrite small64 by lia. replace (16 * N) with (8 * N * 2) by ring. apply Z.div_mul. lia. Qed.
Lemma full_bound : 0 < full /\ full <= 32 * M.
Proof. destruct facts as (Hz & HN & E1 & E2 & E3 & H4 & HM). set (m := M) in *. clearbody m. destruct Hz as [-> | ->]; lia. Qed.
Definition per (m : smd) : Z := match m with NOSM => full | PARTIALSM => full - 8 * N | FULLSM => 0 end.
Lemma per_eq m : amortized_per_sample sizeof k N m = per m.
Proof.
  destruct facts as (Hz & HN & E1 & E2 & E3 & H4 & HM). pose proof full_bound as [F1 F2]. unfold amortized_per_sample, per. rewrite full_eq, partial_eq. destruct m; [reflexivity| |reflexivity]. apply small64.
  set (m := M) in *. clearbody m. destruct Hz as [-> | ->]; lia.
Qed.
Lemma per_bound m : 0 <= per m /\ per m * count < 2 ^ 63.
Proof.
  destruct facts as (Hz & HN & E1 & E2 & E3 & H4 & HM). pose proof full_bound as [F1 F2]. assert (P : 0 <= per m <= 32 * M). { unfold per. set (m0 := M) in *. clearbody m0. destruct Hz as [-> | ->]; destruct m; lia. }
  split; [apply P|]. pose proof (times_le (per m) (32 * M) count ltac:(lia) (proj2 P)) as Q. replace (32 * M * count) with (32 * (count * M)) in Q by ring. lia.
Qed.
Lemma size_eq max : let m := choose_smd max (amortized_partial_sm N) (amortized_full_sm sizeof k N) in
  amortized_buffer_size sizeof k N count max = per m * count.
Proof.
  cbv zeta. pose proof (fun m => per_bound m) as PB. pose proof (per_eq PARTIALSM) as PE. cbn [amortized_per_sample] in PE.
  assert (Mod : forall m, (per m * count) mod 16 = 0).
  { intros m. destruct facts as (Hz & HN & E1 & E2 & E3 & H4 & HM). rewrite Z.mul_mod by lia. assert (E : per m mod 16 = 0); [|rewrite E; reflexivity].
    unfold per. set (m0 := M) in *. clearbody m0. destruct Hz as [-> | ->]; destruct m; lia. }
  unfold amortized_buffer_size, choose_smd. cbv zeta. rewrite PE. destruct (max <? amortized_partial_sm N).
  - pose proof (PB NOSM) as [P1 P2]. rewrite full_eq. fold (per NOSM). assert (0 <= per NOSM * count) by (apply Z.mul_nonneg_nonneg; lia). rewrite (small64 (per NOSM * count)) by lia. rewrite Mod, Z.add_0_r. apply small64. lia.
  - destruct (max <? amortized_full_sm sizeof k N); [|reflexivity]. pose proof (PB PARTIALSM) as [P1 P2]. assert (0 <= per PARTIALSM * count) by (apply Z.mul_nonneg_nonneg; lia).
    rewrite (small64 (per PARTIALSM * count)) by lia. rewrite Mod, Z.add_0_r. apply small64. lia.
Qed.
Lemma regions_eq m i : 0 <= i < count -> amortized_regions sizeof k N m i =
  let sel := if smd_eqb m FULLSM then Shared i else Device in let base := if smd_eqb m FULLSM then 0 else i * per m in
  [Region sel base (sizeof * M); Region sel (base + sizeof * M) (sizeof * M); Region sel (base + 2 * (sizeof * M)) (8 * M);
   if smd_eqb m PARTIALSM then Region (Shared i) 0 (8 * N) else Region sel (base + 2 * (sizeof * M) + 8 * M) (8 * N)].
Proof.
  intros Hi. destruct facts as (Hz & HN & E1 & E2 & E3 & H4 & HM). pose proof (per_bound m) as [P1 P2].
  assert (Eb : u64 (i * per m) = i * per m). { apply small64. split; [apply Z.mul_nonneg_nonneg; lia|]. pose proof (times_le i count (per m) P1 ltac:(lia)). lia. }
  assert (A1 : 16 * (M / (16 / sizeof)) = sizeof * M). { set (m0 := M) in *. clearbody m0. clear - Hz HM. destruct Hz as [-> | ->]; [change (16 / 4) with 4|change (16 / 8) with 2]; lia. }
  assert (A2 : 16 * (M / 2) = 8 * M) by (set (m0 := M) in *; clearbody m0; clear - HM; lia).
  assert (A3 : 16 * (N / 2) = 8 * N) by (clear - H4; lia).
  assert (A4 : 16 * ((k + 1) * (N / 2)) = 8 * M). { replace (16 * ((k + 1) * (N / 2))) with ((k + 1) * (16 * (N / 2))) by ring. rewrite A3. ring. }
  unfold amortized_regions. cbv zeta. rewrite per_eq, Eb, (small32 M) by lia. rewrite A1, A2, A3, A4. unfold shift, used.
  assert (A5 : forall x, x + sizeof * M + sizeof * M = x + 2 * (sizeof * M)) by (intros; ring).
  destruct m; cbn [smd_eqb fst snd]; rewrite !A5; reflexivity.
Qed.

(** In the three modes, the buffers of the blocks are inside the memory that is allocated for them, aligned, and have no byte in common. *)
Theorem C63_amortized_layout : forall max, let m := choose_smd max (amortized_partial_sm N) (amortized_full_sm sizeof k N) in let regions := amortized_regions sizeof k N m in
  separate count regions /\
  (forall i, 0 <= i < count -> Forall (inside (amortized_buffer_size sizeof k N count max) (amortized_shared sizeof k N m)) (regions i) /\ Forall (aligned 16) (regions i) /\
     map bytes (regions i) = [sizeof * ((k + 1) * N); sizeof * ((k + 1) * N); 16 * ((k + 1) * (N / 2)); 16 * (N / 2)]) /\
  amortized_shared sizeof k N m <= Z.max 0 max.
Proof.
  intros max. cbv zeta. rewrite size_eq. set (m := choose_smd max (amortized_partial_sm N) (amortized_full_sm sizeof k N)).
  destruct facts as (Hz & HN & E1 & E2 & E3 & H4 & HM). pose proof (per_bound m) as [P1 P2].
  assert (Sh : amortized_shared sizeof k N m = match m with NOSM => 0 | PARTIALSM => 8 * N | FULLSM => full end) by (unfold amortized_shared; rewrite full_eq, partial_eq; reflexivity).
  assert (HsM : 0 < sizeof * M) by (clear - Hz HN E1; destruct Hz as [-> | ->]; lia).
  assert (Step : forall i j, i < j -> i * per m + per m <= j * per m) by (intros i j Hij; pose proof (times_le (i + 1) j (per m) P1 ltac:(lia)); lia).
  split; [|split].
  - intros i j x y r s Hi Hj Hr Hs0 Hd. rewrite regions_eq in Hr, Hs0 by assumption.
    assert (Cases : i = j \/ i < j \/ j < i) by lia.
    assert (Bounds : i = j \/ i <> j /\ (i * per m + per m <= j * per m \/ j * per m + per m <= i * per m)) by (destruct Cases as [C|[C|C]]; [left; exact C|right; split; [lia|left; apply Step, C]|right; split; [lia|right; apply Step, C]]).
    clear Cases Step. unfold per in *. set (ip := i * _) in *. set (jp := j * _) in *.
    assert (Same : i = j -> ip = jp) by (intros ->; reflexivity).
    clearbody ip jp. set (sM := sizeof * M) in *. set (m0 := M) in *. clearbody sM m0. clear Sh P2 Hz Hs Hb.
    destruct m; cbn [smd_eqb] in Hr, Hs0; destruct x as [|[|[|[|x]]]]; try (destruct x; discriminate Hr); destruct y as [|[|[|[|y]]]]; try (destruct y; discriminate Hs0);
      cbn [nth_error] in Hr, Hs0; apply some_inj in Hr; apply some_inj in Hs0; subst r s; unfold disjoint; cbn [at_ start bytes];
      first [left; discriminate|destruct Bounds as [B|[B1 B]]; [specialize (Same B); first [right; lia|exfalso; lia]|first [left; injection 1; exact B1|right; lia]]].
  - intros i Hi. rewrite regions_eq by assumption. rewrite Sh. cbv zeta.
    assert (B0 : 0 <= i * per m) by (apply Z.mul_nonneg_nonneg; lia). assert (B1 : i * per m + per m <= per m * count). { rewrite (Z.mul_comm (per m)). pose proof (times_le (i + 1) count (per m) P1 ltac:(lia)); lia. }
    assert (Bm : (i * per m) mod 16 = 0). { rewrite Z.mul_mod by lia. assert (E : per m mod 16 = 0); [|rewrite E, Z.mul_0_r; reflexivity]. unfold per. clear - Hz HM H4. set (m0 := M) in *. clearbody m0. destruct Hz as [-> | ->]; destruct m; lia. }
    assert (A3 : 16 * (N / 2) = 8 * N) by (clear - H4; lia).
    assert (A4 : 16 * ((k + 1) * (N / 2)) = 8 * M). { replace (16 * ((k + 1) * (N / 2))) with ((k + 1) * (16 * (N / 2))) by ring. rewrite A3. ring. }
    rewrite A3, A4. assert (Mm : (sizeof * M) mod 16 = 0) by (clear - Hz HM; set (m0 := M) in *; clearbody m0; destruct Hz as [-> | ->]; lia).
    assert (Mn : (8 * M) mod 16 = 0) by (clear - HM; set (m0 := M) in *; clearbody m0; lia).
    clear Step Sh P2. unfold per in *. set (ip := i * _) in *. set (pc := _ * count) in *. clearbody ip pc. set (sM := sizeof * M) in *. set (m0 := M) in *. clearbody sM m0. clear Hz Hs Hb.
    destruct m; cbn [smd_eqb]; (split; [repeat apply Forall_cons; try apply Forall_nil; unfold inside; cbn [at_ start bytes]; lia|]; split; [repeat apply Forall_cons; try apply Forall_nil; unfold aligned; cbn [start]; clear - Bm Mm Mn; lia|reflexivity]).
  - rewrite Sh. subst m. unfold choose_smd. rewrite partial_eq, full_eq. destruct (Z.ltb_spec max (8 * N)); [lia|]. destruct (Z.ltb_spec max full); lia.
Qed.
End Amortized.
Print Assumptions C63_amortized_layout.

Section LowLatency.
Context (sizeof k N l count : Z).
Hypothesis (Hs : sizes_ok sizeof k N) (Hl : 0 < l) (Hc : 0 < count) (Hb : (k + 1) * l * count * N < 2 ^ 32).
Notation G := ((k + 1) * l * count).
Notation lfull := (2 * (sizeof * N) + 8 * N).
Lemma lfacts : (sizeof = 4 \/ sizeof = 8) /\ 0 < N /\ 0 < G /\ N <= G * N /\ G * N < 2 ^ 32 /\ N mod 4 = 0 /\ 0 < k + 1.
Proof.
  destruct Hs as (Hz & Hk & HN & H4). assert (E0 : 0 < (k + 1) * l) by (apply Z.mul_pos_pos; lia). assert (E1 : 0 < G) by (apply Z.mul_pos_pos; lia). assert (E2 : N <= G * N) by nia.
  repeat (split; [assumption||lia|]). lia.
Qed.
Lemma lpartial_eq : low_latency_partial_sm N = 8 * N.
Proof. destruct lfacts as (Hz & HN & E1 & E2 & E3 & H4 & Hk). unfold low_latency_partial_sm. rewrite small64 by lia. replace (16 * N) with (8 * N * 2) by ring. apply Z.div_mul. lia. Qed.
Lemma lfull_eq : low_latency_full_sm sizeof N = lfull.
Proof.
  destruct lfacts as (Hz & HN & E1 & E2 & E3 & H4 & Hk). unfold low_latency_full_sm. pose proof lpartial_eq as P. unfold low_latency_partial_sm in P. rewrite P. clear P.
  destruct Hz as [-> | ->]; [rewrite (small64 (4 * N)) by lia|rewrite (small64 (8 * N)) by lia]; rewrite small64 by lia; ring.
Qed.
Definition lper (m : smd) : Z := match m with NOSM => lfull | PARTIALSM => 2 * (sizeof * N) | FULLSM => 0 end.
Lemma lper_eq m : low_latency_per_block sizeof N m = lper m.
Proof.
  destruct lfacts as (Hz & HN & E1 & E2 & E3 & H4 & Hk). unfold low_latency_per_block, lper. rewrite lfull_eq, lpartial_eq. destruct m; [reflexivity| |reflexivity]. rewrite small64; [ring|].
  destruct Hz as [-> | ->]; lia.
Qed.
Lemma lper_bound m : 0 <= lper m /\ lper m * G <= 24 * (G * N) /\ lper m mod 16 = 0.
Proof.
  destruct lfacts as (Hz & HN & E1 & E2 & E3 & H4 & Hk). assert (P : 0 <= lper m <= 24 * N /\ lper m mod 16 = 0) by (unfold lper; clear - Hz HN H4; destruct Hz as [-> | ->]; destruct m; lia).
  destruct P as [[P1 P2] P3]. split; [exact P1|]. split; [|exact P3]. pose proof (times_le (lper m) (24 * N) G ltac:(lia) P2) as Q. replace (24 * N * G) with (24 * (G * N)) in Q by ring. exact Q.
Qed.
Lemma join_eq : join_length k N l count = G * N / 2.
Proof.
  destruct lfacts as (Hz & HN & E1 & E2 & E3 & H4 & Hk). unfold join_length. destruct Hs as (_ & Hk0 & _).
  assert (A : 0 <= (k + 1) * l) by (apply Z.mul_nonneg_nonneg; lia). assert (A1 : (k + 1) * l <= G) by nia. assert (A2 : G <= G * N) by nia.
  rewrite (small32 ((k + 1) * l)) by lia. rewrite (small32 G) by lia. rewrite (small32 (G * N)) by lia. reflexivity.
Qed.
Lemma lsize_eq max : let m := choose_smd max (low_latency_partial_sm N) (low_latency_full_sm sizeof N) in
  low_latency_buffer_size sizeof k N l count max = lper m * G + 8 * (G * N) /\ join_start sizeof k N l count max = lper m * G.
Proof.
  cbv zeta. destruct lfacts as (Hz & HN & E1 & E2 & E3 & H4 & Hk). pose proof (lper_eq PARTIALSM) as PE. cbn [low_latency_per_block] in PE.
  assert (J : G * N / 2 * 16 = 8 * (G * N)). { assert (E : (G * N) mod 4 = 0) by (rewrite Z.mul_mod, H4, Z.mul_0_r by lia; reflexivity). set (j := G * N) in *. clearbody j. clear - E. lia. }
  assert (K : forall m d, d = lper m * G -> let buffer_size := u64 (u64 d + G * N / 2 * 16) in u64 (buffer_size + buffer_size mod 16) = lper m * G + 8 * (G * N)).
  { intros m d ->. cbv zeta. pose proof (lper_bound m) as (P1 & P2 & P3). assert (0 <= lper m * G) by (apply Z.mul_nonneg_nonneg; lia).
    assert (E : (lper m * G + 8 * (G * N)) mod 16 = 0). { rewrite Z.add_mod, Z.mul_mod, P3, Z.mul_0_l by lia. rewrite <- J, Z.mod_mul by lia. reflexivity. }
    rewrite J. set (gn := G * N) in *. set (pg := lper m * G) in *. clearbody pg gn. rewrite (small64 pg) by lia. rewrite (small64 (pg + 8 * gn)) by lia. rewrite E, Z.add_0_r. apply small64. lia. }
  assert (S : low_latency_buffer_size sizeof k N l count max = lper (choose_smd max (low_latency_partial_sm N) (low_latency_full_sm sizeof N)) * G + 8 * (G * N)).
  { unfold low_latency_buffer_size, choose_smd. cbv zeta. rewrite join_eq, PE. destruct (max <? low_latency_partial_sm N); [|destruct (max <? low_latency_full_sm sizeof N)].
    - rewrite lfull_eq. apply K. unfold lper. ring.
    - apply K. ring.
    - apply (K FULLSM 0). reflexivity. }
  split; [exact S|]. unfold join_start. rewrite S, join_eq. set (m := choose_smd _ _ _). pose proof (lper_bound m) as (P1 & P2 & P3).
  assert (E : lper m * G = 16 * (lper m / 16 * G)). { assert (E : lper m = 16 * (lper m / 16)) by (set (x := lper m) in *; clearbody x; clear - P3; lia). rewrite E at 1. ring. }
  rewrite E. replace (16 * (lper m / 16 * G) + 8 * (G * N)) with ((lper m / 16 * G + G * N / 2) * 16) by (rewrite <- J; ring). rewrite Z.div_mul by lia. ring.
Qed.
Lemma lregions_eq m i : 0 <= i < G -> low_latency_regions sizeof N m i =
  let sel := if smd_eqb m FULLSM then Shared i else Device in let base := if smd_eqb m FULLSM then 0 else i * lper m in
  [if smd_eqb m PARTIALSM then Region (Shared i) 0 (8 * N) else Region sel base (8 * N); Region sel (base + 8 * N) (sizeof * N); Region sel (base + 8 * N + sizeof * N) (sizeof * N)].
Proof.
  intros Hi. destruct lfacts as (Hz & HN & E1 & E2 & E3 & H4 & Hk). pose proof (lper_bound m) as (P1 & P2 & P3).
  assert (Eb : u64 (i * lper m) = i * lper m). { apply small64. split; [apply Z.mul_nonneg_nonneg; lia|]. pose proof (times_le i G (lper m) P1 ltac:(lia)). lia. }
  assert (A1 : sizeof * (u64 (16 * N) / 2 / sizeof) = 8 * N). { rewrite small64 by lia. clear - Hz H4. destruct Hz as [-> | ->]; lia. }
  assert (A3 : 16 * (N / 2) = 8 * N) by (clear - H4; lia).
  unfold low_latency_regions. cbv zeta. rewrite lper_eq, Eb, A1, A3. unfold shift, used. destruct m; reflexivity.
Qed.
(** The polynomials of the join buffer *)
Notation slot z level p := (((z * l + level) * (k + 1) + p)).
Lemma slot_bound z level p : 0 <= z < count -> 0 <= level < l -> 0 <= p <= k -> 0 <= slot z level p < G.
Proof.
  intros Hz0 Hl0 Hp. destruct lfacts as (Hz & HN & E1 & E2 & E3 & H4 & Hk). assert (A : 0 <= z * l + level <= count * l - 1). { split; [assert (0 <= z * l) by (apply Z.mul_nonneg_nonneg; lia); lia|]. pose proof (times_le (z + 1) count l ltac:(lia) ltac:(lia)). lia. }
  split; [assert (0 <= (z * l + level) * (k + 1)) by (apply Z.mul_nonneg_nonneg; lia); lia|]. pose proof (times_le (z * l + level) (count * l - 1) (k + 1) ltac:(lia) ltac:(lia)) as Q.
  replace G with ((count * l - 1) * (k + 1) + (k + 1)) by ring. lia.
Qed.
Lemma slot_inj z level p z' level' p' : 0 <= level < l -> 0 <= level' < l -> 0 <= p <= k -> 0 <= p' <= k -> slot z level p = slot z' level' p' -> z = z' /\ level = level' /\ p = p'.
Proof.
  intros H1 H2 H3 H4 E. destruct (Z.div_mod_unique (k + 1) (z * l + level) (z' * l + level') p p') as [E1 E2]; [left; lia|left; lia|lia|]. destruct (Z.div_mod_unique l z z' level level') as [E3 E4]; [left; lia|left; lia|lia|]. auto.
Qed.
Lemma join_region_eq max z level p : 0 <= z < count -> 0 <= level < l -> 0 <= p <= k ->
  join_region sizeof k N l count max z level p = Region Device (join_start sizeof k N l count max + slot z level p * (8 * N)) (8 * N).
Proof.
  intros Hz0 Hl0 Hp. destruct lfacts as (Hz & HN & E1 & E2 & E3 & H4 & Hk). pose proof (slot_bound z level p Hz0 Hl0 Hp) as SB.
  assert (B1 : 0 <= z * l <= slot z level p). { assert (0 <= z * l) by (apply Z.mul_nonneg_nonneg; lia). assert (z * l + level <= (z * l + level) * (k + 1)) by nia. lia. }
  assert (B2 : 0 <= z * l * (k + 1) <= slot z level p). { split; [apply Z.mul_nonneg_nonneg; lia|]. pose proof (times_le (z * l) (z * l + level) (k + 1) ltac:(lia) ltac:(lia)). lia. }
  assert (B3 : 0 <= level * (k + 1) <= slot z level p). { split; [apply Z.mul_nonneg_nonneg; lia|]. pose proof (times_le level (z * l + level) (k + 1) ltac:(lia) ltac:(lia)). lia. }
  assert (B4 : 0 <= p <= slot z level p). { split; [lia|]. assert (0 <= (z * l + level) * (k + 1)) by (apply Z.mul_nonneg_nonneg; lia). lia. }
  assert (Sm : forall x, 0 <= x <= slot z level p -> 0 <= x * N < 2 ^ 32). { intros x Hx. split; [apply Z.mul_nonneg_nonneg; lia|]. pose proof (times_le x G N ltac:(lia) ltac:(lia)). lia. }
  assert (GN : G <= G * N) by nia. assert (Half : forall x, x * N / 2 = x * (N / 2)) by (intros x; rewrite Z.divide_div_mul_exact; [reflexivity|lia|apply Z.mod_divide; [lia|]; clear - H4; lia]).
  unfold join_region. rewrite (small32 (z * l)) by lia. rewrite (small32 (z * l * (k + 1))) by lia. rewrite (small32 (z * l * (k + 1) * N)) by (apply Sm, B2). rewrite (small32 (level * (k + 1))) by lia. rewrite (small32 (level * (k + 1) * N)) by (apply Sm, B3). rewrite (small32 (p * N)) by (apply Sm, B4).
  rewrite !Half. assert (A3 : 16 * (N / 2) = 8 * N) by (clear - H4; lia). rewrite A3. f_equal. f_equal. rewrite <- A3. ring.
Qed.

(** Without shared memory, or with all buffers in shared memory, the buffers of the blocks are inside the memory that is allocated for them, aligned, and
    have no byte in common, with each other or with the join buffer. *)
Theorem C63_low_latency_layout : forall max, let m := choose_smd max (low_latency_partial_sm N) (low_latency_full_sm sizeof N) in let regions := low_latency_regions sizeof N m in
  m <> PARTIALSM ->
  separate G regions /\
  (forall i, 0 <= i < G -> Forall (inside (low_latency_buffer_size sizeof k N l count max) (low_latency_shared sizeof N m)) (regions i) /\ Forall (aligned 16) (regions i) /\
     map bytes (regions i) = [16 * (N / 2); sizeof * N; sizeof * N] /\
     forall z level p, 0 <= z < count -> 0 <= level < l -> 0 <= p <= k -> Forall (disjoint (join_region sizeof k N l count max z level p)) (regions i)) /\
  low_latency_shared sizeof N m <= Z.max 0 max.
Proof.
  intros max. cbv zeta. set (m := choose_smd max (low_latency_partial_sm N) (low_latency_full_sm sizeof N)). intros Hm. destruct (lsize_eq max) as [SE JE]. fold m in SE, JE.
  destruct lfacts as (Hz & HN & E1 & E2 & E3 & H4 & Hk). pose proof (lper_bound m) as (P1 & P2 & P3).
  assert (Sh : low_latency_shared sizeof N m = match m with NOSM => 0 | PARTIALSM => 8 * N | FULLSM => lfull end) by (unfold low_latency_shared; rewrite lfull_eq, lpartial_eq; reflexivity).
  assert (HsN : 0 < sizeof * N) by (clear - Hz HN; destruct Hz as [-> | ->]; lia).
  assert (Step : forall i j, i < j -> i * lper m + lper m <= j * lper m) by (intros i j Hij; pose proof (times_le (i + 1) j (lper m) P1 ltac:(lia)); lia).
  split; [|split].
  - intros i j x y r s Hi Hj Hr Hs0 Hd. rewrite lregions_eq in Hr, Hs0 by assumption.
    assert (Cases : i = j \/ i < j \/ j < i) by lia.
    assert (Bounds : i = j \/ i <> j /\ (i * lper m + lper m <= j * lper m \/ j * lper m + lper m <= i * lper m)) by (destruct Cases as [C|[C|C]]; [left; exact C|right; split; [lia|left; apply Step, C]|right; split; [lia|right; apply Step, C]]).
    clear Cases Step SE JE. unfold lper in *. set (ip := i * _) in *. set (jp := j * _) in *.
    assert (Same : i = j -> ip = jp) by (intros ->; reflexivity).
    clearbody ip jp. set (sN := sizeof * N) in *. clearbody sN. clear Sh P2 Hz Hs Hb.
    destruct m; [| contradiction Hm; reflexivity |]; cbn [smd_eqb] in Hr, Hs0; destruct x as [|[|[|x]]]; try (destruct x; discriminate Hr); destruct y as [|[|[|y]]]; try (destruct y; discriminate Hs0);
      cbn [nth_error] in Hr, Hs0; apply some_inj in Hr; apply some_inj in Hs0; subst r s; unfold disjoint; cbn [at_ start bytes];
      first [left; discriminate|destruct Bounds as [B|[B1 B]]; [specialize (Same B); first [right; lia|exfalso; lia]|first [left; injection 1; exact B1|right; lia]]].
  - intros i Hi. rewrite lregions_eq by assumption. rewrite Sh, SE. cbv zeta.
    assert (B0 : 0 <= i * lper m) by (apply Z.mul_nonneg_nonneg; lia). assert (B1 : i * lper m + lper m <= lper m * G) by (pose proof (times_le (i + 1) G (lper m) P1 ltac:(lia)); lia).
    assert (Bm : (i * lper m) mod 16 = 0) by (rewrite Z.mul_mod, P3, Z.mul_0_r by lia; reflexivity).
    assert (A3 : 16 * (N / 2) = 8 * N) by (clear - H4; lia). rewrite A3.
    assert (Mm : (sizeof * N) mod 16 = 0) by (clear - Hz H4; destruct Hz as [-> | ->]; lia).
    assert (Mn : (8 * N) mod 16 = 0) by (clear - H4; lia).
    split; [|split; [|split; [destruct m; reflexivity|]]].
    + clear Step Sh SE JE. unfold lper in *. set (ip := i * _) in *. set (pc := _ * G) in *. clearbody ip pc. set (gn := G * N) in *. clearbody gn. set (sN := sizeof * N) in *. clearbody sN. clear - Hm HsN HN E2 B0 B1.
      destruct m; [|contradiction Hm; reflexivity|]; cbn [smd_eqb]; repeat apply Forall_cons; try apply Forall_nil; unfold inside; cbn [at_ start bytes]; lia.
    + set (ip := i * lper m) in *. clearbody ip. clear - Hm Bm Mm Mn. destruct m; [|contradiction Hm; reflexivity|]; cbn [smd_eqb]; repeat apply Forall_cons; try apply Forall_nil; unfold aligned; cbn [start]; lia.
    + intros z level p Hz0 Hl0 Hp. rewrite join_region_eq by assumption. rewrite JE. pose proof (slot_bound z level p Hz0 Hl0 Hp) as [SB _].
      assert (0 <= slot z level p * (8 * N)) by (apply Z.mul_nonneg_nonneg; lia). set (sb := slot z level p * (8 * N)) in *. clearbody sb.
      clear Step Sh SE JE. unfold lper in *. set (ip := i * _) in *. set (pc := _ * G) in *. clearbody ip pc. set (sN := sizeof * N) in *. clearbody sN. clear - Hm HsN HN B0 B1 H.
      destruct m; [|contradiction Hm; reflexivity|]; cbn [smd_eqb]; repeat apply Forall_cons; try apply Forall_nil; unfold disjoint; cbn [at_ start bytes]; first [left; discriminate|right; lia].
  - rewrite Sh. subst m. unfold choose_smd. rewrite lpartial_eq, lfull_eq. destruct (Z.ltb_spec max (8 * N)); [lia|]. destruct (Z.ltb_spec max lfull); lia.
Qed.

(** The polynomials of the join buffer are inside the buffer, and have no byte in common, in the three modes. *)
Theorem C63_join_buffer : forall max z level p, 0 <= z < count -> 0 <= level < l -> 0 <= p <= k ->
  inside (low_latency_buffer_size sizeof k N l count max) 0 (join_region sizeof k N l count max z level p) /\ aligned 16 (join_region sizeof k N l count max z level p) /\
  forall z' level' p', 0 <= z' < count -> 0 <= level' < l -> 0 <= p' <= k -> (z, level, p) <> (z', level', p') ->
    disjoint (join_region sizeof k N l count max z level p) (join_region sizeof k N l count max z' level' p').
Proof.
  intros max z level p Hz0 Hl0 Hp. destruct (lsize_eq max) as [SE JE]. set (m := choose_smd max (low_latency_partial_sm N) (low_latency_full_sm sizeof N)) in *.
  destruct lfacts as (Hz & HN & E1 & E2 & E3 & H4 & Hk). pose proof (lper_bound m) as (P1 & P2 & P3). pose proof (slot_bound z level p Hz0 Hl0 Hp) as SB.
  rewrite join_region_eq by assumption. rewrite JE, SE.
  assert (Q0 : 0 <= lper m * G) by (apply Z.mul_nonneg_nonneg; lia). assert (Q1 : 0 <= slot z level p * (8 * N)) by (apply Z.mul_nonneg_nonneg; lia).
  split; [|split].
  - unfold inside. cbn [at_ start bytes]. pose proof (times_le (slot z level p + 1) G (8 * N) ltac:(lia) ltac:(lia)) as Q. replace (G * (8 * N)) with (8 * (G * N)) in Q by ring. lia.
  - unfold aligned. cbn [start]. rewrite Z.add_mod, (Z.mul_mod (lper m)), P3, Z.mul_0_l, (Z.mul_mod (slot z level p)) by lia. assert (Mn : (8 * N) mod 16 = 0) by (clear - H4; lia). rewrite Mn, Z.mul_0_r. reflexivity.
  - intros z' level' p' Hz1 Hl1 Hp1 Hne. rewrite join_region_eq by assumption. rewrite JE. unfold disjoint. cbn [at_ start bytes]. right.
    assert (Hd : slot z level p <> slot z' level' p') by (intros E; apply slot_inj in E; try assumption; destruct E as (-> & -> & ->); apply Hne; reflexivity).
    set (a := slot z level p) in *. set (a' := slot z' level' p') in *. clearbody a a'. assert (C : a < a' \/ a' < a) by lia.
    destruct C as [C|C]; [left; pose proof (times_le (a + 1) a' (8 * N) ltac:(lia) ltac:(lia))|right; pose proof (times_le (a' + 1) a (8 * N) ltac:(lia) ltac:(lia))]; lia.
Qed.

(** With part of the buffers in shared memory, for all parameters, accumulator_rotated of the last block is, entirely or in its first half, the polynomial
    that block 0 uses in the join buffer: the two blocks write the same bytes. *)
Theorem C63_partial_overlap_refuted : forall max, choose_smd max (low_latency_partial_sm N) (low_latency_full_sm sizeof N) = PARTIALSM ->
  exists r, nth_error (low_latency_regions sizeof N PARTIALSM (G - 1)) 2 = Some r /\ ~ disjoint r (join_region sizeof k N l count max 0 0 0) /\
    at_ r = Device /\ start (join_region sizeof k N l count max 0 0 0) <= start r < start (join_region sizeof k N l count max 0 0 0) + bytes (join_region sizeof k N l count max 0 0 0).
Proof.
  intros max Hm. destruct (lsize_eq max) as [SE JE]. rewrite Hm in SE, JE. destruct lfacts as (Hz & HN & E1 & E2 & E3 & H4 & Hk).
  rewrite lregions_eq by lia. cbn [smd_eqb nth_error]. eexists. split; [reflexivity|]. destruct Hs as (_ & Hk0 & _). rewrite join_region_eq by lia. rewrite JE. unfold disjoint. cbn [at_ start bytes].
  unfold lper. set (g := G) in *. clearbody g. clear SE JE Hb. destruct Hz as [-> | ->]; (split; [intros [D|D]; [apply D; reflexivity|lia]|split; [reflexivity|lia]]).
Qed.
End LowLatency.
Print Assumptions C63_low_latency_layout. Print Assumptions C63_join_buffer. Print Assumptions C63_partial_overlap_refuted.

(** The hypotheses are those of usual parameters.  8192 coefficients of 64 bits on a device with 163 KB of shared memory per block: PARTIALSM; 1024: FULLSM *)
Example C63_case : sizes_ok 8 1 8192 /\ sizes_ok 8 1 1024 /\ sizes_ok 4 1 256 /\ (1 + 1) * 2 * 10 * 8192 < 2 ^ 32 /\
  choose_smd 166912 (low_latency_partial_sm 8192) (low_latency_full_sm 8 8192) = PARTIALSM /\ choose_smd 166912 (low_latency_partial_sm 1024) (low_latency_full_sm 8 1024) = FULLSM /\
  choose_smd 49152 (low_latency_partial_sm 8192) (low_latency_full_sm 8 8192) = NOSM /\
  low_latency_regions 8 8192 PARTIALSM 39 = [Region (Shared 39) 0 65536; Region Device 5177344 65536; Region Device 5242880 65536] /\
  join_region 8 1 8192 2 10 166912 0 0 0 = Region Device 5242880 65536 /\
  amortized_regions 8 1 1024 NOSM 3 = [Region Device 172032 16384; Region Device 188416 16384; Region Device 204800 16384; Region Device 221184 8192].
Proof. unfold sizes_ok. repeat split; try lia; try reflexivity. Qed.
