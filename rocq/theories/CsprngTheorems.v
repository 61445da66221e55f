(** * Properties C01-C08: the AES-CTR random generators. *)
From Verif Require Import Base CsprngModel CsprngSpec CsprngProofs CsprngFamily.

(** ** C01, C02: the stream is the AES table over [start, bound), then [None] for ever *)

(** Construction succeeds exactly for non-empty ranges that do not contain position 0. *)
Theorem C01_construction B (enc : Z -> list B) start bound : ti_wf start -> ti_wf bound ->
  ((exists g, from_block_cipher enc start bound = Ret g) <-> 0 < pos start < pos bound).
Proof.
  intros Hs Hb. split.
  - intros (g & E). eapply from_block_cipher_inv; eassumption.
  - intros H. destruct (from_block_cipher_ok enc start bound Hs Hb H) as (g & E & _). eauto.
Qed.
Print Assumptions C01_construction.

(** The k answers of a freshly built generator are the bytes of the AES table from [start],
    one by one, up to [bound] excluded, then [None].  In the debug profile this is limited to
    runs that do not enter the last 112 bytes of the 2^132-byte table. *)
Theorem C01_stream_is_aes_table B (enc : Z -> list B) p start bound g k :
  cipher_wf enc -> ti_wf start -> ti_wf bound ->
  from_block_cipher enc start bound = Ret g ->
  reach p (Z.min (pos bound) (pos start + Z.of_nat k)) ->
  exists g', gen_take p g k = Ret (stream enc (pos start) (pos bound) k, g').
Proof.
  intros He Hs Hb E Hp.
  pose proof (from_block_cipher_inv enc _ _ _ Hs Hb E) as H.
  destruct (from_block_cipher_ok enc start bound Hs Hb H) as (g0 & E0 & H0).
  rewrite E in E0. injection E0 as <-.
  destruct (gen_take_stream enc He p k _ _ _ H0 Hp) as (g' & Et & _). eauto.
Qed.
Print Assumptions C01_stream_is_aes_table.

(** The same for any generator reached through any history of calls and forks. *)
Theorem C01_stream_of_reachable B (enc : Z -> list B) p g k :
  cipher_wf enc -> reachable p enc g ->
  reach p (Z.min (bound_pos g) (next_pos g + Z.of_nat k)) ->
  exists g', gen_take p g k = Ret (stream enc (next_pos g) (bound_pos g) k, g') /\
    next_pos g' = Z.min (bound_pos g) (next_pos g + Z.of_nat k) /\ bound_pos g' = bound_pos g.
Proof.
  intros He H Hp. apply reachable_inv in H; [|assumption].
  destruct (gen_take_stream enc He p k _ _ _ H Hp) as (g' & Et & Hg').
  apply GInv_unique in Hg'. exists g'. split; [assumption|]. split; symmetry; apply Hg'.
Qed.
Print Assumptions C01_stream_of_reachable.

(** Exactly [bound - start] answers are bytes; all the others are [None]. *)
Theorem C02_bound_is_exact B (enc : Z -> list B) start bound g k j answers g' :
  cipher_wf enc -> ti_wf start -> ti_wf bound ->
  from_block_cipher enc start bound = Ret g ->
  gen_take Release g k = Ret (answers, g') -> (j < k)%nat ->
  ((exists b, nth_error answers j = Some (Some b)) <-> Z.of_nat j < pos bound - pos start) /\
  (pos bound - pos start <= Z.of_nat j -> nth_error answers j = Some None).
Proof.
  intros He Hs Hb E Et Hj.
  destruct (C01_stream_is_aes_table B enc Release start bound g k He Hs Hb E (or_introl eq_refl)) as (g1 & E1).
  rewrite E1 in Et. injection Et as <- <-. unfold stream.
  rewrite nth_error_map, nth_error_zseq by assumption. cbn [option_map].
  destruct (Z.ltb_spec (pos start + Z.of_nat j) (pos bound)).
  - destruct (table_byte_some enc He (pos start + Z.of_nat j)) as (b & Eb). rewrite Eb.
    split; [|lia]. split; [lia|]. intros _. exists b. reflexivity.
  - split; [|reflexivity]. split; [|lia]. intros (b & Hb'). discriminate.
Qed.
Print Assumptions C02_bound_is_exact.

(** A concrete non-trivial instance: a generator over positions 5..300 of a table whose bytes
    are tagged, crossing three batches. *)
Definition tag_cipher (c : Z) : list (Z * Z) := map (fun j => (c, j)) (zseq 0 16).

Lemma tag_cipher_wf : cipher_wf tag_cipher.
Proof. intros c. unfold tag_cipher. rewrite map_length, zseq_length. reflexivity. Qed.

Example C01_example :
  exists g g', from_block_cipher tag_cipher (TI 0 5) (TI 18 12) = Ret g /\
    gen_take Debug g 300 = Ret (stream tag_cipher 5 300 300, g') /\
    nth_error (stream tag_cipher 5 300 300) 294 = Some (Some (18, 11)) /\
    nth_error (stream tag_cipher 5 300 300) 295 = Some None.
Proof.
  eexists; eexists. split; [vm_compute; reflexivity|].
  split; [vm_compute; reflexivity|]. split; vm_compute; reflexivity.
Qed.

(** ** C03: forking splits the stream *)

(** Reading the children one after the other, then the parent, gives the bytes the parent
    would have given without the fork. *)
Theorem C03_fork_concatenation B (enc : Z -> list B) p g n nb child count parent m :
  cipher_wf enc -> reachable p enc g ->
  0 <= n -> 0 <= nb -> n * nb < 2 ^ 64 -> pos (gen_table_index g) + n * nb < table_size ->
  try_fork p g n nb = Ret (ForkOk child count parent) ->
  reach p (Z.min (bound_pos g) (next_pos g + n * nb + Z.of_nat m)) ->
  exists children outs pout unforked parent' g',
    fork_children child count = Ret children /\ length children = Z.to_nat n /\
    omap (fun c => gen_take p c (Z.to_nat nb)) children = Ret outs /\
    gen_take p parent m = Ret (pout, parent') /\
    gen_take p g (Z.to_nat n * Z.to_nat nb + m) = Ret (unforked, g') /\
    concat (map fst outs) ++ pout = unforked /\
    Forall (fun c => remaining c = nb) children.
Proof.
  intros He Hr Hn Hnb Hov Hsz E Hp. apply reachable_inv in Hr; [|assumption].
  assert (Hsz' : next_pos g - 1 + n * nb < table_size) by (unfold next_pos; lia).
  destruct (try_fork_spec enc p _ _ _ n nb Hr Hn Hnb Hov Hsz') as
    [(_ & E')|[(_ & _ & E')|[(_ & _ & _ & E')|(Hn0 & Hnb0 & Hle & child' & parent' & E' & Hp' & Hc)]]];
    rewrite E in E'; try discriminate.
  injection E' as -> -> ->.
  assert (HnZ : Z.of_nat (Z.to_nat n) = n) by lia.
  destruct (take_concat_children enc He p (next_pos g) nb child' Hnb (Z.to_nat n) 0) as (cs & outs & E1 & E2 & E3).
  - lia.
  - intros i Hi. apply Hc. lia.
  - unfold reach in *. destruct Hp; [left; assumption|right]. nia.
  - destruct (gen_take_stream enc He p m _ _ _ Hp') as (p2 & Ep2 & _).
    { unfold reach in *. destruct Hp; [left; assumption|right]. lia. }
    destruct (gen_take_stream enc He p (Z.to_nat n * Z.to_nat nb + m) _ _ _ Hr) as (g2 & Eg2 & _).
    { unfold reach in *. destruct Hp; [left; assumption|right].
      replace (next_pos g + Z.of_nat (Z.to_nat n * Z.to_nat nb + m)) with (next_pos g + n * nb + Z.of_nat m) by nia.
      lia. }
    exists cs, outs, (stream enc (next_pos g + n * nb) (bound_pos g) m),
      (stream enc (next_pos g) (bound_pos g) (Z.to_nat n * Z.to_nat nb + m)), p2, g2.
    destruct (fork_children_ok enc (next_pos g) nb n child' Hc) as (cs' & Ec' & Hl' & Hg').
    assert (cs' = cs) by (unfold fork_children in Ec'; congruence). subst cs'.
    repeat split; auto.
    + rewrite E3, stream_app. f_equal.
      * replace (next_pos g + nb * 0) with (next_pos g) by lia. apply stream_hi; nia.
      * f_equal. nia.
    + apply Forall_forall. intros c Hin. apply In_nth_error in Hin. destruct Hin as [i Hi].
      apply Hg' in Hi. apply GInv_unique in Hi. unfold remaining. lia.
Qed.
Print Assumptions C03_fork_concatenation.

Definition run_fork_example (p : profile) : outcome (list (option (Z * Z)) * list (option (Z * Z))) :=
  let! g := gen_new tag_cipher None None in
  let! (_, g) := gen_take p g 20 in
  let! r := try_fork p g 3 50 in
  match r with
  | ForkErr _ => Panic
  | ForkOk child count parent =>
      let! cs := fork_children child count in
      let! outs := omap (fun c => gen_take p c 50) cs in
      let! (pout, _) := gen_take p parent 40 in
      let! (u, _) := gen_take p g 190 in
      Ret (concat (map fst outs) ++ pout, u)
  end.

Example C03_example : exists l, run_fork_example Debug = Ret (l, l) /\ length l = 190%nat.
Proof. eexists. split; [vm_compute; reflexivity|]. reflexivity. Qed.

(** ** C04: no table position is ever output twice *)

(** If all the entries of the table are distinguishable, then all the bytes output in the
    course of any history of at most 2^67 operations on a fork family are pairwise distinct:
    no entry of the table is used twice.  With overflow checks this holds for all fork sizes;
    without them the product of the fork sizes must fit a usize. *)
Theorem C04_no_keystream_reuse B (enc : Z -> list B) p ops g0 :
  cipher_wf enc -> table_injective enc ->
  random_generator_new enc = Ret g0 ->
  Z.of_nat (length ops) <= 2 ^ 67 ->
  Forall op_usize ops -> (p = Release -> Forall op_fits ops) ->
  NoDup (fam_run p [g0] ops).
Proof. intros He. exact (fam_run_nodup enc He p ops g0). Qed.
Print Assumptions C04_no_keystream_reuse.

Lemma tag_cipher_injective : table_injective tag_cipher.
Proof.
  intros q q' b Hq Hq' E E'. unfold table_byte, tag_cipher in *.
  rewrite nth_error_map in E, E'.
  rewrite nth_error_zseq in E by (assert (0 <= q mod 16 < 16) by (apply Z.mod_pos_bound; lia); lia).
  rewrite nth_error_zseq in E' by (assert (0 <= q' mod 16 < 16) by (apply Z.mod_pos_bound; lia); lia).
  cbn [option_map] in *. rewrite <- E' in E. injection E as E1 E2. lia.
Qed.

Definition C04_history : list fam_op :=
  [FNext 0; FFork 0 3 20; FNext 1; FNext 0; FFork 2 2 10; FNext 4; FNext 2; FNext 5; FNext 0].

(** The hypotheses are met, and the history outputs 6 bytes. *)
Example C04_example : exists g0, random_generator_new tag_cipher = Ret g0 /\
  Forall op_usize C04_history /\ Forall op_fits C04_history /\
  fam_run Debug [g0] C04_history = [(0, 1); (0, 2); (3, 14); (1, 6); (2, 0); (3, 15)].
Proof.
  eexists. split; [vm_compute; reflexivity|].
  split; [repeat constructor; cbn; lia|]. split; [repeat constructor; cbn; lia|].
  vm_compute. reflexivity.
Qed.

(** Without overflow checks the statement is false: forking 2^32+1 children of 2^32 bytes is
    accepted, and the parent then outputs the very bytes of its second child. *)
Theorem C04_release_overflow_refuted : exists g0 child count parent c1 b c1' parent',
  random_generator_new tag_cipher = Ret g0 /\
  try_fork Release g0 (2 ^ 32 + 1) (2 ^ 32) = Ret (ForkOk child count parent) /\
  child 1 = Ret c1 /\
  gen_next Release c1 = Ret (Some b, c1') /\ gen_next Release parent = Ret (Some b, parent').
Proof. repeat eexists; vm_compute; reflexivity. Qed.
Print Assumptions C04_release_overflow_refuted.

(** Even with overflow checks, a generator that comes within one fork of the end of the table
    wraps around to its beginning. *)
Theorem C04_end_of_table_refuted : exists g0 child count parent b parent',
  gen_new tag_cipher (Some (TI (2 ^ 128 - 1) 3)) None = Ret g0 /\
  try_fork Debug g0 2 16 = Ret (ForkOk child count parent) /\
  gen_next Debug parent = Ret (Some b, parent') /\ b = (1, 3).
Proof. repeat eexists; vm_compute; reflexivity. Qed.
Print Assumptions C04_end_of_table_refuted.

(** ** C05: remaining_bytes *)

(** [remaining g] bytes can still be output: see [C01_stream_of_reachable]. The method returns
    this count, capped at 2^128-1 less the place in its block of the byte output last. *)
Theorem C05_remaining_bytes B (enc : Z -> list B) p g :
  cipher_wf enc -> reachable p enc g ->
  gen_remaining_bytes g = Ret (Z.min (remaining g) (2 ^ 128 - 1 - (next_pos g - 1) mod 16)).
Proof.
  intros He H. apply reachable_inv in H; [|assumption]. destruct H as [_ Hlw Hl Hw Hpos Hr _ _]. unfold gen_remaining_bytes.
  destruct (ti_distance_pos (last g) (gen_table_index g) Hlw Hw) as (d & -> & ->); [lia|]. f_equal.
  unfold remaining. rewrite <- Hpos. replace (bound_pos g - next_pos g) with (pos (last g) - pos (gen_table_index g)) by lia.
  unfold ti_wf, pos in *. clear - Hlw Hw.
  replace ((16 * aes_index (gen_table_index g) + byte_index (gen_table_index g)) mod 16) with (byte_index (gen_table_index g))
    by (clear Hlw; lia). lia.
Qed.
Print Assumptions C05_remaining_bytes.

(** In particular it is exact below 2^128-15, and is at least 2^128-16 from there on. *)
Theorem C05_remaining_bytes_ranges B (enc : Z -> list B) p g :
  cipher_wf enc -> reachable p enc g ->
  (remaining g < 2 ^ 128 - 15 -> gen_remaining_bytes g = Ret (remaining g)) /\
  (2 ^ 128 - 15 <= remaining g ->
     exists d, gen_remaining_bytes g = Ret d /\ 2 ^ 128 - 16 <= d <= 2 ^ 128 - 1).
Proof.
  intros He H. apply reachable_inv in H; [|assumption]. split.
  - apply gen_remaining_exact with (enc := enc). assumption.
  - apply gen_remaining_sat with (enc := enc) (lo := next_pos g) (hi := bound_pos g). assumption.
Qed.
Print Assumptions C05_remaining_bytes_ranges.

(** One output byte lowers the count by one. *)
Theorem C05_remaining_decreases B (enc : Z -> list B) p g b g' :
  cipher_wf enc -> reachable p enc g -> gen_next p g = Ret (Some b, g') ->
  remaining g' = remaining g - 1.
Proof.
  intros He H E. apply reachable_inv in H; [|assumption].
  destruct (gen_next_ret enc He p _ _ _ _ _ H E) as [(Hlt & _ & H')|(_ & Hf & _)]; [|discriminate].
  apply GInv_unique in H'. unfold remaining. lia.
Qed.
Print Assumptions C05_remaining_decreases.

(** The documented formula min(2^128-1, remaining) fails: after one byte, a fresh generator
    that can still output about 2^132 bytes announces 2^128-2. *)
Theorem C05_documented_formula_refuted : exists g b g',
  random_generator_new tag_cipher = Ret g /\ gen_next Debug g = Ret (b, g') /\
  gen_remaining_bytes g' <> Ret (Z.min (2 ^ 128 - 1) (remaining g')).
Proof. repeat eexists; vm_compute. discriminate. Qed.
Print Assumptions C05_documented_formula_refuted.

Example C05_example : exists g g', from_block_cipher tag_cipher (TI 3 7) (TI 99 2) = Ret g /\
  gen_take Debug g 130 = Ret (stream tag_cipher 55 1586 130, g') /\
  gen_remaining_bytes g' = Ret (1586 - 55 - 130).
Proof.
  eexists; eexists. split; [vm_compute; reflexivity|].
  split; [vm_compute; reflexivity|]. vm_compute; reflexivity.
Qed.

(** ** C06: when a fork is accepted *)
Theorem C06_fork_admission B (enc : Z -> list B) p g n nb :
  cipher_wf enc -> reachable p enc g ->
  0 <= n -> 0 <= nb -> n * nb < 2 ^ 64 -> pos (gen_table_index g) + n * nb < table_size ->
  exists r, try_fork p g n nb = Ret r /\
  (r = ForkErr ZeroChildrenCount <-> n = 0) /\
  (r = ForkErr ZeroBytesPerChild <-> n <> 0 /\ nb = 0) /\
  (r = ForkErr ForkTooLarge <-> remaining g < n * nb) /\
  ((exists child parent, r = ForkOk child n parent) <-> 0 < n /\ 0 < nb /\ n * nb <= remaining g).
Proof.
  intros He H Hn Hnb Hov Hsz. apply reachable_inv in H; [|assumption].
  assert (Hsz' : next_pos g - 1 + n * nb < table_size) by (unfold next_pos; lia).
  pose proof (gi_range _ _ _ _ H) as Hr. unfold remaining.
  destruct (try_fork_spec enc p _ _ _ n nb H Hn Hnb Hov Hsz') as
    [(? & E)|[(? & ? & E)|[(? & ? & ? & E)|(? & ? & ? & child & parent & E & _)]]];
    rewrite E; eexists; (split; [reflexivity|]);
    repeat match goal with
    | |- _ /\ _ => split
    | |- _ <-> _ => split
    | |- (exists _, _) -> _ => intros (? & ? & ?); discriminate
    | |- ForkErr _ = ForkErr _ -> _ => intros HH; try discriminate HH; clear HH
    | |- ForkOk _ _ _ = ForkErr _ -> _ => intros HH; discriminate HH
    end; intros; try reflexivity; try nia; eauto.
Qed.
Print Assumptions C06_fork_admission.

(** With overflow checks an overflowing product panics instead of being accepted. *)
Theorem C06_overflow_panics_with_checks B (g : generator B) n nb :
  0 < n -> 0 < nb -> 2 ^ 64 <= n * nb -> try_fork Debug g n nb = Panic.
Proof.
  intros Hn Hnb H. unfold try_fork. destruct (Z.eqb_spec n 0), (Z.eqb_spec nb 0); try lia.
  unfold is_fork_in_bound, plain, usize_bits.
  destruct (Z.leb_spec 0 (n * nb)), (Z.ltb_spec (n * nb) (2 ^ 64)); try lia; reflexivity.
Qed.
Print Assumptions C06_overflow_panics_with_checks.

(** Without them, a fork of more bytes than remain can be accepted. *)
Theorem C06_release_overflow_refuted : exists g child count parent,
  from_block_cipher tag_cipher (TI 1 0) (TI (2 ^ 40) 0) = Ret g /\
  remaining g < (2 ^ 32 + 1) * 2 ^ 32 /\
  try_fork Release g (2 ^ 32 + 1) (2 ^ 32) = Ret (ForkOk child count parent).
Proof. repeat eexists; vm_compute; reflexivity. Qed.
Print Assumptions C06_release_overflow_refuted.

(** The children of an accepted fork leave the parent unable to exceed its bound. *)
Theorem C06_fork_consumes B (enc : Z -> list B) p g n nb child count parent :
  cipher_wf enc -> reachable p enc g ->
  0 <= n -> 0 <= nb -> n * nb < 2 ^ 64 -> pos (gen_table_index g) + n * nb < table_size ->
  try_fork p g n nb = Ret (ForkOk child count parent) ->
  count = n /\ bound_pos parent = bound_pos g /\ next_pos parent = next_pos g + n * nb /\
  remaining parent = remaining g - n * nb.
Proof.
  intros He H Hn Hnb Hov Hsz E. apply reachable_inv in H; [|assumption].
  assert (Hsz' : next_pos g - 1 + n * nb < table_size) by (unfold next_pos; lia).
  destruct (try_fork_spec enc p _ _ _ n nb H Hn Hnb Hov Hsz') as
    [(_ & E')|[(_ & _ & E')|[(_ & _ & _ & E')|(_ & _ & _ & child' & parent' & E' & Hp & _)]]];
    rewrite E in E'; try discriminate.
  injection E' as -> -> ->. apply GInv_unique in Hp. unfold remaining. lia.
Qed.
Print Assumptions C06_fork_consumes.

(** ** C07: parallel forks *)
Theorem C07_par_fork_is_fork B p (g : generator B) n nb :
  par_try_fork p g n nb = try_fork p g n nb.
Proof. reflexivity. Qed.
Print Assumptions C07_par_fork_is_fork.

(** Whatever the interleaving of the workers, the answers received from child [i] are those
    child [i] gives when driven alone for as many calls. *)
Theorem C07_schedule_independence B p (gens : list (generator B)) sched outs gens' i g :
  sched_run p gens sched = Ret (outs, gens') ->
  nth_error gens i = Some g ->
  exists g', nth_error gens' i = Some g' /\
    gen_take p g (count_occ Nat.eq_dec sched i)
      = Ret (map snd (filter (fun o => Nat.eqb (fst o) i) outs), g').
Proof.
  revert gens outs gens' g. induction sched as [|j sched IH]; intros gens outs gens' g E Hg.
  - cbn in E. injection E as <- <-. exists g. auto.
  - cbn [sched_run] in E. destruct (nth_error gens j) as [gj|] eqn:Ej.
    + destruct (gen_next p gj) as [[b gj']|] eqn:En; cbn [obind] in E; [|discriminate].
      destruct (sched_run p (set_nth gens j gj') sched) as [[outs1 gens1]|] eqn:Es; cbn [obind] in E; [|discriminate].
      injection E as <- <-.
      assert (Hj : (j < length gens)%nat) by (apply nth_error_Some; congruence).
      destruct (Nat.eq_dec j i) as [->|Hji].
      * rewrite Hg in Ej. injection Ej as <-.
        destruct (IH _ _ _ gj' Es) as (g' & Hg' & Et).
        { rewrite nth_error_set_nth by assumption. rewrite Nat.eqb_refl. reflexivity. }
        exists g'. split; [assumption|].
        rewrite count_occ_cons_eq by reflexivity. cbn [gen_take]. rewrite En. cbn [obind].
        rewrite Et. cbn [obind filter fst]. rewrite Nat.eqb_refl. reflexivity.
      * destruct (IH _ _ _ g Es) as (g' & Hg' & Et).
        { rewrite nth_error_set_nth by assumption.
          destruct (Nat.eqb_spec i j); [lia|assumption]. }
        exists g'. split; [assumption|].
        rewrite count_occ_cons_neq by assumption. cbn [filter fst].
        destruct (Nat.eqb_spec j i); [lia|]. assumption.
    + destruct (Nat.eq_dec j i) as [->|Hji]; [congruence|].
      rewrite count_occ_cons_neq by assumption. eapply IH; eassumption.
Qed.
Print Assumptions C07_schedule_independence.

Definition C07_example_run : outcome (list (nat * option (Z * Z))) :=
  let! g := gen_new tag_cipher None None in
  let! r := par_try_fork Debug g 2 3 in
  match r with
  | ForkErr _ => Panic
  | ForkOk child count _ =>
      let! cs := fork_children child count in
      let! (outs, _) := sched_run Debug cs [1; 0; 1; 1; 0; 1]%nat in
      Ret outs
  end.

Example C07_example : C07_example_run =
  Ret [(1%nat, Some (0, 4)); (0%nat, Some (0, 1)); (1%nat, Some (0, 5));
       (1%nat, Some (0, 6)); (0%nat, Some (0, 2)); (1%nat, None)].
Proof. vm_compute. reflexivity. Qed.

(** ** C08: index arithmetic *)
Theorem C08_increase t s : ti_wf t -> 0 <= s ->
  ti_wf (ti_increase t s) /\ pos (ti_increase t s) = (pos t + s) mod 2 ^ 132.
Proof. intros H Hs. split; [apply ti_increase_wf|apply ti_increase_pos]; assumption. Qed.
Print Assumptions C08_increase.

Theorem C08_decrease t s : ti_wf t -> 0 <= s ->
  ti_wf (ti_decrease t s) /\ pos (ti_decrease t s) = (pos t - s) mod 2 ^ 132.
Proof. intros H Hs. split; [apply ti_decrease_wf|apply ti_decrease_pos]; assumption. Qed.
Print Assumptions C08_decrease.

Theorem C08_position_is_faithful t u : ti_wf t -> ti_wf u ->
  (0 <= pos t < 2 ^ 132) /\ (pos t = pos u -> t = u).
Proof. intros Ht Hu. split; [apply pos_range; assumption | apply pos_inj; assumption]. Qed.
Print Assumptions C08_position_is_faithful.

Theorem C08_increase_decrease_cancel t s : ti_wf t -> 0 <= s ->
  ti_decrease (ti_increase t s) s = t /\ ti_increase (ti_decrease t s) s = t.
Proof.
  intros H Hs. split; apply pos_inj; auto using ti_increase_wf, ti_decrease_wf.
  - rewrite ti_decrease_pos, ti_increase_pos by auto using ti_increase_wf.
    rewrite Zminus_mod_idemp_l. replace (pos t + s - s) with (pos t) by lia.
    apply Z.mod_small, pos_range; assumption.
  - rewrite ti_increase_pos, ti_decrease_pos by auto using ti_decrease_wf.
    rewrite Zplus_mod_idemp_l. replace (pos t - s + s) with (pos t) by lia.
    apply Z.mod_small, pos_range; assumption.
Qed.
Print Assumptions C08_increase_decrease_cancel.

Theorem C08_increase_additive t s s' : ti_wf t -> 0 <= s -> 0 <= s' ->
  ti_increase (ti_increase t s) s' = ti_increase t (s + s').
Proof.
  intros H Hs Hs'. apply pos_inj; auto using ti_increase_wf.
  rewrite !ti_increase_pos by (auto using ti_increase_wf; lia).
  rewrite Zplus_mod_idemp_l. f_equal. lia.
Qed.
Print Assumptions C08_increase_additive.

Theorem C08_order t u : ti_wf t -> ti_wf u -> ti_cmp t u = Z.compare (pos t) (pos u).
Proof. apply ti_cmp_pos. Qed.
Print Assumptions C08_order.

Theorem C08_distance t u : ti_wf t -> ti_wf u ->
  (pos t < pos u -> ti_distance t u = None) /\
  (pos u <= pos t < pos u + (2 ^ 128 - 15) -> ti_distance t u = Some (pos t - pos u)) /\
  (pos u + (2 ^ 128 - 15) <= pos t ->
     exists d, ti_distance t u = Some d /\ 2 ^ 128 - 16 <= d <= 2 ^ 128 - 1).
Proof.
  intros Ht Hu. split; [|split].
  - apply ti_distance_none; assumption.
  - intros. apply ti_distance_exact; auto; lia.
  - intros. destruct (ti_distance_sat t u Ht Hu) as (d & E & Hd); [lia|]. exists d. split; [assumption|lia].
Qed.
Print Assumptions C08_distance.

(** The documented saturation ("when the distance is greater than 2^128-1 we saturate at
    2^128-1") is not what is computed. *)
Theorem C08_documented_saturation_refuted : exists t u, ti_wf t /\ ti_wf u /\
  pos t - pos u > 2 ^ 128 - 1 /\ ti_distance t u <> Some (2 ^ 128 - 1).
Proof.
  exists (TI (2 ^ 127) 0), (TI 0 15). split; [unfold ti_wf; cbn; lia|].
  split; [unfold ti_wf; cbn; lia|]. vm_compute. split; [reflexivity|discriminate].
Qed.
Print Assumptions C08_documented_saturation_refuted.

(** Even below 2^128 the distance can be wrong by one. *)
Theorem C08_distance_below_saturation_refuted : exists t u, ti_wf t /\ ti_wf u /\
  pos t - pos u < 2 ^ 128 /\ ti_distance t u <> Some (pos t - pos u).
Proof.
  exists (TI (2 ^ 124) 0), (TI 0 15). split; [unfold ti_wf; cbn; lia|].
  split; [unfold ti_wf; cbn; lia|]. vm_compute. split; [reflexivity|discriminate].
Qed.
Print Assumptions C08_distance_below_saturation_refuted.

(** The default state of the state machine can never be built. *)
Theorem C08_default_state_panics : st_default = Panic.
Proof. reflexivity. Qed.
Print Assumptions C08_default_state_panics.

Example C08_example : ti_wf (TI 5 13) /\ ti_increase (TI 5 13) 40 = TI 8 5 /\
  ti_decrease (TI 8 5) 40 = TI 5 13 /\ ti_distance (TI 8 5) (TI 5 13) = Some 40.
Proof. unfold ti_wf; cbn. repeat split; lia. Qed.
