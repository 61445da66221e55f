(** * C09 - C10: random scalars and the encryption generator *)
From Verif Require Import Base Word WordFacts NegaRing PolySpec PolyModel PolyProofs RandomModel RandomProofs.
From Verif Require Import CsprngModel CsprngSpec CsprngProofs CsprngFamily.

(** ** The byte window of [RandomModel] is what the AES-CTR generator implements. *)
Definition aes_table (enc : Z -> list Z) (q : Z) : Z :=
  match table_byte enc q with Some b => b | None => 0 end.
Definition abs_gen (enc : Z -> list Z) (g : generator Z) : bgen :=
  BG (aes_table enc) (next_pos g) (bound_pos g).

Theorem C09_byte_generator_refinement : forall (enc : Z -> list Z) p g,
  cipher_wf enc -> reachable p enc g ->
  (* a byte *)
  (reach p (next_pos g + 1) ->
   match gen_next p g with
   | Ret (Some b, g') => generate_next (abs_gen enc g) = Ret (b, abs_gen enc g')
   | Ret (None, g') => generate_next (abs_gen enc g) = Panic /\ g' = g
   | Panic => False
   end) /\
  (* a fork *)
  (forall n nb, 0 <= n -> 0 <= nb -> n * nb < 2 ^ 64 -> pos (gen_table_index g) + n * nb < table_size ->
   match try_fork p g n nb with
   | Ret (ForkOk child count parent) =>
       exists children, fork_children child count = Ret children /\
         bg_fork p (abs_gen enc g) n nb = Ret (Some (map (abs_gen enc) children, abs_gen enc parent))
   | Ret (ForkErr _) => bg_fork p (abs_gen enc g) n nb = Ret None
   | Panic => False
   end).
Proof.
  intros enc p g He H. apply reachable_inv in H; [|assumption]. split.
  - intros Hr. pose proof (gi_range _ _ _ _ H) as Hrg.
    destruct (Z.lt_ge_cases (next_pos g) (bound_pos g)) as [Hlt|Hge].
    + destruct (gen_next_some enc He p _ _ _ H Hlt Hr) as (b & g' & E & Hb & H'). rewrite E.
      apply GInv_unique in H'. destruct H' as [H1 H2].
      unfold generate_next, abs_gen, bg_advance. cbn [bg_table bg_pos bg_end].
      destruct (Z.ltb_spec (next_pos g) (bound_pos g)); [|lia].
      unfold aes_table at 1. rewrite Hb, H1, H2. reflexivity.
    + rewrite (gen_next_none enc p _ _ _ H Hge). split; [|reflexivity].
      unfold generate_next, abs_gen. cbn [bg_table bg_pos bg_end].
      destruct (Z.ltb_spec (next_pos g) (bound_pos g)); [lia|reflexivity].
  - intros n nb Hn Hnb Hov Hsz.
    assert (Hsz' : next_pos g - 1 + n * nb < table_size) by (unfold next_pos; lia).
    destruct (try_fork_spec enc p _ _ _ n nb H Hn Hnb Hov Hsz') as
      [(Hz & E')|[(_ & Hz & E')|[(Hn0 & Hb0 & Hz & E')|(Hn0 & Hnb0 & Hle & child & parent & E' & Hp' & Hc)]]]; rewrite E'.
    + unfold bg_fork. rewrite Hz. reflexivity.
    + unfold bg_fork. rewrite Hz. rewrite orb_true_r. reflexivity.
    + unfold bg_fork. destruct (Z.eqb_spec n 0), (Z.eqb_spec nb 0); try lia. cbn [orb].
      rewrite plain_ok by (unfold usize_bits; nia). cbn [obind abs_gen bg_pos bg_end].
      destruct (Z.leb_spec (n * nb) (bound_pos g - next_pos g)); [lia|reflexivity].
    + destruct (fork_children_ok enc (next_pos g) nb n child Hc) as (cs & Ec & Hl & Hg).
      exists cs. split; [assumption|].
      rewrite bg_fork_ok by (unfold usize_bits; cbn; lia).
      apply GInv_unique in Hp'. destruct Hp' as [Hp1 Hp2].
      f_equal. f_equal. f_equal.
      * apply nth_ext with (d := abs_gen enc g) (d' := abs_gen enc g).
        { rewrite !map_length, zseq_len. congruence. }
        intros i Hi. rewrite map_length, zseq_len in Hi.
        destruct (nth_error cs i) as [c|] eqn:Ei.
        2: { apply nth_error_None in Ei. lia. }
        specialize (Hg i c Ei). apply GInv_unique in Hg. destruct Hg as [G1 G2].
        apply (map_nth_error (abs_gen enc)) in Ei. apply nth_error_nth with (d := abs_gen enc g) in Ei. rewrite Ei.
        pose proof (nth_error_zseq (Z.to_nat n) 0 i Hi) as En.
        apply (map_nth_error (fun i => bg_window (abs_gen enc g) (i * nb) nb)) in En.
        apply nth_error_nth with (d := abs_gen enc g) in En. rewrite En.
        unfold bg_window, abs_gen. cbn [bg_table bg_pos bg_end]. rewrite <- G1, <- G2. f_equal; lia.
      * unfold bg_advance, abs_gen. cbn [bg_table bg_pos bg_end]. rewrite <- Hp1, <- Hp2. reflexivity.
Qed.
Print Assumptions C09_byte_generator_refinement.

(** ** C09: uniform words.
    The i-th element is the word whose j-th byte is the byte i*w/8 + j of the stream; exactly
    n*w/8 bytes are consumed; the call panics exactly when fewer bytes remain. *)
Theorem C09_uniform_tensor : forall w n g, 0 < w -> w mod 8 = 0 -> bytes_ok (bg_table g) ->
  bg_pos g <= bg_end g ->
  if bg_pos g + Z.of_nat n * (w / 8) <=? bg_end g then
    exists l, generate_tensor (uniform_one w) n g = Ret (l, bg_advance g (Z.of_nat n * (w / 8))) /\
      length l = n /\
      forall i, (i < n)%nat -> is_word w (nth i l 0) /\
        forall j, 0 <= j < w / 8 ->
          (nth i l 0 / 256 ^ j) mod 256 = bg_table g (bg_pos g + Z.of_nat i * (w / 8) + j)
  else generate_tensor (uniform_one w) n g = Panic.
Proof.
  intros w n g Hw Hm Hb Hle. assert (Hb8 : 0 < w / 8) by lia.
  destruct (Z.leb_spec (bg_pos g + Z.of_nat n * (w / 8)) (bg_end g)) as [H|H].
  - exists (table_words w (bg_table g) (bg_pos g) n). split; [apply uniform_tensor_ok; lia|].
    split; [apply table_words_length|]. intros i Hi.
    assert (E : nth i (table_words w (bg_table g) (bg_pos g) n) 0 = table_word w (bg_table g) (bg_pos g + Z.of_nat i * (w / 8))).
    { unfold table_words. apply nth_error_nth.
      apply (map_nth_error (fun i => table_word w (bg_table g) (bg_pos g + i * (w / 8)))).
      rewrite nth_error_zseq by assumption. reflexivity. }
    rewrite E. split; [apply table_word_range; auto; lia|]. intros j Hj.
    unfold table_word. rewrite <- (Z2Nat.id j) at 1 by lia. rewrite le_value_byte.
    + apply nth_error_nth. apply (map_nth_error (bg_table g)). rewrite nth_error_zseq by lia. do 2 f_equal. lia.
    + apply Forall_forall. intros x Hx. rewrite in_map_iff in Hx. destruct Hx as (y & <- & _). apply Hb.
    + rewrite map_length, zseq_len. lia.
  - apply uniform_tensor_panic; try lia.
Qed.
Print Assumptions C09_uniform_tensor.

(** Binary values: one byte each, its lowest bit. *)
Theorem C09_binary_tensor : forall n g,
  bg_pos g + Z.of_nat n <= bg_end g ->
  generate_tensor uniform_binary_one n g
  = Ret (map (fun i => bg_table g (bg_pos g + i) mod 2) (zseq 0 n), bg_advance g (Z.of_nat n)) /\
  Forall (fun x => x = 0 \/ x = 1) (map (fun i => bg_table g (bg_pos g + i) mod 2) (zseq 0 n)).
Proof.
  intros n g H. split.
  - revert g H. induction n as [|n IH]; intros g H.
    + cbn. rewrite bg_advance_0. reflexivity.
    + cbn [generate_tensor]. unfold uniform_binary_one at 1, generate_next.
      destruct (Z.ltb_spec (bg_pos g) (bg_end g)); [|lia]. cbn [obind].
      rewrite IH by (cbn; lia). cbn [obind zseq map]. rewrite bg_advance_advance.
      replace (1 + Z.of_nat n) with (Z.of_nat (S n)) by lia.
      do 3 f_equal.
      * rewrite Z.add_0_r. change 1 with (Z.ones 1) at 1. rewrite Z.land_ones by lia. change (2 ^ 1) with 2.
        pose proof (Z.mod_pos_bound (bg_table g (bg_pos g)) 2). destruct (Z.eqb_spec (bg_table g (bg_pos g) mod 2) 1); lia.
      * cbn [bg_table bg_pos bg_advance]. rewrite (zseq_shift 1 0), map_map.
        apply map_ext. intros i. do 2 f_equal. lia.
  - apply Forall_forall. intros x Hx. rewrite in_map_iff in Hx. destruct Hx as (y & <- & _). lia.
Qed.
Print Assumptions C09_binary_tensor.

(** Ternary values: -1, 0 or 1, given by the first byte whose two lowest bits are not 11; the bytes
    up to that one are consumed. *)
Theorem C09_ternary : forall w g x g', uniform_ternary_one w g = Ret (x, g') ->
  exists j, 0 <= j /\ g' = bg_advance g (j + 1) /\ bg_pos g + j < bg_end g /\
    (forall i, 0 <= i < j -> bg_table g (bg_pos g + i) mod 4 = 3) /\
    match bg_table g (bg_pos g + j) mod 4 with
    | 0 => x = 0 | 1 => x = 1 | 2 => x = wneg w 1 | _ => False
    end.
Proof.
  intros w g x g' E. unfold uniform_ternary_one in E. revert E. generalize (S (Z.to_nat (bg_end g - bg_pos g))).
  intros fuel. revert g. induction fuel as [|fuel IH]; intros g E; [discriminate|].
  cbn [ternary_loop] in E. unfold generate_next in E.
  destruct (Z.ltb_spec (bg_pos g) (bg_end g)); [|discriminate]. cbn [obind] in E.
  change 3 with (Z.ones 2) in E. rewrite Z.land_ones in E by lia. change (2 ^ 2) with 4 in E.
  pose proof (Z.mod_pos_bound (bg_table g (bg_pos g)) 4 ltac:(lia)) as Hm.
  destruct (Z.eqb_spec (bg_table g (bg_pos g) mod 4) 0) as [E0|N0].
  { injection E as <- <-. exists 0. split; [lia|]. split; [reflexivity|]. split; [lia|]. split; [lia|].
    rewrite Z.add_0_r, E0. reflexivity. }
  destruct (Z.eqb_spec (bg_table g (bg_pos g) mod 4) 1) as [E1|N1].
  { injection E as <- <-. exists 0. split; [lia|]. split; [reflexivity|]. split; [lia|]. split; [lia|].
    rewrite Z.add_0_r, E1. reflexivity. }
  destruct (Z.eqb_spec (bg_table g (bg_pos g) mod 4) 2) as [E2|N2].
  { injection E as <- <-. exists 0. split; [lia|]. split; [reflexivity|]. split; [lia|]. split; [lia|].
    rewrite Z.add_0_r, E2. reflexivity. }
  destruct (IH _ E) as (j & Hj & -> & Hlt & Hall & Hx). cbn [bg_table bg_pos bg_end bg_advance] in *.
  exists (j + 1). split; [lia|]. split; [rewrite bg_advance_advance; f_equal; lia|]. split; [lia|]. split.
  - intros i Hi. destruct (Z.eq_dec i 0) as [->|Hne]; [rewrite Z.add_0_r; lia|].
    rewrite <- (Hall (i - 1)) by lia. do 2 f_equal. lia.
  - replace (bg_pos g + (j + 1)) with (bg_pos g + 1 + j) by lia. exact Hx.
Qed.
Print Assumptions C09_ternary.

(** It succeeds as soon as one of the remaining bytes is not of the form ...11. *)
Theorem C09_ternary_terminates : forall w g j, 0 <= j -> bg_pos g + j < bg_end g ->
  bg_table g (bg_pos g + j) mod 4 <> 3 -> exists x g', uniform_ternary_one w g = Ret (x, g').
Proof.
  intros w g j Hj Hlt Hb. unfold uniform_ternary_one.
  assert (Hf : (Z.to_nat j < S (Z.to_nat (bg_end g - bg_pos g)))%nat) by lia.
  revert Hf. generalize (S (Z.to_nat (bg_end g - bg_pos g))). intros fuel. revert g j Hj Hlt Hb.
  induction fuel as [|fuel IH]; intros g j Hj Hlt Hb Hf; [lia|].
  cbn [ternary_loop]. unfold generate_next. destruct (Z.ltb_spec (bg_pos g) (bg_end g)); [|lia]. cbn [obind].
  change 3 with (Z.ones 2) in *. rewrite Z.land_ones by lia. change (2 ^ 2) with 4.
  pose proof (Z.mod_pos_bound (bg_table g (bg_pos g)) 4 ltac:(lia)) as Hm.
  destruct (Z.eqb_spec (bg_table g (bg_pos g) mod 4) 0); [eauto|].
  destruct (Z.eqb_spec (bg_table g (bg_pos g) mod 4) 1); [eauto|].
  destruct (Z.eqb_spec (bg_table g (bg_pos g) mod 4) 2); [eauto|].
  destruct (Z.eq_dec j 0) as [->|Hne].
  { rewrite Z.add_0_r in Hb. change (Z.ones 2) with 3 in Hb. lia. }
  apply (IH _ (j - 1)); cbn [bg_table bg_pos bg_end bg_advance]; try lia.
  replace (bg_pos g + 1 + (j - 1)) with (bg_pos g + j) by lia. assumption.
Qed.
Print Assumptions C09_ternary_terminates.

(** n least / most significant random bits, 1 <= n <= w. *)
Theorem C09_lsb_msb : forall p w n g, 0 < w < 2 ^ 64 -> w mod 8 = 0 -> bytes_ok (bg_table g) -> 1 <= n <= w ->
  bg_pos g + w / 8 <= bg_end g ->
  exists x, uniform_one w g = Ret (x, bg_advance g (w / 8)) /\ is_word w x /\
    (exists y, uniform_lsb_one p w n g = Ret (y, bg_advance g (w / 8)) /\ 0 <= y < 2 ^ n /\ y = x / 2 ^ (w - n)) /\
    (exists z, uniform_msb_one p w n g = Ret (z, bg_advance g (w / 8)) /\ is_word w z /\ (2 ^ (w - n) | z) /\
       z / 2 ^ (w - n) = x mod 2 ^ n).
Proof.
  intros p w n g Hw Hm Hb Hn Hle. exists (table_word w (bg_table g) (bg_pos g)).
  pose proof (table_word_range w (bg_table g) (bg_pos g) Hb ltac:(lia) Hm) as Hx.
  set (x := table_word w (bg_table g) (bg_pos g)) in *.
  assert (E : uniform_one w g = Ret (x, bg_advance g (w / 8))) by (apply uniform_one_ok; lia).
  assert (Hsplit : 2 ^ w = 2 ^ (w - n) * 2 ^ n) by (rewrite <- Z.pow_add_r by lia; f_equal; lia).
  assert (Hp1 : 0 < 2 ^ (w - n)) by (apply pow2_pos; lia). assert (Hp2 : 0 < 2 ^ n) by (apply pow2_pos; lia).
  unfold is_word in *.
  split; [exact E|]. split; [exact Hx|]. split.
  - exists (x / 2 ^ (w - n)). split; [|split; [split|reflexivity]].
    + unfold uniform_lsb_one. rewrite E. cbn [obind]. rewrite plain_ok by (unfold usize_bits; lia). cbn [obind].
      unfold shr_. destruct (Z.ltb_spec (w - n) w); [|lia]. reflexivity.
    + apply Z.div_pos; lia.
    + apply Z.div_lt_upper_bound; lia.
  - exists (shl w x (w - n)). split; [|split; [|split]].
    + unfold uniform_msb_one. rewrite E. cbn [obind]. rewrite plain_ok by (unfold usize_bits; lia). cbn [obind].
      unfold shl_. destruct (Z.ltb_spec (w - n) w); [|lia]. reflexivity.
    + unfold shl. apply Z.mod_pos_bound. lia.
    + unfold shl. rewrite Hsplit, (Z.mul_comm (2 ^ (w - n)) (2 ^ n)), Z.mul_mod_distr_r by lia. apply Z.divide_factor_r.
    + unfold shl. rewrite Hsplit, (Z.mul_comm (2 ^ (w - n)) (2 ^ n)), Z.mul_mod_distr_r by lia. apply Z.div_mul. lia.
Qed.
Print Assumptions C09_lsb_msb.

(** n = 0: zero random bits are announced; release builds return all the bits of the word. *)
Theorem C09_zero_lsb_refuted : exists g x g', bytes_ok (bg_table g) /\
  uniform_lsb_one Release 32 0 g = Ret (x, g') /\ x <> 0 /\ uniform_lsb_one Debug 32 0 g = Panic.
Proof.
  exists (BG (fun q => q mod 256) 5 100). eexists. eexists. split; [intros q; cbn; lia|].
  split; [vm_compute; reflexivity|]. split; [discriminate|vm_compute; reflexivity].
Qed.
Print Assumptions C09_zero_lsb_refuted.

(** Gaussian samples consume blocks of 16 bytes up to the first accepted one. *)
Theorem C09_gaussian_pair : forall gauss g s1 s2 g', gaussian_pair gauss g = Ret (s1, s2, g') ->
  exists j, 0 <= j /\ g' = bg_advance g (16 * (j + 1)) /\ bg_pos g + 16 * (j + 1) <= bg_end g /\
    (forall i, 0 <= i < j -> gauss (map (bg_table g) (zseq (bg_pos g + 16 * i) 16)) = None) /\
    gauss (map (bg_table g) (zseq (bg_pos g + 16 * j) 16)) = Some (s1, s2).
Proof.
  intros gauss g s1 s2 g' E. unfold gaussian_pair in E. revert E. generalize (S (Z.to_nat (bg_end g - bg_pos g))).
  intros fuel. revert g. induction fuel as [|fuel IH]; intros g E; [discriminate|].
  cbn [gaussian_loop] in E.
  destruct (Z.le_gt_cases (bg_pos g + 8) (bg_end g)) as [H8|H8].
  2: { rewrite read_bytes_panic in E by lia. discriminate. }
  rewrite (read_bytes_ok 8 g) in E by lia. cbn [obind] in E.
  destruct (Z.le_gt_cases (bg_pos g + 16) (bg_end g)) as [H16|H16].
  2: { rewrite read_bytes_panic in E by (cbn; lia). discriminate. }
  rewrite read_bytes_ok in E by (cbn; lia). cbn [obind] in E. rewrite bg_advance_advance in E.
  change (bg_table (bg_advance g (Z.of_nat 8))) with (bg_table g) in E.
  change (bg_pos (bg_advance g (Z.of_nat 8))) with (bg_pos g + Z.of_nat 8) in E.
  rewrite <- map_app, <- zseq_app in E. change (8 + 8)%nat with 16%nat in E.
  change (Z.of_nat 8 + Z.of_nat 8) with 16 in E.
  destruct (gauss (map (bg_table g) (zseq (bg_pos g) 16))) as [[t1 t2]|] eqn:Eg.
  - injection E as <- <- <-. exists 0. split; [lia|]. split; [reflexivity|]. split; [lia|]. split; [lia|].
    rewrite Z.mul_0_r, Z.add_0_r. assumption.
  - destruct (IH _ E) as (j & Hj & -> & Hle & Hall & Hx). cbn [bg_table bg_pos bg_end bg_advance] in *.
    exists (j + 1). split; [lia|]. split; [rewrite bg_advance_advance; f_equal; lia|]. split; [lia|]. split.
    + intros i Hi. destruct (Z.eq_dec i 0) as [->|Hne]; [rewrite Z.mul_0_r, Z.add_0_r; assumption|].
      rewrite <- (Hall (i - 1)) by lia. do 3 f_equal. lia.
    + rewrite <- Hx. do 3 f_equal. lia.
Qed.
Print Assumptions C09_gaussian_pair.

Example C09_case :
  let g := BG (fun q => (q * q + 7) mod 256) 3 40 in
  generate_tensor (uniform_one 32) 2 g = Ret ([16 + 256 * 23 + 65536 * 32 + 16777216 * 43; 56 + 256 * 71 + 65536 * 88 + 16777216 * 107], bg_advance g 8)
  /\ generate_tensor uniform_binary_one 4 g = Ret ([0; 1; 0; 1], bg_advance g 4)
  /\ uniform_ternary_one 32 g = Ret (0, bg_advance g 1)
  /\ generate_tensor (uniform_ternary_one 8) 3 g = Ret ([0; 0; 0], bg_advance g 5).
Proof. vm_compute. repeat split. Qed.

(** ** C10: forks of the encryption generator *)

(** [g] was split in [n] children of [c] mask words each: every child yields its [c] words and then
    has no mask byte left, the words of the children read one after the other are the words the
    unforked generator yields, and the parent continues after them. *)
Definition mask_partition (w : Z) (g : egen) (n c : nat) (children : list egen) (parent : egen) : Prop :=
  length children = n /\
  exists words,
    omap (fun ch => let! (l, ch') := random_mask w c ch in
                    match generate_next (eg_mask ch') with Panic => Ret l | Ret _ => Panic end) children = Ret words /\
    length words = n /\
    exists g', random_mask w (n * c) g = Ret (concat words, g') /\ eg_mask g' = eg_mask parent.

Lemma umul_ok p a b : 0 <= a * b < 2 ^ usize_bits -> umul p a b = Ret (a * b).
Proof. intros. apply plain_ok. assumption. Qed.

Lemma omap_children w tab q c n children : 0 < w -> 0 < w / 8 ->
  (forall i, (i < n)%nat -> exists ch, nth_error children i = Some ch /\
     eg_mask ch = BG tab (q + Z.of_nat i * (Z.of_nat c * (w / 8))) (q + Z.of_nat i * (Z.of_nat c * (w / 8)) + Z.of_nat c * (w / 8))) ->
  length children = n ->
  omap (fun ch => let! (l, ch') := random_mask w c ch in
                  match generate_next (eg_mask ch') with Panic => Ret l | Ret _ => Panic end) children
  = Ret (map (fun i => table_words w tab (q + i * (Z.of_nat c * (w / 8))) c) (zseq 0 n)) /\
  concat (map (fun i => table_words w tab (q + i * (Z.of_nat c * (w / 8))) c) (zseq 0 n)) = table_words w tab q (n * c).
Proof.
  intros Hw Hw8. revert q children. induction n as [|n IH]; intros q children H Hl.
  - destruct children; [|discriminate]. repeat split; reflexivity.
  - destruct children as [|ch children]; [discriminate|]. injection Hl as Hl.
    destruct (H 0%nat ltac:(lia)) as (ch0 & E0 & Hm). cbn in E0. injection E0 as <-.
    change (Z.of_nat 0) with 0 in Hm. rewrite Z.mul_0_l, Z.add_0_r in Hm.
    destruct (IH (q + Z.of_nat c * (w / 8)) children) as (E1 & E2); [|assumption|].
    { intros i Hi. destruct (H (S i) ltac:(lia)) as (ch' & E' & Hm'). exists ch'. split; [exact E'|].
      rewrite Hm'. f_equal; lia. }
    assert (Emap : map (fun i => table_words w tab (q + Z.of_nat c * (w / 8) + i * (Z.of_nat c * (w / 8))) c) (zseq 0 n)
                 = map (fun i => table_words w tab (q + i * (Z.of_nat c * (w / 8))) c) (zseq (0 + 1) n)).
    { rewrite (zseq_shift 1 0), map_map. apply map_ext. intros i. f_equal. lia. }
    rewrite Emap in E1, E2. split.
    + cbn [omap]. unfold random_mask at 1. rewrite Hm.
      rewrite uniform_tensor_ok by (cbn; lia). cbn [obind eg_mask].
      unfold generate_next at 1. cbn [bg_pos bg_end bg_advance].
      destruct (Z.ltb_spec (q + Z.of_nat c * (w / 8)) (q + Z.of_nat c * (w / 8))); [lia|]. cbn [obind].
      rewrite E1. cbn [obind zseq map]. rewrite Z.mul_0_l, Z.add_0_r. reflexivity.
    + cbn [zseq map concat]. rewrite E2. cbn [Nat.mul]. rewrite table_words_app.
      rewrite Z.mul_0_l, Z.add_0_r. reflexivity.
Qed.

Theorem C10_fork_partitions_masks : forall p w g n c mb nb children parent,
  0 < w -> w mod 8 = 0 -> mb = Z.of_nat c * (w / 8) -> 0 <= nb ->
  Z.of_nat n * mb < 2 ^ 64 -> Z.of_nat n * nb < 2 ^ 64 ->
  eg_fork p g (Z.of_nat n) mb nb = Ret (Some children, parent) ->
  mask_partition w g n c children parent.
Proof.
  intros p w g n c mb nb children parent Hw Hm -> Hnb Hov Hov2 E.
  assert (Hw8 : 0 < w / 8) by lia.
  unfold eg_fork in E.
  destruct (bg_fork p (eg_mask g) (Z.of_nat n) (Z.of_nat c * (w / 8))) as [[[ms mask]|]|] eqn:Em; cbn [obind] in E; try discriminate.
  destruct (bg_fork p (eg_noise g) (Z.of_nat n) nb) as [[[ns noise]|]|] eqn:En; cbn [obind] in E; try discriminate.
  injection E as <- <-.
  apply bg_fork_inv in Em; [|lia|nia|assumption]. destruct Em as (Hn & Hb & Hle & -> & ->).
  apply bg_fork_inv in En; [|lia|lia|assumption]. destruct En as (_ & _ & _ & -> & ->).
  rewrite Nat2Z.id. set (ms := map _ _). set (ns := map _ _).
  assert (Lm : length ms = n) by (unfold ms; rewrite map_length, zseq_len; reflexivity).
  assert (Ln : length ns = n) by (unfold ns; rewrite map_length, zseq_len; reflexivity).
  assert (Lc : length (map2 EG ms ns) = n) by (rewrite map2_length; lia).
  split; [exact Lc|].
  destruct (omap_children w (bg_table (eg_mask g)) (bg_pos (eg_mask g)) c n (map2 EG ms ns) Hw Hw8) as (E1 & E2).
  - intros i Hi. unfold ms, ns. rewrite nth_error_map2, !nth_error_map, nth_error_zseq by assumption. cbn [option_map].
    eexists. split; [reflexivity|]. cbn [eg_mask bg_window]. unfold bg_window. f_equal; lia.
  - exact Lc.
  - eexists. split; [exact E1|]. split; [rewrite map_length, zseq_len; reflexivity|].
    rewrite E2. unfold random_mask.
    rewrite uniform_tensor_ok by nia. cbn [obind]. eexists. split; [reflexivity|].
    cbn [eg_mask]. f_equal. lia.
Qed.
Print Assumptions C10_fork_partitions_masks.

(** Every fork entry point: the number of mask words per child is the number of mask elements of
    the entity the child encrypts. *)
Definition fits (p : profile) (g : egen) (n mb nb : Z) : Prop :=
  n * mb < 2 ^ 64 /\ n * nb < 2 ^ 64 /\
  n * mb <= bg_end (eg_mask g) - bg_pos (eg_mask g) /\ n * nb <= bg_end (eg_noise g) - bg_pos (eg_noise g).

Lemma eg_fork_ok p w g n c mb nb : 0 < w -> w mod 8 = 0 -> (0 < n)%nat -> mb = Z.of_nat c * (w / 8) -> 0 < nb -> 0 < mb ->
  fits p g (Z.of_nat n) mb nb ->
  exists children parent, eg_fork p g (Z.of_nat n) mb nb = Ret (Some children, parent) /\
    mask_partition w g n c children parent.
Proof.
  intros Hw Hm Hn Hc Hnb Hmb (H1 & H2 & H3 & H4).
  assert (E : exists children parent, eg_fork p g (Z.of_nat n) mb nb = Ret (Some children, parent)).
  { unfold eg_fork. rewrite !bg_fork_ok by (unfold usize_bits; lia). cbn [obind]. eauto. }
  destruct E as (ch & pa & E). exists ch, pa. split; [exact E|].
  apply (C10_fork_partitions_masks p w g n c mb nb); auto; lia.
Qed.

Lemma pos_chain n m : 0 < n -> 0 < m -> n * m < 2 ^ 64 -> 0 < m < 2 ^ 64 /\ 0 <= n * m < 2 ^ usize_bits.
Proof. unfold usize_bits. nia. Qed.

Theorem C10_lwe_list : forall p w g (count n : nat), 0 < w -> w mod 8 = 0 -> (0 < count)%nat -> (0 < n)%nat ->
  fits p g (Z.of_nat count) (Z.of_nat n * (w / 8)) 768 ->
  exists children parent, fork_lwe_list_to_lwe p w g (Z.of_nat count) (Z.of_nat n + 1) = Ret (Some children, parent) /\
    mask_partition w g count n children parent.
Proof.
  intros p w g count n Hw Hm Hc Hn Hf. pose proof Hf as (H1 & H2 & _).
  assert (0 < w / 8) by lia. assert (0 < Z.of_nat n * (w / 8)) by nia.
  unfold fork_lwe_list_to_lwe, mask_bytes_per_lwe, noise_bytes_per_lwe, noise_bytes_per_coef, mask_bytes_per_coef.
  replace (Z.of_nat n + 1 - 1) with (Z.of_nat n) by lia.
  rewrite umul_ok by (unfold usize_bits; nia). cbn [obind]. rewrite umul_ok by (unfold usize_bits; lia). cbn [obind].
  apply (eg_fork_ok p w g count n); auto; lia.
Qed.
Print Assumptions C10_lwe_list.

Theorem C10_gsw_level : forall p w g (n : nat), 0 < w -> w mod 8 = 0 -> (0 < n)%nat ->
  fits p g (Z.of_nat n + 1) (Z.of_nat n * (w / 8)) 768 ->
  exists children parent, fork_gsw_level_to_lwe p w g (Z.of_nat n + 1) = Ret (Some children, parent) /\
    mask_partition w g (n + 1) n children parent.
Proof.
  intros p w g n Hw Hm Hn Hf. replace (Z.of_nat n + 1) with (Z.of_nat (n + 1)) in Hf by lia.
  destruct (C10_lwe_list p w g (n + 1) n Hw Hm ltac:(lia) Hn Hf) as (ch & pa & E & H).
  exists ch, pa. split; [|exact H]. rewrite <- E. unfold fork_gsw_level_to_lwe, fork_lwe_list_to_lwe.
  replace (Z.of_nat (n + 1)) with (Z.of_nat n + 1) by lia. reflexivity.
Qed.
Print Assumptions C10_gsw_level.

Theorem C10_gsw : forall p w g (l n : nat), 0 < w -> w mod 8 = 0 -> (0 < l)%nat -> (0 < n)%nat ->
  fits p g (Z.of_nat l) ((Z.of_nat n + 1) * (Z.of_nat n * (w / 8))) ((Z.of_nat n + 1) * 768) ->
  exists children parent, fork_gsw_to_gsw_levels p w g (Z.of_nat l) (Z.of_nat n + 1) = Ret (Some children, parent) /\
    mask_partition w g l ((n + 1) * n) children parent.
Proof.
  intros p w g l n Hw Hm Hl Hn Hf. pose proof Hf as (H1 & H2 & _).
  assert (Hb : 0 < w / 8) by lia. set (b := w / 8) in *.
  assert (P1 : 0 < Z.of_nat n * b) by nia. assert (P2 : 0 < (Z.of_nat n + 1) * (Z.of_nat n * b)) by nia.
  destruct (pos_chain (Z.of_nat l) _ ltac:(lia) P2 H1) as [Q1 _].
  destruct (pos_chain (Z.of_nat n + 1) _ ltac:(lia) P1 ltac:(lia)) as [Q2 Q3].
  destruct (pos_chain (Z.of_nat l) ((Z.of_nat n + 1) * 768) ltac:(lia) ltac:(lia) H2) as [Q4 Q5].
  unfold fork_gsw_to_gsw_levels, mask_bytes_per_gsw_level, noise_bytes_per_gsw_level, mask_bytes_per_lwe,
    noise_bytes_per_lwe, noise_bytes_per_coef, mask_bytes_per_coef. fold b.
  replace (Z.of_nat n + 1 - 1) with (Z.of_nat n) by lia.
  rewrite umul_ok by (unfold usize_bits; lia). cbn [obind]. rewrite umul_ok by (unfold usize_bits; lia). cbn [obind].
  rewrite umul_ok by (unfold usize_bits; lia). cbn [obind]. change (256 * 3) with 768.
  rewrite umul_ok by (unfold usize_bits; lia). cbn [obind].
  apply (eg_fork_ok p w g l ((n + 1) * n)); auto; fold b; lia.
Qed.
Print Assumptions C10_gsw.

Theorem C10_ggsw_level : forall p w g (k N : nat), 0 < w -> w mod 8 = 0 -> (0 < k)%nat -> (0 < N)%nat ->
  fits p g (Z.of_nat k + 1) (Z.of_nat k * (Z.of_nat N * (w / 8))) (Z.of_nat N * 256) ->
  exists children parent, fork_ggsw_level_to_glwe p w g (Z.of_nat k + 1) (Z.of_nat N) = Ret (Some children, parent) /\
    mask_partition w g (k + 1) (k * N) children parent.
Proof.
  intros p w g k N Hw Hm Hk HN Hf. pose proof Hf as (H1 & H2 & _).
  assert (Hb : 0 < w / 8) by lia. set (b := w / 8) in *.
  assert (P1 : 0 < Z.of_nat N * b) by nia. assert (P2 : 0 < Z.of_nat k * (Z.of_nat N * b)) by nia.
  destruct (pos_chain (Z.of_nat k + 1) _ ltac:(lia) P2 H1) as [Q1 _].
  destruct (pos_chain (Z.of_nat k) _ ltac:(lia) P1 ltac:(lia)) as [Q2 Q3].
  destruct (pos_chain (Z.of_nat k + 1) (Z.of_nat N * 256) ltac:(lia) ltac:(lia) H2) as [Q4 _].
  unfold fork_ggsw_level_to_glwe, mask_bytes_per_glwe, noise_bytes_per_glwe, mask_bytes_per_polynomial,
    noise_bytes_per_polynomial, noise_bytes_per_coef, mask_bytes_per_coef. fold b.
  replace (Z.of_nat k + 1 - 1) with (Z.of_nat k) by lia.
  rewrite umul_ok by (unfold usize_bits; lia). cbn [obind]. rewrite umul_ok by (unfold usize_bits; lia). cbn [obind].
  rewrite umul_ok by (unfold usize_bits; lia). cbn [obind].
  replace (Z.of_nat k + 1) with (Z.of_nat (k + 1)) in * by lia.
  apply (eg_fork_ok p w g (k + 1) (k * N)); auto; fold b; lia.
Qed.
Print Assumptions C10_ggsw_level.

Theorem C10_ggsw : forall p w g (l k N : nat), 0 < w -> w mod 8 = 0 -> (0 < l)%nat -> (0 < k)%nat -> (0 < N)%nat ->
  fits p g (Z.of_nat l) ((Z.of_nat k + 1) * (Z.of_nat k * (Z.of_nat N * (w / 8)))) ((Z.of_nat k + 1) * (Z.of_nat N * 256)) ->
  exists children parent, fork_ggsw_to_ggsw_levels p w g (Z.of_nat l) (Z.of_nat k + 1) (Z.of_nat N) = Ret (Some children, parent) /\
    mask_partition w g l ((k + 1) * (k * N)) children parent.
Proof.
  intros p w g l k N Hw Hm Hl Hk HN Hf. pose proof Hf as (H1 & H2 & _).
  assert (Hb : 0 < w / 8) by lia. set (b := w / 8) in *.
  assert (P1 : 0 < Z.of_nat N * b) by nia. assert (P2 : 0 < Z.of_nat k * (Z.of_nat N * b)) by nia.
  assert (P3 : 0 < (Z.of_nat k + 1) * (Z.of_nat k * (Z.of_nat N * b))) by nia.
  destruct (pos_chain (Z.of_nat l) _ ltac:(lia) P3 H1) as [Q1 _].
  destruct (pos_chain (Z.of_nat k + 1) _ ltac:(lia) P2 ltac:(lia)) as [Q2 Q3].
  destruct (pos_chain (Z.of_nat k) _ ltac:(lia) P1 ltac:(lia)) as [Q4 Q5].
  assert (P4 : 0 < (Z.of_nat k + 1) * (Z.of_nat N * 256)) by nia.
  destruct (pos_chain (Z.of_nat l) _ ltac:(lia) P4 H2) as [Q6 _].
  destruct (pos_chain (Z.of_nat k + 1) (Z.of_nat N * 256) ltac:(lia) ltac:(lia) ltac:(lia)) as [Q7 Q8].
  unfold fork_ggsw_to_ggsw_levels, mask_bytes_per_ggsw_level, noise_bytes_per_ggsw_level, mask_bytes_per_glwe, noise_bytes_per_glwe, mask_bytes_per_polynomial,
    noise_bytes_per_polynomial, noise_bytes_per_coef, mask_bytes_per_coef. fold b.
  replace (Z.of_nat k + 1 - 1) with (Z.of_nat k) by lia.
  rewrite umul_ok by (unfold usize_bits; lia). cbn [obind]. rewrite umul_ok by (unfold usize_bits; lia). cbn [obind].
  rewrite umul_ok by (unfold usize_bits; lia). cbn [obind]. rewrite umul_ok by (unfold usize_bits; lia). cbn [obind].
  rewrite umul_ok by (unfold usize_bits; lia). cbn [obind].
  apply (eg_fork_ok p w g l ((k + 1) * (k * N))); auto; fold b; lia.
Qed.
Print Assumptions C10_ggsw.

Theorem C10_bootstrap_key : forall p w g (n l k N : nat), 0 < w -> w mod 8 = 0 -> (0 < n)%nat -> (0 < l)%nat -> (0 < k)%nat -> (0 < N)%nat ->
  fits p g (Z.of_nat n) (Z.of_nat l * ((Z.of_nat k + 1) * (Z.of_nat k * (Z.of_nat N * (w / 8))))) (Z.of_nat l * ((Z.of_nat k + 1) * (Z.of_nat N * 256))) ->
  exists children parent, fork_bsk_to_ggsw p w g (Z.of_nat n) (Z.of_nat l) (Z.of_nat k + 1) (Z.of_nat N) = Ret (Some children, parent) /\
    mask_partition w g n (l * ((k + 1) * (k * N))) children parent.
Proof.
  intros p w g n l k N Hw Hm Hn Hl Hk HN Hf. pose proof Hf as (H1 & H2 & _).
  assert (Hb : 0 < w / 8) by lia. set (b := w / 8) in *.
  assert (P1 : 0 < Z.of_nat N * b) by nia. assert (P2 : 0 < Z.of_nat k * (Z.of_nat N * b)) by nia.
  assert (P3 : 0 < (Z.of_nat k + 1) * (Z.of_nat k * (Z.of_nat N * b))) by nia.
  assert (P3' : 0 < Z.of_nat l * ((Z.of_nat k + 1) * (Z.of_nat k * (Z.of_nat N * b)))) by nia.
  destruct (pos_chain (Z.of_nat n) _ ltac:(lia) P3' H1) as [Q0 _].
  destruct (pos_chain (Z.of_nat l) _ ltac:(lia) P3 ltac:(lia)) as [Q1 Q1'].
  destruct (pos_chain (Z.of_nat k + 1) _ ltac:(lia) P2 ltac:(lia)) as [Q2 Q3].
  destruct (pos_chain (Z.of_nat k) _ ltac:(lia) P1 ltac:(lia)) as [Q4 Q5].
  assert (P4 : 0 < (Z.of_nat k + 1) * (Z.of_nat N * 256)) by nia.
  assert (P5 : 0 < Z.of_nat l * ((Z.of_nat k + 1) * (Z.of_nat N * 256))) by nia.
  destruct (pos_chain (Z.of_nat n) _ ltac:(lia) P5 H2) as [Q6 _].
  destruct (pos_chain (Z.of_nat l) _ ltac:(lia) P4 ltac:(lia)) as [Q6' Q6''].
  destruct (pos_chain (Z.of_nat k + 1) (Z.of_nat N * 256) ltac:(lia) ltac:(lia) ltac:(lia)) as [Q7 Q8].
  unfold fork_bsk_to_ggsw, mask_bytes_per_ggsw, noise_bytes_per_ggsw, mask_bytes_per_ggsw_level, noise_bytes_per_ggsw_level, mask_bytes_per_glwe, noise_bytes_per_glwe, mask_bytes_per_polynomial,
    noise_bytes_per_polynomial, noise_bytes_per_coef, mask_bytes_per_coef. fold b.
  replace (Z.of_nat k + 1 - 1) with (Z.of_nat k) by lia.
  do 7 (rewrite umul_ok by (unfold usize_bits; lia); cbn [obind]).
  apply (eg_fork_ok p w g n (l * ((k + 1) * (k * N)))); auto; fold b; lia.
Qed.
Print Assumptions C10_bootstrap_key.

Theorem C10_pfpksk_chunks : forall p w g (n l k N : nat), 0 < w -> w mod 8 = 0 -> (0 < l)%nat -> (0 < k)%nat -> (0 < N)%nat ->
  fits p g (Z.of_nat n + 1) (Z.of_nat l * (Z.of_nat k * (Z.of_nat N * (w / 8)))) (Z.of_nat l * (Z.of_nat N * 256)) ->
  exists children parent, fork_pfpksk_to_pfpksk_chunks p w g (Z.of_nat l) (Z.of_nat k + 1) (Z.of_nat N) (Z.of_nat n + 1) = Ret (Some children, parent) /\
    mask_partition w g (n + 1) (l * (k * N)) children parent.
Proof.
  intros p w g n l k N Hw Hm Hl Hk HN Hf. pose proof Hf as (H1 & H2 & _).
  assert (Hb : 0 < w / 8) by lia. set (b := w / 8) in *.
  assert (P1 : 0 < Z.of_nat N * b) by nia. assert (P2 : 0 < Z.of_nat k * (Z.of_nat N * b)) by nia.
  assert (P3 : 0 < Z.of_nat l * (Z.of_nat k * (Z.of_nat N * b))) by nia.
  destruct (pos_chain (Z.of_nat n + 1) _ ltac:(lia) P3 H1) as [Q1 _].
  destruct (pos_chain (Z.of_nat l) _ ltac:(lia) P2 ltac:(lia)) as [Q2 Q3].
  destruct (pos_chain (Z.of_nat k) _ ltac:(lia) P1 ltac:(lia)) as [Q4 Q5].
  assert (P4 : 0 < Z.of_nat l * (Z.of_nat N * 256)) by nia.
  destruct (pos_chain (Z.of_nat n + 1) _ ltac:(lia) P4 H2) as [Q6 _].
  destruct (pos_chain (Z.of_nat l) (Z.of_nat N * 256) ltac:(lia) ltac:(lia) ltac:(lia)) as [Q7 Q8].
  unfold fork_pfpksk_to_pfpksk_chunks, mask_bytes_per_pfpksk_chunk, noise_bytes_per_pfpksk_chunk, mask_bytes_per_glwe, noise_bytes_per_glwe, mask_bytes_per_polynomial,
    noise_bytes_per_polynomial, noise_bytes_per_coef, mask_bytes_per_coef. fold b.
  replace (Z.of_nat k + 1 - 1) with (Z.of_nat k) by lia.
  do 5 (rewrite umul_ok by (unfold usize_bits; lia); cbn [obind]).
  replace (Z.of_nat n + 1) with (Z.of_nat (n + 1)) in * by lia.
  apply (eg_fork_ok p w g (n + 1) (l * (k * N))); auto; fold b; lia.
Qed.
Print Assumptions C10_pfpksk_chunks.

Theorem C10_cbs_pfpksk_list : forall p w g (count n l k N : nat), 0 < w -> w mod 8 = 0 -> (0 < count)%nat -> (0 < l)%nat -> (0 < k)%nat -> (0 < N)%nat ->
  fits p g (Z.of_nat count) ((Z.of_nat n + 1) * (Z.of_nat l * (Z.of_nat k * (Z.of_nat N * (w / 8))))) ((Z.of_nat n + 1) * (Z.of_nat l * (Z.of_nat N * 256))) ->
  exists children parent, fork_cbs_pfpksk_to_pfpksk p w g (Z.of_nat l) (Z.of_nat k + 1) (Z.of_nat N) (Z.of_nat n + 1) (Z.of_nat count) = Ret (Some children, parent) /\
    mask_partition w g count ((n + 1) * (l * (k * N))) children parent.
Proof.
  intros p w g count n l k N Hw Hm Hc Hl Hk HN Hf. pose proof Hf as (H1 & H2 & _).
  assert (Hb : 0 < w / 8) by lia. set (b := w / 8) in *.
  assert (P1 : 0 < Z.of_nat N * b) by nia. assert (P2 : 0 < Z.of_nat k * (Z.of_nat N * b)) by nia.
  assert (P3 : 0 < Z.of_nat l * (Z.of_nat k * (Z.of_nat N * b))) by nia.
  assert (P3' : 0 < (Z.of_nat n + 1) * (Z.of_nat l * (Z.of_nat k * (Z.of_nat N * b)))) by nia.
  destruct (pos_chain (Z.of_nat count) _ ltac:(lia) P3' H1) as [Q0 _].
  destruct (pos_chain (Z.of_nat n + 1) _ ltac:(lia) P3 ltac:(lia)) as [Q1 Q1'].
  destruct (pos_chain (Z.of_nat l) _ ltac:(lia) P2 ltac:(lia)) as [Q2 Q3].
  destruct (pos_chain (Z.of_nat k) _ ltac:(lia) P1 ltac:(lia)) as [Q4 Q5].
  assert (P4 : 0 < Z.of_nat l * (Z.of_nat N * 256)) by nia.
  assert (P5 : 0 < (Z.of_nat n + 1) * (Z.of_nat l * (Z.of_nat N * 256))) by nia.
  destruct (pos_chain (Z.of_nat count) _ ltac:(lia) P5 H2) as [Q6 _].
  destruct (pos_chain (Z.of_nat n + 1) _ ltac:(lia) P4 ltac:(lia)) as [Q6' Q6''].
  destruct (pos_chain (Z.of_nat l) (Z.of_nat N * 256) ltac:(lia) ltac:(lia) ltac:(lia)) as [Q7 Q8].
  unfold fork_cbs_pfpksk_to_pfpksk, mask_bytes_per_pfpksk, noise_bytes_per_pfpksk, mask_bytes_per_pfpksk_chunk, noise_bytes_per_pfpksk_chunk, mask_bytes_per_glwe, noise_bytes_per_glwe, mask_bytes_per_polynomial,
    noise_bytes_per_polynomial, noise_bytes_per_coef, mask_bytes_per_coef. fold b.
  replace (Z.of_nat k + 1 - 1) with (Z.of_nat k) by lia.
  do 7 (rewrite umul_ok by (unfold usize_bits; lia); cbn [obind]).
  apply (eg_fork_ok p w g count ((n + 1) * (l * (k * N)))); auto; fold b; lia.
Qed.
Print Assumptions C10_cbs_pfpksk_list.

(** A refused fork does not always leave the generator as it was: when only the noise generator is
    too short the mask bytes are gone. *)
Theorem C10_refused_fork_loses_masks_refuted : exists g parent,
  fork_lwe_list_to_lwe Debug 32 g 2 4 = Ret (None, parent) /\ parent <> g /\
  bg_pos (eg_mask parent) = bg_pos (eg_mask g) + 24.
Proof.
  exists (EG (BG (fun _ => 1) 0 1000) (BG (fun _ => 2) 0 100)). eexists.
  split; [vm_compute; reflexivity|]. split; [|reflexivity].
  intros E. apply (f_equal (fun g => bg_pos (eg_mask g))) in E. cbn in E. discriminate.
Qed.
Print Assumptions C10_refused_fork_loses_masks_refuted.

(** A GLWE dimension of 0 gives children without mask bytes, which the byte generator refuses. *)
Theorem C10_zero_dimension_refused : forall p w g (N : nat), Z.of_nat N * (w / 8) < 2 ^ 64 -> 0 <= w -> Z.of_nat N * 256 < 2 ^ 64 ->
  fork_ggsw_level_to_glwe p w g 1 (Z.of_nat N) = Ret (None, g).
Proof.
  intros p w g N H Hw H2. assert (0 <= w / 8) by lia.
  unfold fork_ggsw_level_to_glwe, mask_bytes_per_glwe, noise_bytes_per_glwe, mask_bytes_per_polynomial,
    noise_bytes_per_polynomial, noise_bytes_per_coef, mask_bytes_per_coef.
  rewrite umul_ok by (unfold usize_bits; nia). cbn [obind]. change (1 - 1) with 0.
  rewrite umul_ok by (unfold usize_bits; lia). cbn [obind]. rewrite umul_ok by (unfold usize_bits; lia). cbn [obind].
  rewrite Z.mul_0_l. reflexivity.
Qed.
Print Assumptions C10_zero_dimension_refused.

Example C10_case : exists children parent,
  let g := EG (BG (fun q => q mod 256) 10 100000) (BG (fun q => q mod 256) 0 100000) in
  fits Debug g 3 (2 * (2 * (1 * (4 * (32 / 8))))) (2 * (2 * (4 * 256))) /\
  fork_bsk_to_ggsw Debug 32 g 3 2 2 4 = Ret (Some children, parent) /\
  length children = 3%nat /\
  match children with
  | [_; c1; _] => bg_pos (eg_mask c1) = 74 /\ bg_end (eg_mask c1) = 138 /\ bg_pos (eg_noise c1) = 4096
  | _ => False
  end.
Proof.
  eexists. eexists. cbv zeta. split; [repeat split; vm_compute; (reflexivity || discriminate)|].
  split; [vm_compute; reflexivity|]. split; [reflexivity|]. repeat split.
Qed.
