(** * Proofs about the external product loops *)
From Verif Require Import Base Word WordFacts DecompModel DecompProofs NegaRing PolySpec PolyProofs RingSum
  PolyModel LweProofs GlweSpec GlweModel GlweProofs GgswSpec ExtProdModel ExtProdSpec.

(** ** The levels loop *)

(** [next] yields the terms [terms], of levels l, l-1, ..., 1. *)
Fixpoint yields {It} (next : It -> outcome (option (nat * list Z) * It)) (it : It) (l : nat) (terms : list (list Z)) : Prop :=
  match terms with
  | [] => l = O
  | x :: terms' => exists l' it', l = S l' /\ next it = Ret (Some (l, x), it') /\ yields next it' l' terms'
  end.

Lemma ep_levels_ok {It D A} p next N (step : A -> list D -> D -> A) fwd levels : forall (it : It) terms acc,
  yields next it (length levels) terms ->
  ep_levels p next N step fwd levels it acc
  = Ret (fold_left (fun acc '(rows, term) => ep_rows step fwd rows (chunks N term) acc) (combine levels terms) acc).
Proof.
  induction levels as [|rows levels IH]; intros it terms acc H; [reflexivity|].
  destruct terms as [|x terms]; [discriminate H|]. destruct H as (l' & it' & El & En & Hy).
  cbn [ep_levels combine fold_left]. rewrite En. cbn [obind]. rewrite ck_dim_eq_ok by reflexivity. cbn [obind].
  apply IH. cbn [length] in El. injection El as ->. exact Hy.
Qed.

Lemma ep_rows_fold {D A} (step : A -> list D -> D -> A) fwd rows polys acc :
  ep_rows step fwd rows polys acc = fold_left (fun acc '(row, q) => step acc row (fwd q)) (combine rows polys) acc.
Proof. revert polys acc. induction rows as [|r rows IH]; intros [|q polys] acc; cbn; auto. Qed.

Lemma fold_left_flat {A B C} (f : A -> B -> A) (h : C -> list B) (g : A -> C -> A) l :
  (forall a c, g a c = fold_left f (h c) a) -> forall a, fold_left g l a = fold_left f (flat_map h l) a.
Proof.
  intros Hg. induction l as [|c l IH]; intros a; [reflexivity|]. cbn [fold_left flat_map]. rewrite fold_left_app, IH, Hg. reflexivity.
Qed.

(** ** Decomposition terms *)
Definition dgt (w : Z) (b : Z) (l t : nat) (st : Z) : Z := nth t (digits w b l st) 0.

Lemma lending_next_ok p w d it l : dec_wf w d -> le_base_log it = base_log d -> le_mask it = 2 ^ base_log d - 1 ->
  le_current_level it = S l -> (S l <= level_count d)%nat ->
  Forall (fun s => 0 <= s <= 2 ^ (base_log d * Z.of_nat (S l))) (le_states it) ->
  exists it', lending_next2 p w it = Ret (Some (S l, map (fun s => fst (decompose_one_level w (base_log d) s)) (le_states it)), it') /\
    le_base_log it' = base_log d /\ le_mask it' = 2 ^ base_log d - 1 /\ le_current_level it' = l /\
    le_states it' = map (fun s => snd (decompose_one_level w (base_log d) s)) (le_states it) /\
    Forall (fun s => 0 <= s <= 2 ^ (base_log d * Z.of_nat l)) (le_states it').
Proof.
  intros Hd E1 E2 El Hl Hs. pose proof Hd as (H1 & H2 & H3 & H4). rewrite Forall_forall in Hs.
  unfold lending_next2, lending_next. rewrite El, E1, E2.
  rewrite (omap_ok _ (decompose_one_level w (base_log d))).
  - cbn [obind]. rewrite !map_map. eexists. split; [reflexivity|]. cbn [le_base_log le_mask le_current_level le_states].
    repeat (split; [reflexivity|]). apply Forall_forall. intros s Hin. rewrite in_map_iff in Hin.
    destruct Hin as (s0 & <- & Hin). specialize (Hs _ Hin).
    destruct (one_level w (base_log d) s0) as (D & st' & E & _ & _ & H0 & Hle); [nia|lia|].
    rewrite E. cbn [snd]. split; [assumption|]. apply Hle; [nia|]. rewrite <- Z.pow_add_r by nia.
    replace (base_log d + base_log d * Z.of_nat l) with (base_log d * Z.of_nat (S l)) by lia. lia.
  - intros s Hin. specialize (Hs _ Hin). apply one_level_ok; [nia|lia|]. split; [lia|].
    eapply Z.le_lt_trans; [apply Hs|]. apply Z.pow_lt_mono_r; nia.
Qed.

Lemma dgt_0 w b l st : dgt w b (S l) 0 st = fst (decompose_one_level w b st).
Proof. unfold dgt. cbn [digits]. destruct (decompose_one_level w b st). reflexivity. Qed.
Lemma dgt_S w b l t st : dgt w b (S l) (S t) st = dgt w b l t (snd (decompose_one_level w b st)).
Proof. unfold dgt. cbn [digits]. destruct (decompose_one_level w b st). reflexivity. Qed.

Lemma map_seq_S {A} (f : nat -> A) n : map f (seq 0 (S n)) = f O :: map (fun t => f (S t)) (seq 0 n).
Proof. cbn [seq map]. f_equal. rewrite <- seq_shift, map_map. reflexivity. Qed.

Lemma nth_map_seq {A} (f : nat -> A) n u d : (u < n)%nat -> nth u (map f (seq 0 n)) d = f u.
Proof.
  intros H. rewrite (nth_indep _ d (f O)) by (rewrite map_length, seq_length; lia).
  rewrite map_nth, seq_nth by assumption. reflexivity.
Qed.

Lemma lending_yields p w d : dec_wf w d -> forall l it, le_base_log it = base_log d -> le_mask it = 2 ^ base_log d - 1 ->
  le_current_level it = l -> (l <= level_count d)%nat ->
  Forall (fun s => 0 <= s <= 2 ^ (base_log d * Z.of_nat l)) (le_states it) ->
  yields (lending_next2 p w) it l (map (fun t => map (dgt w (base_log d) l t) (le_states it)) (seq 0 l)).
Proof.
  intros Hd. induction l as [|l IH]; intros it E1 E2 El Hl Hs; [reflexivity|].
  destruct (lending_next_ok p w d it l Hd E1 E2 El Hl Hs) as (it' & En & E1' & E2' & El' & Es' & Hs').
  rewrite map_seq_S. cbn [yields]. exists l, it'. split; [reflexivity|]. split.
  - rewrite En. reflexivity.
  - specialize (IH it' E1' E2' El' ltac:(lia) Hs').
    replace (map (fun t => map (dgt w (base_log d) (S l) (S t)) (le_states it)) (seq 0 l))
      with (map (fun t => map (dgt w (base_log d) l t) (le_states it')) (seq 0 l)); [exact IH|].
    apply map_ext. intros t. rewrite Es', map_map. apply map_ext. intros s. symmetry. apply dgt_S.
Qed.

(** The digit of [x] at the t-th step (level l - t), as the code yields it. *)
Definition xdigit (w : Z) (d : decomposer) (t : nat) (x : Z) : Z := nth t (decomp w d x) 0.

Lemma lending_new_ok p w d xs : dec_wf w d -> Forall (is_word w) xs ->
  exists it, lending_new p w (map (closest_representable w d) xs) (base_log d) (level_count d) = Ret it /\
    yields (lending_next2 p w) it (level_count d) (map (fun t => map (xdigit w d t) xs) (seq 0 (level_count d))).
Proof.
  intros Hd Hx. rewrite Forall_forall in Hx. pose proof Hd as (H1 & H2 & H3 & H4).
  unfold lending_new, usize_bits. rewrite plain_ok by nia. cbn [obind]. rewrite plain_ok by nia. cbn [obind].
  rewrite (omap_ok _ (fun x => shr x (w - base_log d * Z.of_nat (level_count d)))) by (intros; apply shr_ok; nia).
  cbn [obind]. rewrite map_map. pose proof (mask_ok p w (base_log d) ltac:(nia)) as Hm.
  destruct (shl_ p w 1 (base_log d)) as [m|]; cbn [obind] in *; [|discriminate]. rewrite Hm. cbn [obind].
  eexists. split; [reflexivity|].
  match goal with |- yields _ ?it _ _ => pose proof (lending_yields p w d Hd (level_count d) it eq_refl eq_refl eq_refl (le_n _)) as HY end.
  cbn [le_states] in HY.
  replace (map (fun t => map (xdigit w d t) xs) (seq 0 (level_count d)))
    with (map (fun t => map (dgt w (base_log d) (level_count d) t)
             (map (fun x => shr (closest_representable w d x) (w - base_log d * Z.of_nat (level_count d))) xs)) (seq 0 (level_count d))).
  - apply HY. apply Forall_forall. intros s Hs. rewrite in_map_iff in Hs. destruct Hs as (x & <- & Hin).
    apply start_state; auto.
  - apply map_ext. intros t. rewrite map_map. reflexivity.
Qed.

(** ** Signed digits *)
Definition sdigit (w : Z) (d : decomposer) (t : nat) (x : Z) : Z := sgn w (xdigit w d t x).

Lemma xdigit_spec w d x t : dec_wf w d -> is_word w x -> (t < level_count d)%nat ->
  is_word w (xdigit w d t x) /\ Z.abs (sdigit w d t x) <= 2 ^ (base_log d - 1).
Proof.
  intros Hd Hx Ht. destruct (decomp_spec w d x Hd Hx) as (Ds & E & Hl & HF & _).
  pose proof Hd as (H1 & H2 & H3 & H4). unfold sdigit, xdigit. rewrite E.
  change 0 with (0 mod 2 ^ w). rewrite (map_nth (fun D => D mod 2 ^ w)).
  split; [apply Z.mod_pos_bound, pow2_pos; lia|].
  assert (HD : - 2 ^ (base_log d - 1) <= nth t Ds 0 <= 2 ^ (base_log d - 1)).
  { rewrite Forall_forall in HF. apply HF. apply nth_In. lia. }
  rewrite (sgn_digit w (nth t Ds 0) (base_log d)); [lia|nia|assumption].
Qed.

Lemma levels_sum_sumz w b Ds l : length Ds = l ->
  levels_sum w b Ds = sumz l (fun j => 2 ^ (w - b * (j + 1)) * nth (l - 1 - Z.to_nat j) Ds 0).
Proof.
  revert l. induction Ds as [|D Ds IH]; intros l Hl; [subst; reflexivity|].
  destruct l as [|l]; [discriminate|]. injection Hl as Hl.
  change (sumz (S l) ?f) with (sumz l f + f (Z.of_nat l)). cbn beta.
  rewrite (sumz_ext l (fun j => 2 ^ (w - b * (j + 1)) * nth (S l - 1 - Z.to_nat j) (D :: Ds) 0)
            (fun j => 2 ^ (w - b * (j + 1)) * nth (l - 1 - Z.to_nat j) Ds 0)).
  - rewrite <- (IH l Hl). rewrite Nat2Z.id. replace (S l - 1 - l)%nat with O by lia. cbn [nth levels_sum length].
    rewrite Hl. replace (Z.of_nat (S l)) with (Z.of_nat l + 1) by lia. lia.
  - intros j Hj. replace (S l - 1 - Z.to_nat j)%nat with (S (l - 1 - Z.to_nat j)) by lia. reflexivity.
Qed.

Lemma sdigit_recompose w d x : dec_wf w d -> is_word w x ->
  eqm (2 ^ w) (sumz (level_count d) (fun j => 2 ^ (w - base_log d * (j + 1)) * sdigit w d (level_count d - 1 - Z.to_nat j) x))
    (closest_representable w d x).
Proof.
  intros Hd Hx. destruct (decomp_spec w d x Hd Hx) as (Ds & E & Hl & HF & HS).
  rewrite <- HS, (levels_sum_sumz _ _ Ds (level_count d) Hl). apply sumz_eqm. intros j Hj.
  pose proof Hd as (H1 & H2 & H3 & H4). unfold sdigit, xdigit. rewrite E.
  change 0 with (0 mod 2 ^ w) at 1. rewrite (map_nth (fun D => D mod 2 ^ w)).
  assert (HD : - 2 ^ (base_log d - 1) <= nth (level_count d - 1 - Z.to_nat j) Ds 0 <= 2 ^ (base_log d - 1)).
  { rewrite Forall_forall in HF. apply HF. apply nth_In. lia. }
  rewrite (sgn_digit w _ (base_log d)); [reflexivity|nia|assumption].
Qed.

(** ** The accumulation, polynomial by polynomial *)
Section Acc.
Context (B : backend).

Lemma nth_zip_update {A C} (f : A -> C -> A) a r u da dc : length a = length r -> (u < length a)%nat ->
  nth u (zip_update f a r) da = f (nth u a da) (nth u r dc).
Proof.
  revert r u. induction a as [|x a IH]; intros [|y r] u Hl Hu; try discriminate; [cbn in Hu; lia|].
  destruct u as [|u]; [reflexivity|]. cbn [zip_update nth]. apply IH; cbn in *; lia.
Qed.

Definition key_row (row : list (list Z)) : list (bk_dom B) := map (bk_key B) row.

Lemma fmadd_some n : forall flat a, length a = n -> Forall (fun '(row, _) => length row = n) flat ->
  exists a', fold_left (fun acc '(row, q) => update_with_fmadd B acc (key_row row) (bk_digit B q)) flat (Some a) = Some a' /\
    length a' = n /\
    forall u, (u < n)%nat -> nth u a' (bk_key B []) =
      fold_left (fun o '(row, q) => bk_mac B o (bk_key B (nth u row [])) (bk_digit B q)) flat (nth u a (bk_key B [])).
Proof.
  induction flat as [|[row q] flat IH]; intros a Ha Hf.
  - exists a. repeat split; auto.
  - pose proof (Forall_inv Hf) as Hr. cbn beta iota in Hr. apply Forall_inv_tail in Hf.
    cbn [fold_left update_with_fmadd].
    destruct (IH (zip_update (fun o g => bk_mac B o g (bk_digit B q)) a (key_row row))) as (a' & E & Hl & Hn);
      [rewrite zip_update_length; assumption|assumption|].
    exists a'. split; [exact E|]. split; [exact Hl|]. intros u Hu. rewrite (Hn u Hu). f_equal.
    assert (Hkr : length (key_row row) = length row) by apply map_length.
    rewrite (nth_zip_update _ a (key_row row) u (bk_key B []) (bk_key B [])); [|congruence|congruence].
    unfold key_row. rewrite map_nth. reflexivity.
Qed.

(** The pairs accumulated in output polynomial [u]. *)
Definition pairs_of (flat : list (list (list Z) * list Z)) (u : nat) : list (list Z * list Z) :=
  map (fun '(row, q) => (nth u row [], q)) flat.

Lemma fold_left_map {A C D} (f : A -> D -> A) (h : C -> D) l a : fold_left f (map h l) a = fold_left (fun a c => f a (h c)) l a.
Proof. revert a. induction l as [|c l IH]; intros a; cbn; auto. Qed.

Lemma fmadd_out n flat out : length out = n -> Forall (fun '(row, _) => length row = n) flat ->
  match fold_left (fun acc '(row, q) => update_with_fmadd B acc (key_row row) (bk_digit B q)) flat None with
  | None => out
  | Some a => zip_update (bk_add_back B) out a
  end = map (fun u => bk_run B (nth u out []) (pairs_of flat u)) (seq 0 n).
Proof.
  intros Ho Hf. destruct flat as [|[row q] flat].
  - cbn [fold_left]. unfold pairs_of. cbn [map bk_run]. subst n. clear.
    induction out as [|a out IH]; [reflexivity|]. cbn [length]. rewrite map_seq_S. cbn [nth]. congruence.
  - pose proof (Forall_inv Hf) as Hr. cbn beta iota in Hr. apply Forall_inv_tail in Hf.
    cbn [fold_left update_with_fmadd].
    destruct (fmadd_some n flat (map (fun g => bk_mul B g (bk_digit B q)) (key_row row))) as (a' & E & Hl & Hn);
      [rewrite map_length; unfold key_row; rewrite map_length; assumption|assumption|].
    rewrite E. apply (nth_ext _ _ [] []).
    + rewrite zip_update_length, map_length, seq_length. assumption.
    + intros u Hu. rewrite zip_update_length, Ho in Hu.
      rewrite (nth_zip_update _ _ _ u [] (bk_key B [])) by congruence.
      rewrite (Hn u Hu).
      rewrite nth_map_seq by assumption. unfold pairs_of. cbn [map bk_run]. f_equal. rewrite fold_left_map.
      assert (E0 : nth u (map (fun g => bk_mul B g (bk_digit B q)) (key_row row)) (bk_key B [])
               = bk_mul B (bk_key B (nth u row [])) (bk_digit B q)).
      { unfold key_row. rewrite map_map.
        rewrite (nth_indep _ _ (bk_mul B (bk_key B []) (bk_digit B q))) by (rewrite map_length; lia).
        apply (map_nth (fun g => bk_mul B (bk_key B g) (bk_digit B q))). }
      rewrite E0. clear. generalize (bk_mul B (bk_key B (nth u row [])) (bk_digit B q)).
      induction flat as [|[r0 q0] flat IH]; intros o; [reflexivity|]. cbn [fold_left]. apply IH.
Qed.
End Acc.

(** The rows and digit polynomials in the order in which they are processed. *)
Definition ep_flat (w : Z) (d : decomposer) (G : list (list (list (list Z)))) (c : list (list Z)) : list (list (list Z) * list Z) :=
  flat_map (fun t => combine (nth t (rev G) []) (map (map (xdigit w d t)) c)) (seq 0 (length G)).

Lemma chunks_map {A C} n (h : A -> C) ls : (0 < n)%nat -> Forall (fun c => length c = n) ls ->
  chunks n (map h (concat ls)) = map (map h) ls.
Proof.
  intros Hn H. rewrite concat_map. apply chunks_concat; [assumption|]. rewrite Forall_map.
  eapply Forall_impl; [|exact H]. intros a Ha. rewrite map_length. assumption.
Qed.

Lemma combine_map_seq {A C} (l : list A) (f : nat -> C) n d0 : length l = n ->
  combine l (map f (seq 0 n)) = map (fun t => (nth t l d0, f t)) (seq 0 n).
Proof.
  revert l f. induction n as [|n IH]; intros [|a l] f Hl; try discriminate; [reflexivity|].
  rewrite !map_seq_S. cbn [combine nth]. f_equal. apply (IH l (fun t => f (S t))). cbn in Hl. lia.
Qed.

Lemma combine_map_l {A A' C} (h : A -> A') (l : list A) (m : list C) : combine (map h l) m = map (fun '(a, c) => (h a, c)) (combine l m).
Proof. revert m. induction l as [|a l IH]; intros [|c m]; cbn; auto. rewrite IH. reflexivity. Qed.

Lemma flat_rows_length w d k N l G c : ggsw_wf w k N l G ->
  Forall (fun '(row, _) => length row = S k) (ep_flat w d G c).
Proof.
  intros [Hl HG]. apply Forall_forall. intros [row q] Hin. unfold ep_flat in Hin. rewrite in_flat_map in Hin.
  destruct Hin as (t & Ht & Hin). apply in_combine_l in Hin. rewrite in_seq in Ht.
  rewrite Forall_forall in HG. assert (Hlev : In (nth t (rev G) []) G).
  { apply in_rev. apply nth_In. rewrite rev_length. lia. }
  destruct (HG _ Hlev) as [_ Hrows]. rewrite Forall_forall in Hrows. destruct (Hrows _ Hin) as [H _]. exact H.
Qed.

Lemma external_product_run p w B N k d out G c :
  dec_wf w d -> (0 < N)%nat -> glwe_wf w k N out -> glwe_wf w k N c -> ggsw_wf w k N (level_count d) G ->
  external_product p w B N (base_log d) out (fill_with_forward_fourier B G) c
  = Ret (map (fun u => bk_run B (nth u out []) (pairs_of (ep_flat w d G c) u)) (seq 0 (S k))).
Proof.
  intros Hd HN [Ho _] [Hc Hcw] HG. pose proof Hd as (H1 & H2 & H3 & H4). pose proof HG as [HGl HGf].
  unfold external_product. rewrite ck_dim_eq_ok by congruence. cbn [obind].
  assert (Elen : length (fill_with_forward_fourier B G) = level_count d) by (unfold fill_with_forward_fourier; rewrite map_length; assumption).
  rewrite Elen. rewrite dec_new_ok by nia. cbn [obind].
  assert (Hxs : Forall (is_word w) (concat c)).
  { apply Forall_concat. eapply Forall_impl; [|exact Hcw]. intros a [_ Ha]. exact Ha. }
  replace (Dec (base_log d) (level_count d)) with d by (destruct d; reflexivity).
  rewrite (omap_ok _ (closest_representable w d)).
  2:{ intros x Hx. apply closest_representable_ok; [assumption|]. rewrite Forall_forall in Hxs. auto. }
  cbn [obind]. destruct (lending_new_ok p w d (concat c) Hd Hxs) as (it & -> & HY). cbn [obind].
  rewrite (ep_levels_ok p (lending_next2 p w) N _ _ (rev (fill_with_forward_fourier B G)) it
    (map (fun t => map (xdigit w d t) (concat c)) (seq 0 (level_count d)))).
  2:{ rewrite rev_length, Elen. exact HY. }
  cbn [obind]. f_equal.
  rewrite (combine_map_seq _ _ _ []) by (rewrite rev_length; exact Elen).
  rewrite fold_left_map.
  rewrite (fold_left_flat (fun acc '(row, q) => update_with_fmadd B acc (key_row B row) (bk_digit B q))
            (fun t => combine (nth t (rev G) []) (map (map (xdigit w d t)) c))).
  - unfold ep_flat. rewrite HGl. apply fmadd_out; [assumption|].
    rewrite <- HGl. apply (flat_rows_length w d k N (level_count d) G c HG).
  - intros acc t. rewrite chunks_map by (try assumption; apply (wf_lengths w); assumption).
    unfold fill_with_forward_fourier. rewrite <- map_rev.
    change (@nil (list (bk_dom B))) with (map (map (bk_key B)) []). rewrite map_nth.
    rewrite ep_rows_fold, combine_map_l, fold_left_map. clear.
    revert acc. induction (combine _ _) as [|[r q] l IH]; intros acc; [reflexivity|]. cbn [fold_left]. apply IH.
Qed.

(** ** Phases *)
Section Phase.
Context (N : nat) (q : Z).
Add Ring rpN2 : (rp_ring_theory (N := N) q) (setoid (req_equiv N q) (rp_ring_ext (N := N) q)).

(** The phase as an indexed sum. *)
Lemma gphase_rsum k key c : length key = k -> length c = S k ->
  req q (gphase N key c)
    (rsub (R N (nth k c [])) (rsum k (fun u => rmul (R N (nth u c [])) (R N (nth u key []))))).
Proof.
  intros Hk Hc. destruct (snoc_dec c k Hc) as (m & b & -> & Hm). rewrite gphase_snoc.
  rewrite (rdot_rsum q k m key Hm Hk).
  rewrite app_nth2 by lia. replace (k - length m)%nat with O by lia. cbn [nth].
  rewrite (rsum_ext q k (fun u => rmul (R N (nth u m [])) (R N (nth u key [])))
             (fun u => rmul (R N (nth u (m ++ [b]) [])) (R N (nth u key [])))); [reflexivity|].
  intros u Hu. rewrite app_nth1 by lia. reflexivity.
Qed.

(** The phase of a linear combination. *)
Lemma gphase_linear k key out' out err (flat : list (list (list Z) * list Z)) (D : list Z -> rp N) :
  length key = k -> length out' = S k -> length out = S k -> length err = S k ->
  Forall (fun '(row, _) => length row = S k) flat ->
  (forall u, (u <= k)%nat -> req q (R N (nth u out' []))
     (radd (radd (R N (nth u out [])) (rsuml flat (fun '(row, x) => rmul (R N (nth u row [])) (D x)))) (R N (nth u err [])))) ->
  req q (gphase N key out')
    (radd (radd (gphase N key out) (rsuml flat (fun '(row, x) => rmul (D x) (gphase N key row)))) (gphase N key err)).
Proof.
  intros Hk H1 H2 H3 Hf H.
  rewrite (gphase_rsum k key out'), (gphase_rsum k key out), (gphase_rsum k key err) by assumption.
  rewrite (H k (le_n k)).
  rewrite (rsum_ext q k (fun u => rmul (R N (nth u out' [])) (R N (nth u key [])))
    (fun u => radd (radd (rmul (R N (nth u out [])) (R N (nth u key [])))
                         (rsuml flat (fun '(row, x) => rmul (D x) (rmul (R N (nth u row [])) (R N (nth u key []))))))
                   (rmul (R N (nth u err [])) (R N (nth u key []))))).
  2:{ intros u Hu. rewrite (H u) by lia.
      rewrite (rsuml_ext q flat (fun '(row, x) => rmul (D x) (rmul (R N (nth u row [])) (R N (nth u key []))))
                 (fun a => rmul ((fun '(row, x) => rmul (R N (nth u row [])) (D x)) a) (R N (nth u key []))))
        by (intros [row x] _; ring).
      rewrite rsuml_mul_r. ring. }
  rewrite !rsum_add.
  rewrite (rsuml_ext q flat (fun '(row, x) => rmul (D x) (gphase N key row))
    (fun a => rsub ((fun '(row, x) => rmul (R N (nth k row [])) (D x)) a)
                   (rsum k (fun u => (fun '(row, x) => rmul (D x) (rmul (R N (nth u row [])) (R N (nth u key [])))) a)))).
  2:{ intros [row x] Hin. rewrite Forall_forall in Hf. specialize (Hf _ Hin). cbn beta iota in *.
      rewrite (gphase_rsum k key row) by assumption. rewrite rsum_mul_l. ring. }
  rewrite rsuml_sub, rsuml_rsum. ring.
Qed.
End Phase.
