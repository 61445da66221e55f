(** * Properties C11-C14: closest representable value and signed decomposition. *)
From Verif Require Import Base Word WordFacts DecompModel DecompProofs.

(** The least significant bit of a representable value has weight 2^(w - b*l). *)
Definition grid (w : Z) (d : decomposer) : Z := 2 ^ (w - base_log d * Z.of_nat (level_count d)).

Lemma torus_dist_of_diff w a c e : 0 < w -> eqm (2 ^ w) c (a + e) -> Z.abs e <= 2 ^ (w - 1) ->
  torus_dist w a c = Z.abs e.
Proof.
  intros Hw E He.
  assert (E2 : 2 ^ w = 2 * 2 ^ (w - 1)) by (rewrite (pow2_split w 1) by lia; reflexivity).
  pose proof (pow2_pos (w - 1) ltac:(lia)) as Hp.
  assert (E3 : (a - c) mod 2 ^ w = (- e) mod 2 ^ w).
  { change (eqm (2 ^ w) (a - c) (- e)). rewrite E. apply eqm_eq. lia. }
  assert (E4 : (c - a) mod 2 ^ w = e mod 2 ^ w).
  { change (eqm (2 ^ w) (c - a) e). rewrite E. apply eqm_eq. lia. }
  unfold torus_dist. rewrite E3, E4. rewrite E2. clear E E3 E4 E2. set (h := 2 ^ (w - 1)) in *. clearbody h.
  destruct (Z.eq_dec e 0) as [->|]; [rewrite !Z.mod_0_l by lia; reflexivity|].
  destruct (Z.lt_ge_cases e 0).
  - rewrite (Z.mod_small (- e)) by lia.
    assert (e mod (2 * h) = e + 2 * h) as ->; [|lia].
    symmetry. apply Z.mod_unique with (q := -1); lia.
  - rewrite (Z.mod_small e) by lia.
    assert ((- e) mod (2 * h) = - e + 2 * h) as ->; [|lia].
    symmetry. apply Z.mod_unique with (q := -1); lia.
Qed.

Lemma torus_dist_repr w a c : 0 < w -> exists e, eqm (2 ^ w) c (a + e) /\ Z.abs e <= 2 ^ (w - 1).
Proof.
  intros Hw.
  assert (E2 : 2 ^ w = 2 * 2 ^ (w - 1)) by (rewrite (pow2_split w 1) by lia; reflexivity).
  pose proof (pow2_pos (w - 1) ltac:(lia)) as Hp.
  set (r := (c - a) mod 2 ^ w). assert (Hr : 0 <= r < 2 ^ w) by (apply Z.mod_pos_bound; lia).
  exists (sgn w r). split.
  - rewrite sgn_eqm. unfold r. rewrite eqm_mod. apply eqm_eq. lia.
  - pose proof (sgn_range w r Hw Hr). lia.
Qed.

(** ** C11 *)
Theorem C11_closest_representable p w d x : dec_wf w d -> is_word w x ->
  exists c, closest_representable_ p w d x = Ret c /\ is_word w c /\
    (grid w d | c) /\
    2 * torus_dist w x c <= grid w d /\
    (forall c', (grid w d | c') -> torus_dist w x c <= torus_dist w x c').
Proof.
  intros Hd Hx. exists (closest_representable w d x).
  pose proof (nr_pos w d Hd) as Hn. unfold grid.
  set (nr := w - base_log d * Z.of_nat (level_count d)) in *.
  split; [apply closest_representable_ok; assumption|].
  split; [apply closest_word; assumption|].
  split; [apply closest_multiple; assumption|].
  destruct (closest_error w d Hd x Hx) as (e & Ee & He). fold nr in He.
  assert (E2 : 2 ^ nr = 2 * 2 ^ (nr - 1)) by (rewrite (pow2_split nr 1) by lia; reflexivity).
  assert (H2 : 2 ^ (nr - 1) <= 2 ^ (w - 1)) by (apply Z.pow_le_mono_r; lia).
  rewrite (torus_dist_of_diff w x _ e) by (auto; lia).
  split; [lia|]. intros c' [k' Hc'].
  destruct (torus_dist_repr w x c') as (t & Et & Ht); [lia|].
  rewrite (torus_dist_of_diff w x c' t) by (auto; lia).
  destruct (closest_multiple w d Hd x Hx) as [k Hk]. fold nr in Hk.
  assert (Hdiv : (2 ^ nr | t - e)).
  { assert (Hm : eqm (2 ^ w) (t - e) ((k' - k) * 2 ^ nr)).
    { replace ((k' - k) * 2 ^ nr) with (c' - closest_representable w d x) by lia.
      rewrite Et, Ee. apply eqm_eq. ring. }
    apply eqm_divide in Hm. destruct Hm as [j Hj].
    rewrite (pow2_split w nr) in Hj by lia. exists (k' - k + j * 2 ^ (w - nr)). lia. }
  destruct Hdiv as [j Hj].
  destruct (Z.eq_dec j 0) as [->|Hj0]; [lia|].
  assert (2 ^ nr <= Z.abs (t - e)); [|lia].
  rewrite Hj, Z.abs_mul. pose proof (pow2_pos nr ltac:(lia)). rewrite (Z.abs_eq (2 ^ nr)) by lia. nia.
Qed.
Print Assumptions C11_closest_representable.

Theorem C11_representable_fixed p w d x : dec_wf w d -> is_word w x -> (grid w d | x) ->
  closest_representable_ p w d x = Ret x.
Proof.
  intros Hd Hx Hg. rewrite closest_representable_ok by assumption. f_equal.
  apply closest_fixpoint; assumption.
Qed.
Print Assumptions C11_representable_fixed.

(** Ties go up: a value exactly between two representable ones goes to the next one. *)
Theorem C11_ties_round_up p w d x : dec_wf w d -> is_word w x ->
  2 * (x mod grid w d) = grid w d ->
  closest_representable_ p w d x = Ret (wadd w x (grid w d / 2)).
Proof.
  intros Hd Hx Ht. rewrite closest_representable_ok by assumption. f_equal.
  pose proof (nr_pos w d Hd) as Hn. rewrite closest_div by assumption. unfold grid, wadd in *.
  set (nr := w - base_log d * Z.of_nat (level_count d)) in *.
  assert (E2 : 2 ^ nr = 2 * 2 ^ (nr - 1)) by (rewrite (pow2_split nr 1) by lia; reflexivity).
  pose proof (pow2_pos (nr - 1) ltac:(lia)) as Hp.
  rewrite E2 in *. set (h := 2 ^ (nr - 1)) in *. clearbody h.
  pose proof (Z.div_mod x (2 * h) ltac:(lia)) as Hdm.
  assert (2 * h / 2 = h) as -> by (rewrite Z.mul_comm; apply Z.div_mul; lia).
  f_equal. assert ((x + h) / (2 * h) = x / (2 * h) + 1) as ->; [|lia].
  symmetry. apply Z.div_unique with (r := 0); lia.
Qed.
Print Assumptions C11_ties_round_up.

Definition dec_example := Dec 4 3.
Lemma dec_example_wf : dec_wf 32 dec_example.
Proof. unfold dec_wf, dec_example; cbn. lia. Qed.
Example C11_example : is_word 32 3735928559 /\ closest_representable_ Debug 32 dec_example 3735928559 = Ret 3736076288
  /\ grid 32 dec_example = 2 ^ 20.
Proof. unfold is_word. vm_compute. split; [split; [discriminate|reflexivity]|]. split; reflexivity. Qed.

(** Outside its domain: base_log * level_count = BITS is accepted by the engines' checks (see
    C43), panics in a checked build, and silently returns a wrong value otherwise. *)
Theorem C11_full_width_panics_with_checks w b l : 0 < w < 2 ^ 64 -> b * Z.of_nat l = w ->
  dec_new Debug w b l = Panic.
Proof.
  intros Hw E. unfold dec_new, usize_bits. rewrite plain_ok by lia. cbn [obind].
  destruct (Z.gtb_spec w (b * Z.of_nat l)); [lia|reflexivity].
Qed.
Print Assumptions C11_full_width_panics_with_checks.

Theorem C11_full_width_refuted : exists d x, dec_new Release 32 8 4 = Ret d /\ is_word 32 x /\
  closest_representable_ Release 32 d x <> Ret x.
Proof. exists (Dec 8 4), (2 ^ 31). split; [reflexivity|]. split; [unfold is_word; lia|]. vm_compute. discriminate. Qed.
Print Assumptions C11_full_width_refuted.

(** ** C12 *)
Theorem C12_recompose_decompose p w d x : dec_wf w d -> is_word w x ->
  exists it, decompose_ p w d x = Ret it /\
    recompose p w it = Ret (Some (closest_representable w d x)) /\
    closest_representable_ p w d x = Ret (closest_representable w d x).
Proof.
  intros Hd Hx. destruct (recompose_decompose p w d x Hd Hx) as (it & E & Er).
  exists it. repeat split; auto. apply closest_representable_ok; assumption.
Qed.
Print Assumptions C12_recompose_decompose.

Lemma sdi_next_fresh p w it t it' : sdi_next p w it = Ret (t, it') -> it_fresh it' = false.
Proof.
  unfold sdi_next. destruct (it_current_level it).
  - intros H. injection H as <- <-. reflexivity.
  - destruct (decompose_one_level_ p w (it_base_log it) (it_state it) (it_mask it)) as [[o s]|]; [|discriminate].
    cbn [obind]. intros H. injection H as <- <-. reflexivity.
Qed.

(** Once [next] has been called, recompose answers [None]. *)
Theorem C12_recompose_advanced p w k it ts it' :
  sdi_take p w (S k) it = Ret (ts, it') -> recompose p w it' = Ret None.
Proof.
  intros E. unfold recompose.
  assert (Hf : it_fresh it' = false); [|rewrite Hf; reflexivity].
  revert it ts E. induction k as [|k IH]; intros it ts E.
  - cbn in E. destruct (sdi_next p w it) as [[t it1]|] eqn:En; [|discriminate].
    cbn in E. injection E as <- <-. eapply sdi_next_fresh; eassumption.
  - change (sdi_take p w (S (S k)) it) with
      (let! (t, it) := sdi_next p w it in let! (ts, it) := sdi_take p w (S k) it in Ret (t :: ts, it)) in E.
    destruct (sdi_next p w it) as [[t it1]|] eqn:En; [|discriminate]. cbn [obind] in E.
    destruct (sdi_take p w (S k) it1) as [[ts1 it2]|] eqn:Et; [|discriminate].
    cbn [obind] in E. injection E as <- <-. eapply IH; eassumption.
Qed.
Print Assumptions C12_recompose_advanced.

(** ** C13 *)

(** The terms delivered by [l + k] calls to [next]: [l] terms with levels l, ..., 1, then [None];
    every signed digit is at most half the base in absolute value; the digits weighted by
    2^(w - b*level) sum to the closest representable value. *)
Definition term_value (w : Z) (t : term) : Z :=
  sgn w (t_value t) * 2 ^ (w - t_base_log t * Z.of_nat (t_level t)).

Theorem C13_digits p w d x k : dec_wf w d -> is_word w x ->
  exists it ts it', decompose_ p w d x = Ret it /\
    sdi_take p w (level_count d + k) it = Ret (map Some ts ++ repeat None k, it') /\
    map t_level ts = rev (seq 1 (level_count d)) /\
    Forall (fun t => is_word w (t_value t) /\ Z.abs (sgn w (t_value t)) <= 2 ^ (base_log d - 1)) ts /\
    eqm (2 ^ w) (fold_right Z.add 0 (map (term_value w) ts)) (closest_representable w d x).
Proof.
  intros Hd Hx. destruct (decompose_ok p w d x Hd Hx) as (it & E & Hi & _ & Hl & Hs).
  destruct (sdi_take_spec p w d k Hd (level_count d) it Hi Hl) as (it' & Et).
  destruct (decomp_spec w d x Hd Hx) as (Ds & ED & HlD & HF & HS).
  unfold decomp in ED. rewrite Hs, ED in Et.
  exists it, (terms_of (base_log d) (map (fun D => D mod 2 ^ w) Ds)), it'.
  split; [assumption|]. split; [assumption|].
  assert (Hbw : 0 < base_log d < w) by (destruct Hd as (? & ? & ? & ?); nia).
  rewrite <- HlD. clear - Hd HF HS Hbw. split; [|split].
  - clear. induction Ds as [|D Ds IH]; [reflexivity|].
    cbn [map terms_of length]. rewrite map_length, seq_S, rev_app_distr. cbn [rev app t_level].
    rewrite IH. reflexivity.
  - clear HS. induction HF as [|D Ds HD _ IH]; [constructor|].
    cbn [map terms_of]. constructor; [|exact IH]. cbn [t_value].
    rewrite (sgn_digit w D (base_log d)) by assumption. split; [|lia].
    apply Z.mod_pos_bound, pow2_pos. lia.
  - rewrite <- HS. clear HS. induction HF as [|D Ds HD _ IH]; [reflexivity|].
    cbn [map terms_of fold_right levels_sum length]. rewrite IH. unfold term_value at 1.
    cbn [t_value t_level t_base_log]. rewrite (sgn_digit w D (base_log d)) by assumption.
    rewrite map_length. reflexivity.
Qed.
Print Assumptions C13_digits.

Example C13_example : exists it it', decompose_ Debug 32 dec_example 3735928559 = Ret it /\
  sdi_take Debug 32 5 it = Ret ([Some (Term 3 4 4294967291); Some (Term 2 4 4294967295); Some (Term 1 4 4294967294); None; None], it').
Proof. eexists. eexists. split; [vm_compute; reflexivity|]. vm_compute. reflexivity. Qed.

(** The documented half-open range [-B/2, B/2 - 1] is not respected. *)
Theorem C13_documented_range_refuted : exists it t it', decompose_ Debug 32 dec_example (8 * 2 ^ 20) = Ret it /\
  sdi_next Debug 32 it = Ret (Some t, it') /\ sgn 32 (t_value t) > 2 ^ (4 - 1) - 1.
Proof. eexists. eexists. eexists. split; [vm_compute; reflexivity|]. split; [vm_compute; reflexivity|]. vm_compute. reflexivity. Qed.
Print Assumptions C13_documented_range_refuted.

(** ** C14 *)
Fixpoint tsdi_take (p : profile) (w : Z) (k : nat) (it : tsdi) : outcome (list (option term_tensor) * tsdi) :=
  match k with
  | O => Ret ([], it)
  | S k' => let! (t, it) := tsdi_next p w it in
            let! (ts, it) := tsdi_take p w k' it in Ret (t :: ts, it)
  end.

(** The scalar term at index [i] of a tensor term. *)
Definition term_at (i : nat) (t : term_tensor) : term :=
  Term (tt_level t) (tt_base_log t) (nth i (tt_values t) 0).

Lemma tensor_scalar_sim p w d : dec_wf w d -> forall k it, tinv w d it ->
  exists tts it', tsdi_take p w k it = Ret (tts, it') /\
    Forall (fun o => match o with Some t => length (tt_values t) = length (ti_states it) | None => True end) tts /\
    (forall i s, nth_error (ti_states it) i = Some s -> forall si, iter_inv w d si ->
       it_state si = s -> it_current_level si = ti_current_level it ->
       exists si', sdi_take p w k si = Ret (map (option_map (term_at i)) tts, si')).
Proof.
  intros Hd. induction k as [|k IH]; intros it Hi.
  - exists [], it. split; [reflexivity|]. split; [constructor|]. intros. eexists. reflexivity.
  - cbn [tsdi_take]. destruct (ti_current_level it) as [|l] eqn:El.
    + assert (En : exists it1, tsdi_next p w it = Ret (None, it1) /\ tinv w d it1 /\ ti_states it1 = ti_states it /\ ti_current_level it1 = O).
      { unfold tsdi_next. rewrite El. eexists. split; [reflexivity|]. destruct Hi as (H1 & H2 & H3 & H4). rewrite El in *.
        unfold tinv. cbn. repeat split; auto. }
      destruct En as (it1 & En & Hi1 & Es1 & El1).
      destruct (IH it1 Hi1) as (tts & it2 & Et & HF & Hsim). rewrite Es1 in *.
      rewrite En. cbn [obind]. rewrite Et. cbn [obind].
      exists (None :: tts), it2. split; [reflexivity|]. split; [constructor; auto|].
      intros i s Hn si Hsi E1 E2.
      assert (Esi : exists si1, sdi_next p w si = Ret (None, si1) /\ iter_inv w d si1 /\ it_state si1 = s /\ it_current_level si1 = O).
      { unfold sdi_next. rewrite E2. eexists. split; [reflexivity|]. destruct Hsi as (H1 & H2 & H3 & H4). rewrite E2 in *.
        unfold iter_inv. cbn. repeat split; auto; apply H4. }
      destruct Esi as (si1 & En1 & Hsi1 & Es & Elv).
      destruct (Hsim i s Hn si1 Hsi1 Es) as (si2 & E3); [congruence|].
      exists si2. cbn [sdi_take]. rewrite En1. cbn [obind]. rewrite E3. reflexivity.
    + destruct (tsdi_next_ok p w d it l Hd Hi El) as (it1 & -> & Hi1 & El1 & _ & Es1).
      destruct (IH it1 Hi1) as (tts & it2 & Et & HF & Hsim).
      cbn [obind]. rewrite Et. cbn [obind].
      eexists _, it2. split; [reflexivity|]. split.
      { constructor; [cbn; apply map_length|]. rewrite Es1, map_length in HF. exact HF. }
      intros i s Hn si Hsi E1 E2.
      destruct (sdi_next_some p w d si l Hd Hsi E2) as (D & st' & si1 & E & En & Hsi1 & Elv & Es & _).
      destruct (Hsim i st') with (si := si1) as (si2 & E3).
      * rewrite Es1, nth_error_map, Hn. cbn [option_map]. rewrite <- E1, E. reflexivity.
      * assumption.
      * assumption.
      * congruence.
      * exists si2. cbn [sdi_take]. rewrite En. cbn [obind]. rewrite E3. cbn [obind map option_map].
        assert (Hv : nth i (map (fun s => fst (decompose_one_level w (base_log d) s)) (ti_states it)) 0 = D).
        { apply nth_error_nth. rewrite nth_error_map, Hn. cbn [option_map]. rewrite <- E1, E. reflexivity. }
        f_equal. f_equal. f_equal. f_equal. unfold term_at. cbn [tt_level tt_base_log tt_values]. rewrite Hv. reflexivity.
Qed.

(** Every element of the tensor goes through its own scalar decomposition, for any number of
    calls to next_term. *)
Theorem C14_tensor_is_elementwise p w d xs k : dec_wf w d -> Forall (is_word w) xs ->
  exists it tts it', decompose_tensor_ p w d xs = Ret it /\
    tsdi_take p w k it = Ret (tts, it') /\
    Forall (fun o => match o with Some t => length (tt_values t) = length xs | None => True end) tts /\
    (forall i x, nth_error xs i = Some x -> exists si si',
       decompose_ p w d x = Ret si /\
       sdi_take p w k si = Ret (map (option_map (term_at i)) tts, si')).
Proof.
  intros Hd Hx. destruct (decompose_tensor_ok p w d xs Hd Hx) as (it & E & Hi & _ & Hl & Hs).
  destruct (tensor_scalar_sim p w d Hd k it Hi) as (tts & it' & Et & HF & Hsim).
  exists it, tts, it'. split; [assumption|]. split; [assumption|].
  rewrite Hs, map_length in HF. split; [assumption|].
  intros i x Hn. rewrite Forall_forall in Hx. pose proof (Hx x (nth_error_In _ _ Hn)) as Hxw.
  destruct (decompose_ok p w d x Hd Hxw) as (si & Es & Hsi & _ & Hls & Hss).
  destruct (Hsim i (it_state si)) with (si := si) as (si' & E'); auto.
  - rewrite Hs, nth_error_map, Hn. cbn. rewrite Hss. reflexivity.
  - congruence.
  - exists si, si'. auto.
Qed.
Print Assumptions C14_tensor_is_elementwise.

Theorem C14_tensor_recompose p w d xs out : dec_wf w d -> Forall (is_word w) xs ->
  Forall (is_word w) out -> length out = length xs ->
  exists it, decompose_tensor_ p w d xs = Ret it /\
    fill_tensor_with_recompose p w it out
    = Ret (Some (map2 (fun o x => wadd w o (closest_representable w d x)) out xs)).
Proof. apply fill_tensor_with_recompose_ok. Qed.
Print Assumptions C14_tensor_recompose.

(** The allocation-free copy used by the FFT backend yields the same terms as the original when
    it is given the rounded inputs. *)
Fixpoint lending_take (p : profile) (w : Z) (k : nat) (it : lending) : outcome (list (option term_tensor)) :=
  match k with
  | O => Ret []
  | S k' => let! (t, it) := lending_next p w it in
            let! ts := lending_take p w k' it in
            Ret (option_map (fun '(l, b, vs) => TermT l b vs) t :: ts)
  end.

Lemma lending_sim p w k : forall it le, le_base_log le = ti_base_log it -> le_mask le = ti_mask it ->
  le_current_level le = ti_current_level it -> le_states le = ti_states it ->
  lending_take p w k le = let! (ts, _) := tsdi_take p w k it in Ret ts.
Proof.
  induction k as [|k IH]; intros it le E1 E2 E3 E4; [reflexivity|].
  cbn [lending_take tsdi_take]. unfold lending_next, tsdi_next. rewrite E1, E2, E3, E4.
  destruct (ti_current_level it) as [|l].
  - cbn [obind]. match goal with |- context [tsdi_take p w k ?x] => rewrite (IH x) by reflexivity end.
    destruct (tsdi_take p w k _) as [[ts it']|]; reflexivity.
  - destruct (omap _ (ti_states it)) as [r|]; [|reflexivity]. cbn [obind].
    match goal with |- context [tsdi_take p w k ?x] => rewrite (IH x) by reflexivity end.
    destruct (tsdi_take p w k _) as [[ts it']|]; [|reflexivity]. cbn. rewrite Nat.add_1_r. reflexivity.
Qed.

Theorem C14_fft_copy_agrees p w d xs k : dec_wf w d -> Forall (is_word w) xs ->
  exists rounded le it tts it', omap (closest_representable_ p w d) xs = Ret rounded /\
    lending_new p w rounded (base_log d) (level_count d) = Ret le /\
    decompose_tensor_ p w d xs = Ret it /\ tsdi_take p w k it = Ret (tts, it') /\
    lending_take p w k le = Ret tts.
Proof.
  intros Hd Hx. destruct (decompose_tensor_ok p w d xs Hd Hx) as (it & E & Hi & _ & Hl & Hs).
  destruct (tensor_scalar_sim p w d Hd k it Hi) as (tts & it' & Et & _).
  exists (map (closest_representable w d) xs). rewrite Forall_forall in Hx.
  assert (Er : omap (closest_representable_ p w d) xs = Ret (map (closest_representable w d) xs)).
  { apply omap_ok. intros. apply closest_representable_ok; auto. }
  pose proof Hd as (H1 & H2 & H3 & H4).
  assert (El : exists le, lending_new p w (map (closest_representable w d) xs) (base_log d) (level_count d) = Ret le /\
    le_base_log le = base_log d /\ le_mask le = 2 ^ base_log d - 1 /\ le_current_level le = level_count d /\
    le_states le = ti_states it).
  { unfold lending_new, usize_bits. rewrite plain_ok by nia. cbn [obind]. rewrite plain_ok by nia. cbn [obind].
    rewrite (omap_ok _ (fun i => shr i (w - base_log d * Z.of_nat (level_count d)))) by (intros; apply shr_ok; nia).
    cbn [obind].
    pose proof (mask_ok p w (base_log d) ltac:(nia)) as Hm.
    destruct (shl_ p w 1 (base_log d)) as [m|]; cbn [obind] in *; [|discriminate]. rewrite Hm. cbn [obind].
    eexists. split; [reflexivity|]. cbn. rewrite Hs, map_map. auto. }
  destruct El as (le & El & L1 & L2 & L3 & L4).
  exists le, it, tts, it'. split; [assumption|]. split; [assumption|]. split; [assumption|]. split; [assumption|].
  destruct Hi as (Hi1 & Hi2 & _).
  rewrite (lending_sim p w k it) by congruence. rewrite Et. reflexivity.
Qed.
Print Assumptions C14_fft_copy_agrees.

Definition C14_inputs := [3735928559; 0; 4294967295; 2147483648].
Example C14_example : Forall (is_word 32) C14_inputs /\ exists it, decompose_tensor_ Debug 32 dec_example C14_inputs = Ret it /\
  fill_tensor_with_recompose Debug 32 it [1; 2; 3; 4] = Ret (Some [3736076289; 2; 3; 2147483652]).
Proof.
  split; [repeat constructor; unfold is_word; lia|].
  eexists. split; [vm_compute; reflexivity|]. vm_compute. reflexivity.
Qed.
