(** * Properties C26 and C27: external product and cmux. *)
From Verif Require Import Base Word WordFacts DecompModel DecompProofs NegaRing PolySpec PolyProofs RingSum
  PolyModel LweProofs GlweSpec GlweModel GlweProofs GlweTheorems GgswSpec GgswModel GgswTheorems ExtProdModel ExtProdSpec ExtProdProofs.

Lemma list_choice {A} (P : nat -> A -> Prop) d n : (forall u, (u < n)%nat -> exists a, P u a) ->
  exists l, length l = n /\ forall u, (u < n)%nat -> P u (nth u l d).
Proof.
  induction n as [|n IH]; intros H; [exists []; split; [reflexivity|intros; lia]|].
  destruct IH as (l & Hl & HP); [intros; apply H; lia|]. destruct (H n) as [a Ha]; [lia|].
  exists (l ++ [a]). rewrite app_length. cbn [length]. split; [lia|]. intros u Hu.
  destruct (Nat.eq_dec u n) as [->|Hn].
  - rewrite app_nth2 by lia. replace (n - length l)%nat with O by lia. exact Ha.
  - rewrite app_nth1 by lia. apply HP. lia.
Qed.

Lemma Forall_nth_intro {A} (P : A -> Prop) d l n : length l = n -> (forall u, (u < n)%nat -> P (nth u l d)) -> Forall P l.
Proof.
  intros Hl H. apply Forall_forall. intros x Hx. destruct (In_nth l x d Hx) as (u & Hu & <-). apply H. lia.
Qed.

Lemma map0_nth {A C} (h : A -> C) l i d d' : (i < length l)%nat -> nth i (map h l) d = h (nth i l d').
Proof. intros H. rewrite (nth_indep _ d (h d')) by (rewrite map_length; assumption). apply map_nth. Qed.

Lemma coef_map_in h p k : 0 <= k < Z.of_nat (length p) -> coef (map h p) k = h (coef p k).
Proof. intros H. unfold coef. apply map0_nth. lia. Qed.

Section Gadget.
Context (w : Z) (N : nat) (q := 2 ^ w).
Add Ring rpN3 : (rp_ring_theory (N := N) q) (setoid (req_equiv N q) (rp_ring_ext (N := N) q)).

Lemma rsuml_combine {A C} (l1 : list A) (l2 : list C) n d1 d2 (f : A * C -> rp N) : length l1 = n -> length l2 = n ->
  req q (rsuml (combine l1 l2) f) (rsum n (fun i => f (nth i l1 d1, nth i l2 d2))).
Proof.
  revert l1 l2. induction n as [|n IH]; intros [|a l1] [|c l2] H1 H2; try discriminate; [reflexivity|].
  cbn [combine rsuml]. rewrite (IH l1 l2) by (cbn in *; lia). rewrite rsum_S_l. reflexivity.
Qed.

(** The digit polynomial of level j + 1 of polynomial [i] of [c]. *)
Definition ct_digit (d : decomposer) (c : list (list Z)) (j i : nat) : list Z :=
  map (sdigit w d (level_count d - 1 - j)) (nth i c []).

Lemma rcoef_rsum n (f : nat -> rp N) k : rcoef (rsum n f) k = sumz n (fun j => rcoef (f (Z.to_nat j)) k).
Proof.
  induction n as [|n IH]; [reflexivity|]. cbn [rsum sumz]. rewrite Nat2Z.id, <- IH. reflexivity.
Qed.

Lemma ct_digit_ok d k c : dec_wf w d -> glwe_wf w k N c ->
  is_gadget_decomposition w (base_log d) k N (level_count d) (ct_digit d c) (map (map (closest_representable w d)) c).
Proof.
  intros Hd [Hl Hc]. rewrite Forall_forall in Hc. split.
  - intros j i Hj Hi. destruct (Hc (nth i c [])) as [Hn Hw]; [apply nth_In; lia|]. unfold ct_digit. split.
    + rewrite map_length. assumption.
    + rewrite Forall_map. eapply Forall_impl; [|exact Hw]. intros x Hx. apply xdigit_spec; [assumption..|lia].
  - intros i Hi. destruct (Hc (nth i c [])) as [Hn Hw]; [apply nth_In; lia|].
    apply req_coefs. intros e He. rewrite rcoef_rsum, rcoef_R by assumption.
    rewrite (map0_nth _ c i [] []) by lia. rewrite coef_map_in by lia.
    rewrite <- (sdigit_recompose w d (coef (nth i c []) e) Hd).
    2:{ rewrite Forall_forall in Hw. apply Hw. apply coef_in. lia. }
    apply eqm_eq. apply sumz_ext. intros j Hj.
    change (rcoef (rscal ?a ?x) e) with (a * rcoef x e). rewrite rcoef_R by assumption.
    unfold ct_digit. rewrite coef_map_in by lia. replace (Z.of_nat (S (Z.to_nat j))) with (j + 1) by lia. reflexivity.
Qed.

(** Sum over the rows in processing order. *)
Lemma flat_sum d k G c (f : list (list Z) * list Z -> rp N) : length c = S k -> ggsw_wf w k N (level_count d) G ->
  req q (rsuml (ep_flat w d G c) f)
    (rsum (level_count d) (fun j => rsum (S k) (fun i =>
       f (nth i (nth j G []) [], map (xdigit w d (level_count d - 1 - j)) (nth i c []))))).
Proof.
  intros Hc [Hl HG]. unfold ep_flat. rewrite rsuml_flat_map. rewrite rsuml_seq.
  rewrite <- (rsum_rev q (length G)). rewrite Hl. apply rsum_ext. intros j Hj.
  replace (0 + (level_count d - 1 - j))%nat with (level_count d - 1 - j)%nat by lia.
  rewrite rev_nth by lia. replace (length G - S (level_count d - 1 - j))%nat with j by lia.
  rewrite Forall_forall in HG. destruct (HG (nth j G [])) as [Hr _]; [apply nth_In; lia|].
  rewrite (rsuml_combine _ _ (S k) [] []); [|assumption|rewrite map_length; assumption].
  apply rsum_ext. intros i Hi. rewrite (map0_nth _ c i [] []) by lia. reflexivity.
Qed.

(** The gadget identity: the digits against the rows give m times the recomposed ciphertext. *)
Lemma gadget_sum b k l key m (D : nat -> nat -> list Z) c' : length key = k -> length c' = S k ->
  is_gadget_decomposition w b k N l D c' ->
  req q (rsum l (fun j => rsum (S k) (fun i => rmul (R N (D j i)) (ggsw_row_value w b N key m (S j) i))))
    (rscal m (gphase N key c')).
Proof.
  intros Hk Hc [_ HD]. rewrite rsum_swap. cbn [rsum].
  assert (Ek : req q (rsum l (fun j => rmul (R N (D j k)) (ggsw_row_value w b N key m (S j) k))) (rscal m (R N (nth k c' [])))).
  { rewrite <- (HD k (le_n k)). rewrite <- rsum_scal. apply rsum_ext. intros j Hj.
    unfold ggsw_row_value. assert (nth_error key k = None) as -> by (apply nth_error_None; lia).
    rewrite rmul_comm, rmul_const, rscal_mul. reflexivity. }
  rewrite Ek.
  assert (Ei : req q (rsum k (fun i => rsum l (fun j => rmul (R N (D j i)) (ggsw_row_value w b N key m (S j) i))))
            (rsum k (fun i => rscal (- m) (rmul (R N (nth i c' [])) (R N (nth i key [])))))).
  { apply rsum_ext. intros i Hi. rewrite <- (HD i) by lia.
    rewrite <- rsum_mul_r, <- rsum_scal. apply rsum_ext. intros j Hj.
    unfold ggsw_row_value. destruct (nth_error key i) as [s|] eqn:Es; [|apply nth_error_None in Es; lia].
    rewrite (nth_error_nth key i [] Es). rewrite rscal_rmul_r, rscal_rmul_l, rscal_mul.
    apply rscal_proper; [apply eqm_eq; ring|reflexivity]. }
  rewrite Ei, rsum_scal. rewrite (gphase_rsum N q k key c') by assumption.
  rewrite rscal_opp, rscal_sub_r. ring.
Qed.

(** Whatever multiplies and accumulates, the output is the expected linear combination. *)
Lemma ep_phase d k key m noise f T E out G c :
  dec_wf w d -> length key = k -> glwe_wf w k N out -> glwe_wf w k N c -> ggsw_wf w k N (level_count d) G ->
  ggsw_encrypts w (base_log d) N key m noise G ->
  mul_add_ok w N (base_log d) T E f -> (level_count d * S k <= T)%nat ->
  let out' := map (fun u => f (nth u out []) (pairs_of (ep_flat w d G c) u)) (seq 0 (S k)) in
  glwe_wf w k N out' /\
  exists err, small_glwe k N E err /\
    req q (gphase N key out')
      (radd (radd (radd (gphase N key out) (rscal m (gphase N key (map (map (closest_representable w d)) c))))
                  (digit_noise N k (level_count d) (ct_digit d c) noise))
            (gphase N key err)).
Proof.
  intros Hd Hk Ho Hc HG Henc Hf HT out'. pose proof Ho as [Hol How]. pose proof Hc as [Hcl Hcw]. pose proof HG as [HGl HGf].
  assert (Hlen : length (ep_flat w d G c) = (level_count d * S k)%nat).
  { unfold ep_flat. rewrite <- HGl.
    assert (Hs : forall t, In t (seq 0 (length G)) -> length (nth t (rev G) []) = S k).
    { intros t Ht. rewrite in_seq in Ht. rewrite Forall_forall in HGf. apply HGf. apply in_rev. apply nth_In. rewrite rev_length. lia. }
    rewrite <- (seq_length (length G) 0) at 2. induction (seq 0 (length G)) as [|t ts IH]; [reflexivity|].
    cbn [flat_map length]. rewrite app_length, IH by (intros; apply Hs; right; assumption).
    rewrite combine_length, map_length, Hcl, (Hs t) by (left; reflexivity). lia. }
  assert (Hpw : forall u, (u < S k)%nat -> Forall (fun '(g, x) => poly_wf w N g /\ poly_wf w N x /\
              Forall (fun v => Z.abs (sgn w v) <= 2 ^ (base_log d - 1)) x) (pairs_of (ep_flat w d G c) u)).
  { intros u Hu. apply Forall_forall. intros [g x] Hin. unfold pairs_of in Hin. rewrite in_map_iff in Hin.
    destruct Hin as ([row x0] & E1 & Hin). injection E1 as <- <-. unfold ep_flat in Hin. rewrite in_flat_map in Hin.
    destruct Hin as (t & Ht & Hin). rewrite in_seq in Ht.
    pose proof (in_combine_l _ _ _ _ Hin) as Hrow. apply in_combine_r in Hin.
    rewrite in_map_iff in Hin. destruct Hin as (poly & <- & Hpoly).
    rewrite Forall_forall in HGf, Hcw. destruct (HGf (nth t (rev G) [])) as [_ Hrows].
    { apply in_rev. apply nth_In. rewrite rev_length. lia. }
    rewrite Forall_forall in Hrows. destruct (Hrows _ Hrow) as [Hrl Hrw]. rewrite Forall_forall in Hrw.
    destruct (Hcw _ Hpoly) as [Hpl Hpw].
    assert (HF : Forall (fun x => is_word w (xdigit w d t x) /\ Z.abs (sdigit w d t x) <= 2 ^ (base_log d - 1)) poly).
    { eapply Forall_impl; [|exact Hpw]. intros v Hv. apply xdigit_spec; [assumption..|]. lia. }
    split; [apply Hrw; apply nth_In; lia|]. split.
    - split; [rewrite map_length; assumption|]. rewrite Forall_map. eapply Forall_impl; [|exact HF]. intros v [Hv _]. exact Hv.
    - rewrite Forall_map. eapply Forall_impl; [|exact HF]. intros v [_ Hv]. exact Hv. }
  assert (HP : forall u, (u < S k)%nat -> poly_wf w N (f (nth u out []) (pairs_of (ep_flat w d G c) u)) /\
    exists err, length err = N /\ Forall (fun e => Z.abs e <= E) err /\
      req q (R N (f (nth u out []) (pairs_of (ep_flat w d G c) u)))
        (radd (radd (R N (nth u out [])) (rsuml (pairs_of (ep_flat w d G c) u) (fun '(g, x) => rmul (R N g) (R N (map (sgn w) x))))) (R N err))).
  { intros u Hu. apply Hf; [|unfold pairs_of; rewrite map_length; lia|apply Hpw; assumption].
    rewrite Forall_forall in How. apply How. apply nth_In. lia. }
  assert (Hout' : glwe_wf w k N out').
  { unfold out'. split; [rewrite map_length, seq_length; reflexivity|]. rewrite Forall_map.
    apply Forall_forall. intros u Hu. rewrite in_seq in Hu. apply HP. lia. }
  split; [exact Hout'|].
  destruct (list_choice (fun u err => length err = N /\ Forall (fun e => Z.abs e <= E) err /\
      req q (R N (f (nth u out []) (pairs_of (ep_flat w d G c) u)))
        (radd (radd (R N (nth u out [])) (rsuml (pairs_of (ep_flat w d G c) u) (fun '(g, x) => rmul (R N g) (R N (map (sgn w) x))))) (R N err)))
      [] (S k)) as (err & Hel & He).
  { intros u Hu. apply HP. assumption. }
  exists err. split.
  { split; [assumption|]. apply (Forall_nth_intro _ [] err (S k)); [assumption|]. intros u Hu.
    destruct (He u Hu) as (H1 & H2 & _). auto. }
  rewrite (gphase_linear N q k key out' out err (ep_flat w d G c) (fun x => R N (map (sgn w) x))).
  - apply radd_proper; [|reflexivity]. rewrite <- radd_assoc. apply radd_proper; [reflexivity|].
    rewrite (flat_sum d k G c) by assumption. cbn beta iota.
    rewrite <- (gadget_sum (base_log d) k (level_count d) key m (ct_digit d c)).
    + unfold digit_noise. rewrite <- rsum_add. apply rsum_ext. intros j Hj. rewrite <- rsum_add. apply rsum_ext. intros i Hi.
      rewrite map_map. change (map (fun x => sgn w (xdigit w d (level_count d - 1 - j) x)) (nth i c [])) with (ct_digit d c j i).
      assert (Hrow : length (nth j G []) = S k).
      { rewrite Forall_forall in HGf. apply HGf. apply nth_In. lia. }
      rewrite (Henc j (nth j G []) i (nth i (nth j G []) [])); [ring|apply nth_error_nth'; lia|apply nth_error_nth'; lia].
    + assumption.
    + rewrite map_length. assumption.
    + apply ct_digit_ok; assumption.
  - assumption.
  - apply Hout'.
  - assumption.
  - assumption.
  - apply (flat_rows_length w d k N (level_count d) G c HG).
  - intros u Hu. unfold out'. rewrite nth_map_seq by lia. destruct (He u) as (_ & _ & Hr); [lia|]. rewrite Hr.
    unfold pairs_of. rewrite rsuml_map.
    apply radd_proper; [|reflexivity]. apply radd_proper; [reflexivity|]. apply rsuml_ext. intros [row x] _. reflexivity.
Qed.
End Gadget.

(** ** C26 *)
Theorem C26_external_product : forall p w B N k d key m noise T E out G c,
  dec_wf w d -> (0 < N)%nat -> length key = k ->
  glwe_wf w k N out -> glwe_wf w k N c -> ggsw_wf w k N (level_count d) G ->
  ggsw_encrypts w (base_log d) N key m noise G ->
  backend_ok w N (base_log d) T E B -> (level_count d * S k <= T)%nat ->
  exists out' c' D err,
    external_product p w B N (base_log d) out (fill_with_forward_fourier B G) c = Ret out' /\
    glwe_wf w k N out' /\
    omap (omap (closest_representable_ p w d)) c = Ret c' /\
    is_gadget_decomposition w (base_log d) k N (level_count d) D c' /\
    small_glwe k N E err /\
    req (2 ^ w) (gphase N key out')
      (radd (radd (radd (gphase N key out) (rscal m (gphase N key c'))) (digit_noise N k (level_count d) D noise))
            (gphase N key err)).
Proof.
  intros p w B N k d key m noise T E out G c Hd HN Hk Ho Hc HG Henc HB HT.
  destruct (ep_phase w N d k key m noise (bk_run B) T E out G c Hd Hk Ho Hc HG Henc HB HT) as [Hwf (err & He & Hr)].
  eexists. exists (map (map (closest_representable w d)) c), (ct_digit w d c), err.
  split; [apply (external_product_run p w B N k d out G c); assumption|]. split; [exact Hwf|]. split.
  - apply omap_ok. intros a Ha. apply omap_ok. intros x Hx. apply closest_representable_ok; [assumption|].
    destruct Hc as [_ Hc]. rewrite Forall_forall in Hc. destruct (Hc a Ha) as [_ Hw]. rewrite Forall_forall in Hw. auto.
  - split; [apply ct_digit_ok; assumption|]. split; [exact He|exact Hr].
Qed.
Print Assumptions C26_external_product.

(** A key of binary polynomials. *)
Definition binary_key (N : nat) (key : list (list Z)) : Prop :=
  Forall (fun s => length s = N /\ Forall (fun x => x = 0 \/ x = 1) s) key.

Section Bounds.
Context (w : Z) (N : nat) (q := 2 ^ w).
Add Ring rpN4 : (rp_ring_theory (N := N) q) (setoid (req_equiv N q) (rp_ring_ext (N := N) q)).

(** The phase of a ciphertext with small coefficients is small. *)
Lemma gphase_small k key E (c : list (list Z)) : 0 <= E -> length key = k -> binary_key N key -> length c = S k ->
  (forall u, (u <= k)%nat -> rbound q E (R N (nth u c []))) ->
  rbound q ((1 + Z.of_nat k * Z.of_nat N) * E) (gphase N key c).
Proof.
  intros HE Hk Hb Hc H. eapply rbound_req; [symmetry; apply (gphase_rsum N q k key c); assumption|].
  replace ((1 + Z.of_nat k * Z.of_nat N) * E) with (E + Z.of_nat k * (Z.of_nat N * (1 * E))) by ring.
  apply rbound_sub; [apply H; lia|]. apply rbound_rsum; [nia|]. intros u Hu.
  eapply rbound_req; [apply rmul_comm|]. unfold binary_key in Hb. rewrite Forall_forall in Hb. destruct (Hb (nth u key [])) as [Hl Hbin]; [apply nth_In; lia|].
  apply rbound_mul; [lia|lia|assumption| |apply H; lia].
  eapply Forall_impl; [|exact Hbin]. intros x [-> | ->]; cbv beta; lia.
Qed.

Lemma small_glwe_phase k key E err : 0 <= E -> length key = k -> binary_key N key -> small_glwe k N E err ->
  rbound q ((1 + Z.of_nat k * Z.of_nat N) * E) (gphase N key err).
Proof.
  intros HE Hk Hb [Hl He]. apply gphase_small; try assumption. intros u Hu.
  rewrite Forall_forall in He. destruct (He (nth u err [])) as [Hn Hs]; [apply nth_In; lia|].
  apply rbound_R; [assumption|]. eapply Forall_impl; [|exact Hs]. intros x Hx. exists x. split; [reflexivity|assumption].
Qed.

Lemma digit_noise_bound k l b D noise beta c' : 0 < b -> 0 <= beta -> is_gadget_decomposition w b k N l D c' ->
  (forall j i, (j < l)%nat -> (i <= k)%nat -> rbound q beta (R N (noise (S j) i))) ->
  rbound q (Z.of_nat l * (Z.of_nat (S k) * (Z.of_nat N * (2 ^ (b - 1) * beta)))) (digit_noise N k l D noise).
Proof.
  intros Hb0 Hb [HD _] Hn. pose proof (pow2_pos (b - 1) ltac:(lia)) as Hp. unfold digit_noise.
  apply rbound_rsum; [nia|]. intros j Hj. apply rbound_rsum; [nia|]. intros i Hi.
  destruct (HD j i) as [Hl Hs]; [lia|lia|]. apply rbound_mul; [lia|lia|assumption|assumption|apply Hn; lia].
Qed.

(** Rounding a ciphertext moves its phase by at most (1 + kN) half steps. *)
Lemma closest_phase d k key c : dec_wf w d -> length key = k -> binary_key N key -> glwe_wf w k N c ->
  rbound q ((1 + Z.of_nat k * Z.of_nat N) * 2 ^ (w - base_log d * Z.of_nat (level_count d) - 1))
    (rsub (gphase N key (map (map (closest_representable w d)) c)) (gphase N key c)).
Proof.
  intros Hd Hk Hb [Hl Hc]. pose proof Hd as (H1 & H2 & H3 & H4).
  set (e := map (map (fun x => closest_representable w d x - x)) c).
  assert (Hph : req q (gphase N key e) (rsub (gphase N key (map (map (closest_representable w d)) c)) (gphase N key c))).
  { rewrite (gphase_rsum N q k key e), (gphase_rsum N q k key c), (gphase_rsum N q k key (map _ c))
      by (try assumption; unfold e; rewrite map_length; assumption).
    assert (HR : forall u, (u <= k)%nat -> req q (R N (nth u e [])) (rsub (R N (nth u (map (map (closest_representable w d)) c) [])) (R N (nth u c [])))).
    { intros u Hu. unfold e. rewrite (map0_nth (map (fun x => closest_representable w d x - x)) c u [] []), (map0_nth (map (closest_representable w d)) c u [] []) by lia. rewrite Forall_forall in Hc.
      destruct (Hc (nth u c [])) as [Hn _]; [apply nth_In; lia|].
      apply req_coefs. intros x Hx. change (rcoef (rsub ?a ?b) x) with (rcoef a x - rcoef b x).
      rewrite !rcoef_R by assumption. rewrite !coef_map_in by (rewrite Hn; exact Hx). reflexivity. }
    rewrite (HR k) by lia.
    rewrite (rsum_ext q k (fun u => rmul (R N (nth u e [])) (R N (nth u key [])))
       (fun u => rsub (rmul (R N (nth u (map (map (closest_representable w d)) c) [])) (R N (nth u key [])))
                      (rmul (R N (nth u c [])) (R N (nth u key []))))) by (intros u Hu; rewrite (HR u) by lia; ring).
    rewrite rsum_sub. ring. }
  eapply rbound_req; [exact Hph|]. apply gphase_small; try assumption.
  - apply Z.lt_le_incl, pow2_pos. lia.
  - unfold e. rewrite map_length. assumption.
  - intros u Hu. unfold e. rewrite (map0_nth _ c u [] []) by lia. rewrite Forall_forall in Hc.
    destruct (Hc (nth u c [])) as [Hn Hw]; [apply nth_In; lia|].
    apply rbound_R; [rewrite map_length; assumption|]. rewrite Forall_map. eapply Forall_impl; [|exact Hw].
    intros x Hx. cbv beta. destruct (closest_error w d Hd x Hx) as (er & Ee & Hb2). exists er. split; [|lia].
    fold q in Ee. rewrite Ee. apply eqm_eq. lia.
Qed.
End Bounds.

(** Bound on the error of an external product with a GGSW ciphertext of level count l and base 2^b under a
    binary key, [beta] bounding the noise of the rows and [E] the error of the backend. *)
Definition ep_error (w b : Z) (k N l : nat) (m beta E : Z) : Z :=
  Z.abs m * ((1 + Z.of_nat k * Z.of_nat N) * 2 ^ (w - b * Z.of_nat l - 1))
  + Z.of_nat l * (Z.of_nat (S k) * (Z.of_nat N * (2 ^ (b - 1) * beta)))
  + (1 + Z.of_nat k * Z.of_nat N) * E.

Lemma ep_bound w N d k key m noise beta E out' out c err :
  dec_wf w d -> length key = k -> binary_key N key -> glwe_wf w k N c -> 0 <= E -> 0 <= beta ->
  (forall j i, (j < level_count d)%nat -> (i <= k)%nat -> rbound (2 ^ w) beta (R N (noise (S j) i))) ->
  small_glwe k N E err ->
  req (2 ^ w) (gphase N key out')
      (radd (radd (radd (gphase N key out) (rscal m (gphase N key (map (map (closest_representable w d)) c))))
                  (digit_noise N k (level_count d) (ct_digit w d c) noise))
            (gphase N key err)) ->
  rbound (2 ^ w) (ep_error w (base_log d) k N (level_count d) m beta E)
    (rsub (gphase N key out') (radd (gphase N key out) (rscal m (gphase N key c)))).
Proof.
  intros Hd Hk Hb Hc HE Hbeta Hnoise Herr Hr. pose proof Hd as (H1 & H2 & H3 & H4).
  eapply rbound_req.
  - symmetry. rewrite Hr. instantiate (1 := radd (radd (rscal m (rsub (gphase N key (map (map (closest_representable w d)) c)) (gphase N key c)))
       (digit_noise N k (level_count d) (ct_digit w d c) noise)) (gphase N key err)).
    intros x. apply eqm_eq. cbn. ring.
  - unfold ep_error. apply rbound_add; [apply rbound_add|].
    + apply rbound_scal. apply closest_phase; assumption.
    + apply (digit_noise_bound w N k (level_count d) (base_log d) (ct_digit w d c) noise beta (map (map (closest_representable w d)) c));
        [assumption|assumption|apply ct_digit_ok; assumption|assumption].
    + apply small_glwe_phase; assumption.
Qed.

Theorem C26_error_bound : forall p w B N k d key m noise beta T E out G c,
  dec_wf w d -> (0 < N)%nat -> length key = k -> binary_key N key ->
  glwe_wf w k N out -> glwe_wf w k N c -> ggsw_wf w k N (level_count d) G ->
  ggsw_encrypts w (base_log d) N key m noise G -> 0 <= beta ->
  (forall j i, (j < level_count d)%nat -> (i <= k)%nat -> rbound (2 ^ w) beta (R N (noise (S j) i))) ->
  backend_ok w N (base_log d) T E B -> 0 <= E -> (level_count d * S k <= T)%nat ->
  exists out',
    external_product p w B N (base_log d) out (fill_with_forward_fourier B G) c = Ret out' /\ glwe_wf w k N out' /\
    rbound (2 ^ w) (ep_error w (base_log d) k N (level_count d) m beta E)
      (rsub (gphase N key out') (radd (gphase N key out) (rscal m (gphase N key c)))).
Proof.
  intros p w B N k d key m noise beta T E out G c Hd HN Hk Hb Ho Hc HG Henc Hbeta Hnoise HB HE HT.
  destruct (ep_phase w N d k key m noise (bk_run B) T E out G c Hd Hk Ho Hc HG Henc HB HT) as [Hwf (err & He & Hr)].
  eexists. split; [apply (external_product_run p w B N k d out G c); assumption|]. split; [exact Hwf|].
  apply (ep_bound w N d k key m noise beta E _ out c err); assumption.
Qed.
Print Assumptions C26_error_bound.

(** The discarding entry point starts from zero: the previous contents of the output are irrelevant. *)
Theorem C26_discarding_ignores_output : forall p w B N k b out1 out2 FG c,
  glwe_wf w k N out1 -> glwe_wf w k N out2 ->
  discard_external_product p w B N b out1 FG c = discard_external_product p w B N b out2 FG c.
Proof.
  intros p w B N k b out1 out2 FG c [H1 H1w] [H2 H2w]. unfold discard_external_product.
  assert (G : forall out, length out = S k -> Forall (poly_wf w N) out -> map (map (fun _ => 0)) out = repeat (repeat 0 N) (S k)).
  { intros out Hl. rewrite <- Hl. clear. intros H. induction H as [|a out [Ha _] H IH]; [reflexivity|].
    cbn [map length repeat]. rewrite IH. f_equal. rewrite <- Ha. clear. induction a as [|x a IH]; cbn; congruence. }
  rewrite !G by assumption. reflexivity.
Qed.
Print Assumptions C26_discarding_ignores_output.

Lemma gphase_zero_glwe w N k key : length key = k -> req (2 ^ w) (gphase N key (repeat (repeat 0 N) (S k))) (rzero N).
Proof.
  intros Hk. rewrite (gphase_rsum N (2 ^ w) k key) by (rewrite ?repeat_length; auto).
  assert (Hz : forall u, req (2 ^ w) (R N (nth u (repeat (repeat 0 N) (S k)) [])) (rzero N)).
  { intros u. destruct (Nat.lt_ge_cases u (S k)) as [H|H].
    - rewrite (nth_indep _ [] (repeat 0 N)) by (rewrite repeat_length; assumption). rewrite nth_repeat. apply R_zero.
    - rewrite nth_overflow by (rewrite repeat_length; assumption). apply R_nil_zero. }
  rewrite (Hz k). rewrite (rsum_ext (2 ^ w) k _ (fun _ => rzero N)).
  - rewrite rsum_zero. intros x. apply eqm_eq. reflexivity.
  - intros u Hu. rewrite (Hz u). intros x. apply eqm_eq. cbn. apply sumz_0.
Qed.

Theorem C26_discarding : forall p w B N k d key m noise beta T E out G c,
  dec_wf w d -> (0 < N)%nat -> length key = k -> binary_key N key ->
  glwe_wf w k N out -> glwe_wf w k N c -> ggsw_wf w k N (level_count d) G ->
  ggsw_encrypts w (base_log d) N key m noise G -> 0 <= beta ->
  (forall j i, (j < level_count d)%nat -> (i <= k)%nat -> rbound (2 ^ w) beta (R N (noise (S j) i))) ->
  backend_ok w N (base_log d) T E B -> 0 <= E -> (level_count d * S k <= T)%nat ->
  exists out',
    discard_external_product p w B N (base_log d) out (fill_with_forward_fourier B G) c = Ret out' /\ glwe_wf w k N out' /\
    rbound (2 ^ w) (ep_error w (base_log d) k N (level_count d) m beta E)
      (rsub (gphase N key out') (rscal m (gphase N key c))).
Proof.
  intros p w B N k d key m noise beta T E out G c Hd HN Hk Hb Ho Hc HG Henc Hbeta Hnoise HB HE HT.
  unfold discard_external_product. destruct Ho as [Hol How].
  assert (Ez : map (map (fun _ => 0)) out = repeat (repeat 0 N) (S k)).
  { rewrite <- Hol. clear - How. induction How as [|a out [Ha _] H IH]; [reflexivity|].
    cbn [map length repeat]. rewrite IH. f_equal. rewrite <- Ha. clear. induction a as [|x a IH]; cbn; congruence. }
  rewrite Ez. pose proof Hd as (H1 & H2 & H3 & H4).
  assert (Hz : glwe_wf w k N (repeat (repeat 0 N) (S k))).
  { split; [apply repeat_length|]. apply Forall_forall. intros a Ha. apply repeat_spec in Ha. subst a.
    split; [apply repeat_length|]. apply Forall_forall. intros x Hx. apply repeat_spec in Hx. subst x.
    split; [lia|]. apply pow2_pos. nia. }
  destruct (C26_error_bound p w B N k d key m noise beta T E (repeat (repeat 0 N) (S k)) G c) as (out' & E1 & W1 & Hbd); try assumption.
  exists out'. split; [exact E1|]. split; [exact W1|]. eapply rbound_req; [|exact Hbd].
  rewrite (gphase_zero_glwe w N k key Hk). intros x. apply eqm_eq. cbn. ring.
Qed.
Print Assumptions C26_discarding.

(** ** C27 *)
Lemma zip_sub_wf w k N a b : 0 <= w -> glwe_wf w k N a -> glwe_wf w k N b ->
  glwe_wf w k N (zip_update (zip_update (wsub w)) a b) /\
  (forall u, (u <= k)%nat -> req (2 ^ w) (R N (nth u (zip_update (zip_update (wsub w)) a b) [])) (rsub (R N (nth u a [])) (R N (nth u b [])))).
Proof.
  intros Hw [Ha Haw] [Hb Hbw]. rewrite Forall_forall in Haw, Hbw.
  assert (Hp : forall u, (u <= k)%nat -> poly_wf w N (nth u a []) /\ poly_wf w N (nth u b [])).
  { intros u Hu. split; [apply Haw|apply Hbw]; apply nth_In; lia. }
  assert (Hu1 : forall u, (u <= k)%nat -> nth u (zip_update (zip_update (wsub w)) a b) [] = poly_sub w (nth u a []) (nth u b [])).
  { intros u Hu. rewrite (nth_zip_update _ a b u [] []) by lia. destruct (Hp u Hu) as [[H1 _] [H2 _]].
    apply zip_update_map2. congruence. }
  split.
  - split; [rewrite zip_update_length; assumption|].
    apply (Forall_nth_intro _ [] _ (S k)); [rewrite zip_update_length; assumption|]. intros u Hu.
    rewrite Hu1 by lia. destruct (Hp u) as [H1 H2]; [lia|]. apply poly_sub_wf; assumption.
  - intros u Hu. rewrite Hu1 by assumption. destruct (Hp u Hu) as [[H1 _] [H2 _]]. apply R_poly_sub; [assumption|congruence].
Qed.

Lemma gphase_sub w k N key c a b : length key = k -> length c = S k -> length a = S k -> length b = S k ->
  (forall u, (u <= k)%nat -> req (2 ^ w) (R N (nth u c [])) (rsub (R N (nth u a [])) (R N (nth u b [])))) ->
  req (2 ^ w) (gphase N key c) (rsub (gphase N key a) (gphase N key b)).
Proof.
  intros Hk Hc Ha Hb H.
  rewrite (gphase_rsum N _ k key c), (gphase_rsum N _ k key a), (gphase_rsum N _ k key b) by assumption.
  rewrite (H k (le_n k)).
  rewrite (rsum_ext (2 ^ w) k (fun u => rmul (R N (nth u c [])) (R N (nth u key [])))
       (fun u => rsub (rmul (R N (nth u a [])) (R N (nth u key []))) (rmul (R N (nth u b [])) (R N (nth u key []))))).
  - rewrite rsum_sub. intros x. apply eqm_eq. cbn. ring.
  - intros u Hu. rewrite (H u) by lia. intros x. apply eqm_eq. cbn. rewrite <- sumz_sub. apply sumz_ext. intros. ring.
Qed.

Theorem C27_cmux : forall p w B N k d key (bit : bool) noise beta T E ct0 ct1 G,
  dec_wf w d -> (0 < N)%nat -> length key = k -> binary_key N key ->
  glwe_wf w k N ct0 -> glwe_wf w k N ct1 -> ggsw_wf w k N (level_count d) G ->
  ggsw_encrypts w (base_log d) N key (Z.b2z bit) noise G -> 0 <= beta ->
  (forall j i, (j < level_count d)%nat -> (i <= k)%nat -> rbound (2 ^ w) beta (R N (noise (S j) i))) ->
  backend_ok w N (base_log d) T E B -> 0 <= E -> (level_count d * S k <= T)%nat ->
  exists out diff,
    cmux p w B N (base_log d) ct0 ct1 (fill_with_forward_fourier B G) = Ret (out, diff) /\
    glwe_wf w k N out /\ glwe_wf w k N diff /\
    rbound (2 ^ w) (ep_error w (base_log d) k N (level_count d) (Z.b2z bit) beta E)
      (rsub (gphase N key out) (gphase N key (if bit then ct1 else ct0))).
Proof.
  intros p w B N k d key bit noise beta T E ct0 ct1 G Hd HN Hk Hb H0 H1 HG Henc Hbeta Hnoise HB HE HT.
  pose proof Hd as (D1 & D2 & D3 & D4).
  assert (Hw : 0 <= w) by nia.
  destruct (zip_sub_wf w k N ct1 ct0 Hw H1 H0) as [Hwf HR].
  destruct (C26_error_bound p w B N k d key (Z.b2z bit) noise beta T E ct0 G _ Hd HN Hk Hb H0 Hwf HG Henc Hbeta Hnoise HB HE HT)
    as (out & E1 & W1 & Hbd).
  exists out, (zip_update (zip_update (wsub w)) ct1 ct0). unfold cmux. rewrite E1. cbn [obind].
  split; [reflexivity|]. split; [exact W1|]. split; [exact Hwf|].
  eapply rbound_req; [|exact Hbd].
  rewrite (gphase_sub w k N key _ ct1 ct0 Hk (proj1 Hwf) (proj1 H1) (proj1 H0) HR).
  remember (Z.b2z bit) as m eqn:Em. intros x. apply eqm_eq. destruct bit; cbn in Em |- *; subst m; ring.
Qed.
Print Assumptions C27_cmux.

(** ** An exact backend: the hypotheses on the backend can be met with [E = 0]. *)
Definition exact_backend (w : Z) : backend :=
  {| bk_dom := list Z; bk_key := fun g => g; bk_digit := fun d => map (sgn w) d;
     bk_mul := fun g d => nega w g d; bk_mac := fun o g d => poly_add w o (nega w g d);
     bk_add_back := poly_add w |}.

Lemma nega_wf w N a b : 0 <= w -> length a = N -> poly_wf w N (nega w a b).
Proof. intros Hw Ha. unfold nega. split; [rewrite map_length, zseq_len; assumption|]. apply words_zseq. assumption. Qed.

Theorem C26_exact_backend_ok : forall w N b T, 0 < w -> (0 < N)%nat -> backend_ok w N b T 0 (exact_backend w).
Proof.
  intros w N b T Hw HN out pairs Ho _ Hp.
  assert (G : forall pairs acc, Forall (fun '(g, d) => poly_wf w N g /\ poly_wf w N d /\ Forall (fun x => Z.abs (sgn w x) <= 2 ^ (b - 1)) d) pairs ->
     poly_wf w N acc ->
     let r := fold_left (fun o '(g, d) => bk_mac (exact_backend w) o (bk_key (exact_backend w) g) (bk_digit (exact_backend w) d)) pairs acc in
     poly_wf w N r /\ req (2 ^ w) (R N r) (radd (R N acc) (rsuml pairs (fun '(g, d) => rmul (R N g) (R N (map (sgn w) d)))))).
  { clear pairs Hp. induction pairs as [|[g d] pairs IH]; intros acc Hp Ha.
    - split; [exact Ha|]. cbn [fold_left rsuml]. intros x. apply eqm_eq. cbn. ring.
    - pose proof (Forall_inv Hp) as (Hg & Hd & _). apply Forall_inv_tail in Hp. cbn [fold_left].
      assert (Hn : poly_wf w N (nega w g (map (sgn w) d))) by (apply nega_wf; [lia|apply Hg]).
      destruct (IH (poly_add w acc (nega w g (map (sgn w) d))) Hp) as [W1 E1].
      { apply poly_add_wf; [lia|assumption|assumption]. }
      split; [exact W1|]. cbn [bk_mac bk_key bk_digit exact_backend] in *. rewrite E1. cbn [rsuml].
      rewrite R_poly_add by (try lia; destruct Ha, Hn; congruence).
      rewrite R_nega by (try apply Hg; rewrite map_length; apply Hd). intros x. apply eqm_eq. cbn. ring. }
  assert (Hfin : forall r, poly_wf w N (bk_run (exact_backend w) out pairs) ->
     req (2 ^ w) (R N (bk_run (exact_backend w) out pairs)) (radd (R N out) r) ->
     exists err, length err = N /\ Forall (fun e => Z.abs e <= 0) err /\
       req (2 ^ w) (R N (bk_run (exact_backend w) out pairs)) (radd (radd (R N out) r) (R N err))).
  { intros r W Er. exists (repeat 0 N). split; [apply repeat_length|]. split.
    - apply Forall_forall. intros x Hx. apply repeat_spec in Hx. subst. reflexivity.
    - rewrite Er, R_zero. intros x. apply eqm_eq. cbn. ring. }
  destruct pairs as [|[g d] pairs].
  - split; [exact Ho|]. apply Hfin; [exact Ho|]. cbn [bk_run rsuml]. intros x. apply eqm_eq. cbn. ring.
  - pose proof (Forall_inv Hp) as (Hg & Hd & _). apply Forall_inv_tail in Hp.
    assert (Hn : poly_wf w N (nega w g (map (sgn w) d))) by (apply nega_wf; [lia|apply Hg]).
    destruct (G pairs (nega w g (map (sgn w) d)) Hp Hn) as [W1 E1].
    assert (W2 : poly_wf w N (bk_run (exact_backend w) out ((g, d) :: pairs))) by (apply poly_add_wf; [lia|assumption|exact W1]).
    split; [exact W2|]. apply Hfin; [exact W2|]. cbn [bk_run bk_add_back bk_mul bk_key bk_digit exact_backend] in *.
    rewrite R_poly_add by (try lia; destruct Ho, W1; congruence). rewrite E1. cbn [rsuml].
    rewrite R_nega by (try apply Hg; rewrite map_length; apply Hd). intros x. apply eqm_eq. cbn. ring.
Qed.
Print Assumptions C26_exact_backend_ok.

(** A concrete external product and cmux with the exact backend: w = 32, base 2^4, two levels, k = 1, N = 2.
    The GGSW ciphertexts encrypt 1 and 0 with noise 1..5 (as in [C25_case]). *)
Definition demo_ggsw (m : Z) : list (list (list (list Z))) :=
  match encrypt_constant_ggsw Debug 32 demo_gauss_word [[1; 0]] 2 4 (ggsw_allocate 2 2 2) m demo_egen with
  | Ret (G, _) => G | Panic => [] end.
Definition demo_ct0 : list (list Z) := [[0x12345678; 0xdeadbeef]; [0x3243f6a8; 0x885a308d]].
Definition demo_ct1 : list (list Z) := [[0x2b7e1516; 0x28aed2a6]; [0xabf71588; 0x09cf4f3c]].
Definition glwe_dist (w : Z) (a b : outcome (list Z)) : list Z :=
  match a, b with Ret a, Ret b => map2 (fun x y => Z.abs (sgn w (wsub w x y))) a b | _, _ => [] end.

Example C26_case :
  let key := [[1; 0]] in let B := exact_backend 32 in
  dec_wf 32 (Dec 4 2) /\ binary_key 2 key /\ glwe_wf 32 1 2 demo_ct0 /\ glwe_wf 32 1 2 demo_ct1 /\
  ggsw_wf 32 1 2 2 (demo_ggsw 1) /\ backend_ok 32 2 4 4 0 B /\
  (exists noise, ggsw_encrypts 32 4 2 key 1 noise (demo_ggsw 1) /\
     (forall j i, (j < 2)%nat -> (i <= 1)%nat -> rbound (2 ^ 32) 5 (R 2 (noise (S j) i)))) /\
  match external_product Debug 32 B 2 4 demo_ct0 (fill_with_forward_fourier B (demo_ggsw 1)) demo_ct1,
        cmux Debug 32 B 2 4 demo_ct0 demo_ct1 (fill_with_forward_fourier B (demo_ggsw 1)),
        cmux Debug 32 B 2 4 demo_ct0 demo_ct1 (fill_with_forward_fourier B (demo_ggsw 0)) with
  | Ret e, Ret (c1, _), Ret (c0, _) =>
      let dec c := decrypt_glwe Debug 32 key 2 c in
      Forall (fun x => 0 < x < 2 ^ 25) (glwe_dist 32 (dec e) (match dec demo_ct0, dec demo_ct1 with Ret a, Ret b => Ret (poly_add 32 a b) | _, _ => Panic end)) /\
      Forall (fun x => 0 < x < 2 ^ 25) (glwe_dist 32 (dec c1) (dec demo_ct1)) /\
      Forall (fun x => 0 < x < 2 ^ 10) (glwe_dist 32 (dec c0) (dec demo_ct0))
  | _, _, _ => False
  end.
Proof.
  cbv zeta. split; [unfold dec_wf; cbn [base_log level_count]; lia|]. split; [apply Forall_cons; [split; [reflexivity|apply Forall_cons; [right; reflexivity|apply Forall_cons; [left; reflexivity|apply Forall_nil]]]|apply Forall_nil]|].
  split; [repeat split; repeat constructor; cbn; lia|]. split; [repeat split; repeat constructor; cbn; lia|].
  assert (A : ggsw_wf 32 1 2 2 (demo_ggsw 1) /\
    exists noise, ggsw_encrypts 32 4 2 [[1; 0]] 1 noise (demo_ggsw 1) /\
     (forall j i, (j < 2)%nat -> (i <= 1)%nat -> rbound (2 ^ 32) 5 (R 2 (noise (S j) i)))).
  { destruct C25_case as (H1 & H2 & H3 & H4 & H5 & _).
    destruct (encrypt_constant_ggsw Debug 32 demo_gauss_word [[1; 0]] 2 4 (ggsw_allocate 2 2 2) 1 demo_egen) as [[G g']|] eqn:E;
      [|vm_compute in E; discriminate].
    unfold demo_ggsw. rewrite E.
    destruct (C25_rows Debug 32 demo_gauss_word 2 [[1; 0]] 4 (ggsw_allocate 2 2 2) 1 demo_egen G g') as (noise & HW & HG & Hn & _);
      try assumption; try reflexivity; try (cbn; lia).
    split; [exact HW|]. exists noise. split; [exact HG|]. intros j i Hj Hi. destruct (Hn (S j) i) as (ng & En); [cbn; lia|cbn; lia|].
    assert (Hc : (j = 0 \/ j = 1)%nat) by lia. assert (Hd : (i = 0 \/ i = 1)%nat) by lia.
    destruct Hc as [-> | ->], Hd as [-> | ->]; apply (f_equal (fun r => match r with Ret (e, _) => e | Panic => [] end)) in En;
      vm_compute in En; rewrite <- En; (apply rbound_R; [reflexivity|repeat constructor; (eexists; split; [reflexivity|lia])]). }
  split; [exact (proj1 A)|]. split; [apply C26_exact_backend_ok; lia|]. split; [exact (proj2 A)|].
  match goal with |- context [external_product ?a ?b ?c ?d ?e ?f ?g ?h] =>
    let r := eval vm_compute in (external_product a b c d e f g h) in
    replace (external_product a b c d e f g h) with r by (vm_compute; reflexivity) end.
  match goal with |- context [cmux ?a ?b ?c ?d ?e ?f ?g (fill_with_forward_fourier ?B (demo_ggsw 1))] =>
    let r := eval vm_compute in (cmux a b c d e f g (fill_with_forward_fourier B (demo_ggsw 1))) in
    replace (cmux a b c d e f g (fill_with_forward_fourier B (demo_ggsw 1))) with r by (vm_compute; reflexivity) end.
  match goal with |- context [cmux ?a ?b ?c ?d ?e ?f ?g (fill_with_forward_fourier ?B (demo_ggsw 0))] =>
    let r := eval vm_compute in (cmux a b c d e f g (fill_with_forward_fourier B (demo_ggsw 0))) in
    replace (cmux a b c d e f g (fill_with_forward_fourier B (demo_ggsw 0))) with r by (vm_compute; reflexivity) end.
  cbv zeta iota.
  split; [|split];
  match goal with |- Forall _ ?l => let r := eval vm_compute in l in replace l with r by (vm_compute; reflexivity) end;
  repeat constructor.
Qed.
