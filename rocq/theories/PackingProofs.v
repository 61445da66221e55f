(** * Lemmas about the packing keyswitches *)
From Verif Require Import Base Word WordFacts NegaRing PolySpec PolyModel PolyProofs PolyTheorems RingSum DecompModel DecompProofs DecompTheorems
  ExtProdProofs ExtProdTheorems RandomModel RandomProofs LweSpec LweModel LweProofs LweTheorems GlweSpec GlweModel GlweProofs GlweTheorems GgswModel GgswProofs
  GgswTheorems NoiseBounds BootstrapTheorems KeyswitchModel KeyswitchSpec KeyswitchProofs KeyswitchTheorems.

Lemma rcoef_rsum N (n : nat) (f : nat -> rp N) x : rcoef (rsum n f) x = zsum n (fun i => rcoef (f i) x).
Proof. induction n as [|n IH]; [reflexivity|]. rewrite zsum_S. cbn [rsum]. rewrite <- IH. reflexivity. Qed.

Lemma gphase_lin w k N key c a b x : length key = k -> length c = S k -> length a = S k -> length b = S k ->
  (forall u, (u <= k)%nat -> req (2 ^ w) (R N (nth u c [])) (rsub (R N (nth u a [])) (rscal x (R N (nth u b []))))) ->
  req (2 ^ w) (gphase N key c) (rsub (gphase N key a) (rscal x (gphase N key b))).
Proof.
  intros Hk Hc Ha Hb H.
  rewrite (gphase_rsum N _ k key c), (gphase_rsum N _ k key a), (gphase_rsum N _ k key b) by assumption.
  rewrite (H k (le_n k)).
  rewrite (rsum_ext (2 ^ w) k (fun u => rmul (R N (nth u c [])) (R N (nth u key [])))
       (fun u => rsub (rmul (R N (nth u a [])) (R N (nth u key []))) (rscal x (rmul (R N (nth u b [])) (R N (nth u key [])))))).
  - rewrite rsum_sub, rsum_scal. intros y. apply eqm_eq. cbn. ring.
  - intros u Hu. rewrite (H u) by lia. intros y. apply eqm_eq. cbn. rewrite <- sumz_mul_l, <- sumz_sub. apply sumz_ext. intros. ring.
Qed.

Lemma R_poly_lin w N x a b : 0 <= w -> length a = length b ->
  req (2 ^ w) (R N (map2 (fun o c => wsub w o (wmul w c x)) a b)) (rsub (R N a) (rscal x (R N b))).
Proof.
  intros Hw Hl. apply req_coefs. intros j Hj. rewrite rcoef_R by lia.
  change (rcoef (rsub (R N a) (rscal x (R N b))) j) with (rcoef (R N a) j - x * rcoef (R N b) j). rewrite !rcoef_R by lia.
  unfold coef. set (i := Z.to_nat j). clearbody i. clear j Hj.
  revert b Hl i. induction a as [|u a IH]; intros [|v b] Hl i; try discriminate.
  - destruct i; apply eqm_eq; cbn; ring.
  - destruct i as [|i]; cbn [map2 nth].
    + rewrite wsub_eqm, wmul_eqm. apply eqm_eq. ring.
    + apply IH. cbn in Hl. lia.
Qed.

Lemma glwe_sub_element_mul_ok p w k N key o r x : 0 <= w -> length key = k -> glwe_wf w k N o -> glwe_wf w k N r ->
  exists o', glwe_sub_element_mul p w o r x = Ret o' /\ glwe_wf w k N o' /\
    forall c : Z, eqm (2 ^ w) (rcoef (gphase N key o') c) (rcoef (gphase N key o) c - x * rcoef (gphase N key r) c).
Proof.
  intros Hw Hk [Ho Hoa] [Hr Hra]. unfold glwe_sub_element_mul.
  assert (Hlo : forall c, length c = S k -> Forall (poly_wf w N) c -> length (concat c) = (S k * N)%nat).
  { intros c Hc Hf. rewrite <- Hc. apply concat_length_const. eapply Forall_impl; [|exact Hf]. intros a [H _]. exact H. }
  rewrite ck_dim_eq_ok by (rewrite !Hlo by assumption; reflexivity). cbn [obind].
  eexists. split; [reflexivity|]. set (f := fun o c => wsub w o (wmul w c x)).
  rewrite Forall_forall in Hoa, Hra.
  assert (Hu1 : forall u, (u <= k)%nat -> nth u (zip_update (zip_update f) o r) [] = map2 f (nth u o []) (nth u r [])).
  { intros u Hu. rewrite (nth_zip_update _ o r u [] []) by lia. apply zip_update_map2.
    destruct (Hoa (nth u o [])) as [-> _]; [apply nth_In; lia|]. destruct (Hra (nth u r [])) as [-> _]; [apply nth_In; lia|]. reflexivity. }
  split.
  - split; [rewrite zip_update_length; assumption|].
    apply (Forall_nth_intro _ [] _ (S k)); [rewrite zip_update_length; assumption|]. intros u Hu.
    rewrite Hu1 by lia. destruct (Hoa (nth u o [])) as [L1 _]; [apply nth_In; lia|]. destruct (Hra (nth u r [])) as [L2 _]; [apply nth_In; lia|].
    split; [rewrite map2_length; lia|]. apply words_map2. intros. apply wsub_word. assumption.
  - intros c. apply (gphase_lin w k N key _ o r x); try assumption; [rewrite zip_update_length; assumption|].
    intros u Hu. rewrite Hu1 by assumption. apply R_poly_lin; [assumption|].
    destruct (Hoa (nth u o [])) as [-> _]; [apply nth_In; lia|]. destruct (Hra (nth u r [])) as [-> _]; [apply nth_In; lia|]. reflexivity.
Qed.

(** The double loop applied to a key that encrypts [s] times [P]. *)
Lemma glwe_ks_blocks_digits p w b l N key s (P : rp N) noise ksk xs o : dec_wf w (Dec b l) ->
  gksk_encrypts w b l N key s P noise ksk -> length xs = length s -> Forall (is_word w) xs -> glwe_wf w (length key) N o ->
  exists out, ks_blocks p w (glwe_sub_element_mul p w) (Dec b l) ksk xs o = Ret out /\ glwe_wf w (length key) N out /\
    req (2 ^ w) (gphase N key out)
      (rsub (rsub (gphase N key o) (rscal (zsum (length s) (fun i => closest_representable w (Dec b l) (nth i xs 0) * nth i s 0)) P))
            (rsum (length s) (fun i => rsum l (fun j => rscal (sdigit w (Dec b l) (l - 1 - j) (nth i xs 0)) (noise i j))))).
Proof.
  intros Hd [Hkl Hk] Hx Hxw Ho. pose proof Hd as (H1 & H2 & H3 & H4). cbn [base_log level_count] in *. assert (Hw : 0 < w) by nia.
  set (d := Dec b l) in *.
  destruct (ks_blocks_ok p w d Hd (glwe_sub_element_mul p w) (glwe_wf w (length key) N) (fun c x => rcoef (gphase N key x) c)
     ltac:(intros; apply glwe_sub_element_mul_ok; auto; lia) [] ksk xs o) as (out & E & Hout & Q).
  - congruence.
  - assumption.
  - apply Forall_forall. intros bl Hin. apply In_nth_error in Hin. destruct Hin as [i Hi]. destruct (Hk i bl Hi) as [Hl1 Hl2].
    split; [assumption|]. apply Forall_forall. intros row Hrow. apply In_nth_error in Hrow. destruct Hrow as [j Hj]. apply (Hl2 j row Hj).
  - assumption.
  - exists out. split; [exact E|]. split; [assumption|].
    assert (Hnw : forall i, is_word w (nth i xs 0)).
    { intros i. destruct (nth_in_or_default i xs 0) as [Hin| ->]; [|split; [lia|apply pow2_pos; lia]].
      rewrite Forall_forall in Hxw. apply Hxw. assumption. }
    intros c. rewrite (Q c). change (level_count d) with l. rewrite Hx.
    change (rcoef (rsub (rsub (gphase N key o) (rscal (zsum (length s) (fun i => closest_representable w d (nth i xs 0) * nth i s 0)) P))
       (rsum (length s) (fun i => rsum l (fun j => rscal (sdigit w d (l - 1 - j) (nth i xs 0)) (noise i j))))) c)
     with (rcoef (gphase N key o) c - zsum (length s) (fun i => closest_representable w d (nth i xs 0) * nth i s 0) * rcoef P c
       - rcoef (rsum (length s) (fun i => rsum l (fun j => rscal (sdigit w d (l - 1 - j) (nth i xs 0)) (noise i j)))) c).
    rewrite rcoef_rsum, <- zsum_mul_r.
    rewrite (zsum_eqm (2 ^ w) (length s)
       (fun i => zsum l (fun j => sdigit w d (l - 1 - j) (nth i xs 0) * rcoef (gphase N key (nth j (nth i ksk []) [])) c))
       (fun i => closest_representable w d (nth i xs 0) * nth i s 0 * rcoef P c
                 + rcoef (rsum l (fun j => rscal (sdigit w d (l - 1 - j) (nth i xs 0)) (noise i j))) c)).
    { rewrite zsum_add. apply eqm_eq. lia. }
    intros i Hi.
    destruct (sdigits_gadget w b l (nth i xs 0) Hd (Hnw i)) as (_ & Hsum & _). fold d in Hsum.
    rewrite <- Hsum. rewrite rcoef_rsum, <- !zsum_mul_r, <- zsum_add. apply zsum_eqm. intros j Hj.
    destruct (nth_error ksk i) as [bl|] eqn:Ebl; [|apply nth_error_None in Ebl; lia].
    destruct (Hk i bl Ebl) as [Hl1 Hl2]. destruct (nth_error bl j) as [row|] eqn:Erow; [|apply nth_error_None in Erow; lia].
    destruct (Hl2 j row Erow) as [_ Hph].
    rewrite (nth_error_nth _ _ _ Ebl), (nth_error_nth _ _ _ Erow). rewrite (Hph c). apply eqm_eq. cbn. ring.
Qed.

Lemma glwe_ks_blocks_ok p w b l N key s (P : rp N) noise ksk xs o : dec_wf w (Dec b l) ->
  gksk_encrypts w b l N key s P noise ksk -> length xs = length s -> Forall (is_word w) xs -> glwe_wf w (length key) N o ->
  exists out D, ks_blocks p w (glwe_sub_element_mul p w) (Dec b l) ksk xs o = Ret out /\ glwe_wf w (length key) N out /\
    (forall i, (i < length s)%nat -> gadget_digits w b l (nth i xs 0) (closest_representable w (Dec b l) (nth i xs 0)) (D i)) /\
    req (2 ^ w) (gphase N key out)
      (rsub (rsub (gphase N key o) (rscal (zsum (length s) (fun i => closest_representable w (Dec b l) (nth i xs 0) * nth i s 0)) P))
            (rsum (length s) (fun i => rsum l (fun j => rscal (D i j) (noise i j))))).
Proof.
  intros Hd Hk Hx Hxw Ho. destruct (glwe_ks_blocks_digits p w b l N key s P noise ksk xs o Hd Hk Hx Hxw Ho) as (out & E & Hout & Q).
  exists out, (fun i j => sdigit w (Dec b l) (l - 1 - j) (nth i xs 0)). split; [exact E|]. split; [assumption|]. split; [|exact Q].
  intros i Hi. apply sdigits_gadget; [assumption|]. rewrite Forall_forall in Hxw. apply Hxw, nth_In. lia.
Qed.

(** ** The packing loop *)
Lemma radd_rsub_neg N q (x y : rp N) : req q (radd x y) (rsub x (rscal (-1) y)).
Proof.
  intros k. apply eqm_eq. change (rcoef x k + rcoef y k = rcoef x k - (-1) * rcoef y k). lia.
Qed.

Lemma zip_add_wf w k N a b : 0 <= w -> glwe_wf w k N a -> glwe_wf w k N b ->
  glwe_wf w k N (zip_update (zip_update (wadd w)) a b) /\
  (forall u, (u <= k)%nat -> req (2 ^ w) (R N (nth u (zip_update (zip_update (wadd w)) a b) [])) (rsub (R N (nth u a [])) (rscal (-1) (R N (nth u b []))))).
Proof.
  intros Hw [Ha Haw] [Hb Hbw]. rewrite Forall_forall in Haw, Hbw.
  assert (Hp : forall u, (u <= k)%nat -> poly_wf w N (nth u a []) /\ poly_wf w N (nth u b [])).
  { intros u Hu. split; [apply Haw|apply Hbw]; apply nth_In; lia. }
  assert (Hu1 : forall u, (u <= k)%nat -> nth u (zip_update (zip_update (wadd w)) a b) [] = poly_add w (nth u a []) (nth u b [])).
  { intros u Hu. rewrite (nth_zip_update _ a b u [] []) by lia. destruct (Hp u Hu) as [[H1 _] [H2 _]].
    apply zip_update_map2. congruence. }
  split.
  - split; [rewrite zip_update_length; assumption|].
    apply (Forall_nth_intro _ [] _ (S k)); [rewrite zip_update_length; assumption|]. intros u Hu.
    rewrite Hu1 by lia. destruct (Hp u) as [H1 H2]; [lia|]. apply poly_add_wf; assumption.
  - intros u Hu. rewrite Hu1 by assumption. destruct (Hp u Hu) as [[H1 _] [H2 _]]. rewrite R_poly_add by (assumption || congruence).
    apply radd_rsub_neg.
Qed.

Lemma pack_loop_ok p w k N key ks (V : nat -> rp N) : 0 < w -> (0 < N)%nat -> length key = k ->
  forall input t output buffer, glwe_wf w k N output -> glwe_wf w k N buffer ->
  (forall i c buf, nth_error input i = Some c -> glwe_wf w k N buf ->
     exists r, ks buf c = Ret r /\ glwe_wf w k N r /\ req (2 ^ w) (gphase N key r) (V (t + i)%nat)) ->
  exists out, pack_loop p w ks output buffer t input = Ret out /\ glwe_wf w k N out /\
    req (2 ^ w) (gphase N key out)
      (radd (gphase N key output) (rsum (length input) (fun i => rshift (Z.of_nat (t + i)) (V (t + i)%nat)))).
Proof.
  intros Hw HN Hk. induction input as [|c input IH]; intros t output buffer Ho Hb Hks; cbn [pack_loop length].
  - exists output. split; [reflexivity|]. split; [assumption|]. intros x. apply eqm_eq. cbn. ring.
  - destruct (Hks O c buffer eq_refl Hb) as (r & Er & Hr & Pr). rewrite Er. cbn [obind]. rewrite Nat.add_0_r in Pr.
    destruct (list_rotation_ok w N k r (fun a => monic_monomial_mul w a t) (Z.of_nat t) Hr) as [Hm1 Hm2].
    { intros a Ha. apply monic_monomial_mul_ok; try assumption. lia. }
    change (map (fun a => monic_monomial_mul w a t) r) with (list_monic_monomial_mul w r t) in *.
    set (r1 := list_monic_monomial_mul w r t) in *. clearbody r1.
    assert (Hlo : forall c, glwe_wf w k N c -> length (concat c) = (S k * N)%nat).
    { intros c' [Hc Hf]. rewrite <- Hc. apply concat_length_const. eapply Forall_impl; [|exact Hf]. intros a [H _]. exact H. }
    rewrite ck_dim_eq_ok by (rewrite !Hlo by assumption; reflexivity). cbn [obind].
    destruct (zip_add_wf w k N output r1 ltac:(lia) Ho Hm1) as [Ha1 Ha2].
    pose proof (gphase_lin w k N key _ output r1 (-1) Hk (proj1 Ha1) (proj1 Ho) (proj1 Hm1) Ha2) as Pa.
    pose proof (gphase_shift N (2 ^ w) k key r r1 (Z.of_nat t) Hk (proj1 Hr) (proj1 Hm1) Hm2) as Ps.
    destruct (IH (S t) _ r1 Ha1 Hm1) as (out & Eo & Hout & Po).
    + intros i c' buf Hi Hbuf. destruct (Hks (S i) c' buf Hi Hbuf) as (r' & E' & W' & P'). exists r'.
      split; [assumption|]. split; [assumption|]. replace (S t + i)%nat with (t + S i)%nat by lia. assumption.
    + exists out. split; [assumption|]. split; [assumption|]. rewrite Po, Pa, Ps. rewrite rsum_S_l. rewrite Nat.add_0_r.
      assert (Es : req (2 ^ w) (rshift (Z.of_nat t) (gphase N key r)) (rshift (Z.of_nat t) (V t))).
      { intros x. apply (Pr (x - Z.of_nat t)). }
      rewrite Es.
      rewrite (rsum_ext (2 ^ w) (length input) (fun i => rshift (Z.of_nat (S t + i)) (V (S t + i)%nat))
                 (fun i => rshift (Z.of_nat (t + S i)) (V (t + S i)%nat))).
      2: { intros i _. replace (S t + i)%nat with (t + S i)%nat by lia. reflexivity. }
      rewrite <- radd_rsub_neg. intros x. apply eqm_eq. cbn. lia.
Qed.

Lemma map_zero_glwe k N (c : list (list Z)) : length c = S k -> Forall (fun a => length a = N) c ->
  map (map (fun _ => 0)) c = repeat (repeat 0 N) (S k).
Proof.
  intros <-. induction c as [|a c IH]; intros Hf; [reflexivity|]. cbn [map repeat length]. rewrite IH by apply (Forall_inv_tail Hf).
  f_equal. pose proof (Forall_inv Hf) as <-. clear. induction a as [|x a IH]; [reflexivity|]. cbn. rewrite IH. reflexivity.
Qed.

Lemma pack_ok p w k N key ks (V : nat -> rp N) output input : 0 < w -> (0 < N)%nat -> length key = k ->
  length output = S k -> Forall (fun a => length a = N) output -> (length input <= N)%nat ->
  (forall i c buf, nth_error input i = Some c -> glwe_wf w k N buf ->
     exists r, ks buf c = Ret r /\ glwe_wf w k N r /\ req (2 ^ w) (gphase N key r) (V i)) ->
  exists out, pack p w ks output input = Ret out /\ glwe_wf w k N out /\
    req (2 ^ w) (gphase N key out) (rsum (length input) (fun i => rshift (Z.of_nat i) (V i))).
Proof.
  intros Hw HN Hk Hol Hof Hin Hks. unfold pack.
  destruct (snoc_dec output _ Hol) as (om & ob & -> & Lo). rewrite glwe_split_snoc. cbn [obind].
  assert (Hob : length ob = N).
  { apply Forall_app in Hof. apply (Forall_inv (proj2 Hof)). }
  replace (match p with Debug => assert_ (Nat.leb (length input) (length ob)) | Release => Ret tt end) with (Ret tt).
  2: { destruct p; [|reflexivity]. rewrite Hob. destruct (Nat.leb_spec (length input) N); [reflexivity|lia]. }
  cbn [obind]. rewrite (map_zero_glwe k N) by assumption.
  assert (Hz : glwe_wf w k N (repeat (repeat 0 N) (S k))).
  { split; [apply repeat_length|]. apply Forall_forall. intros a Ha. apply repeat_spec in Ha. subst a. apply zero_poly_wf. lia. }
  destruct (pack_loop_ok p w k N key ks V Hw HN Hk input O _ _ Hz Hz Hks) as (out & E & W & P).
  exists out. split; [assumption|]. split; [assumption|]. rewrite P. rewrite (gphase_zero_glwe w N k key Hk).
  intros x. apply eqm_eq. cbn. ring.
Qed.

(** ** Encryption of a list of GLWE messages, row by row *)
Lemma glwe_zip_rows p w gauss N key : 0 < w -> w mod 8 = 0 -> (0 < N)%nat -> gauss_ok w gauss -> gkey_ok p N key ->
  forall ms outs g cs g', egen_ok g -> length outs = length ms -> Forall (glwe_wf w (length key) N) outs ->
  Forall (fun m => length m = N) ms ->
  encrypt_glwe_zip p w gauss key outs ms g = Ret (cs, g') ->
  exists ess,
    noise_polys gauss N (length ms) (eg_noise g) = Ret (ess, eg_noise g') /\ length ess = length ms /\
    bg_table (eg_mask g') = bg_table (eg_mask g) /\ length cs = length ms /\
    forall j c, nth_error cs j = Some c -> glwe_wf w (length key) N c /\
      req (2 ^ w) (gphase N key c) (radd (R N (nth j ms [])) (R N (nth j ess []))).
Proof.
  intros Hw Hm8 HN Hga Hk. induction ms as [|m ms IH]; intros [|o outs] g cs g' Hg Hl Ho Hms E; try discriminate.
  { cbn in E. injection E as <- <-. exists []. repeat split; auto; destruct j; discriminate. }
  cbn [encrypt_glwe_zip] in E.
  destruct (encrypt_glwe p w gauss key o m g) as [[c g1]|] eqn:E1; [|discriminate]. cbn [obind] in E.
  destruct (encrypt_glwe_zip p w gauss key outs ms g1) as [[cs1 g2]|] eqn:E2; [|discriminate]. cbn [obind] in E. injection E as <- <-.
  apply (encrypt_glwe_inv p w gauss N key o m g c g1) in E1; auto; [|apply (Forall_inv Ho)|apply (Forall_inv Hms)].
  destruct E1 as (es & En & Em & _ & Hc & Hph).
  apply IH in E2; [|unfold egen_ok; rewrite Em; exact Hg|cbn in Hl; lia|apply (Forall_inv_tail Ho)|apply (Forall_inv_tail Hms)].
  destruct E2 as (ess & Ess & Hle & Hmt & Hlc & Hrows).
  exists (es :: ess). cbn [length noise_polys]. rewrite En. cbn [obind]. rewrite Ess. cbn [obind].
  split; [reflexivity|]. split; [lia|]. split; [rewrite Hmt, Em; reflexivity|]. split; [lia|].
  intros [|j] c' Hj; cbn [nth_error nth] in *; [|apply Hrows; assumption].
  injection Hj as <-. auto.
Qed.

Lemma glwe_list_rows p w gauss N key outs ms g cs g' : 0 < w -> w mod 8 = 0 -> (0 < N)%nat -> gauss_ok w gauss -> gkey_ok p N key ->
  egen_ok g -> length outs = length ms -> Forall (glwe_wf w (length key) N) outs -> Forall (fun m => length m = N) ms ->
  encrypt_glwe_list p w gauss key N outs (concat ms) g = Ret (cs, g') ->
  exists ess,
    noise_polys gauss N (length ms) (eg_noise g) = Ret (ess, eg_noise g') /\ length ess = length ms /\
    bg_table (eg_mask g') = bg_table (eg_mask g) /\ length cs = length ms /\
    forall j c, nth_error cs j = Some c -> glwe_wf w (length key) N c /\
      req (2 ^ w) (gphase N key c) (radd (R N (nth j ms [])) (R N (nth j ess []))).
Proof.
  intros Hw Hm8 HN Hga Hk Hg Hl Ho Hms E. unfold encrypt_glwe_list in E.
  rewrite ck_dim_eq_ok in E by (rewrite (concat_length_const N) by assumption; lia). cbn [obind] in E.
  rewrite (chunks_concat N) in E by assumption.
  revert E. apply glwe_zip_rows; assumption.
Qed.

Lemma noise_polys_app gauss N : forall n m g, noise_polys gauss N (n + m) g =
  let! (l1, g) := noise_polys gauss N n g in let! (l2, g) := noise_polys gauss N m g in Ret (l1 ++ l2, g).
Proof.
  induction n as [|n IH]; intros m g; cbn [Nat.add noise_polys obind].
  - destruct (noise_polys gauss N m g) as [[l2 g2]|]; reflexivity.
  - destruct (gaussian_tensor gauss N g) as [[a g1]|]; [|reflexivity]. cbn [obind]. rewrite IH.
    destruct (noise_polys gauss N n g1) as [[l1 g2]|]; [|reflexivity]. cbn [obind].
    destruct (noise_polys gauss N m g2) as [[l2 g3]|]; reflexivity.
Qed.

Lemma noise_polys_small w beta gauss N : 0 <= w -> gauss_small w beta gauss -> forall n g ess g',
  noise_polys gauss N n g = Ret (ess, g') -> length ess = n /\ forall j, (j < n)%nat -> rbound (2 ^ w) beta (R N (nth j ess [])).
Proof.
  intros Hw Hg. induction n as [|n IH]; intros g ess g' E; cbn [noise_polys] in E; [injection E as <- <-; split; [reflexivity|intros; lia]|].
  destruct (gaussian_tensor gauss N g) as [[e g1]|] eqn:E1; [|discriminate]. cbn [obind] in E.
  destruct (noise_polys gauss N n g1) as [[es g2]|] eqn:E2; [|discriminate]. cbn [obind] in E. injection E as <- <-.
  apply IH in E2. destruct E2 as [L F]. split; [cbn; lia|]. intros [|j] Hj; cbn [nth]; [|apply F; lia].
  apply (gaussian_tensor_small w beta) in E1; [|assumption]. apply small_rbound; tauto.
Qed.

Lemma zeros_glwe_wf w k N : 0 <= w -> glwe_wf w k N (glwe_allocate (S k) N).
Proof.
  intros Hw. split; [apply repeat_length|]. apply Forall_forall. intros a Ha. apply repeat_spec in Ha. subst a. apply zero_poly_wf. assumption.
Qed.

Lemma nth_map_seq {A} (f : nat -> A) a n j d : (j < n)%nat -> nth j (map f (seq a n)) d = f (a + j)%nat.
Proof.
  intros Hj. rewrite (nth_indep _ d (f O)) by (rewrite map_length, seq_length; assumption). rewrite map_nth, seq_nth by assumption. reflexivity.
Qed.
