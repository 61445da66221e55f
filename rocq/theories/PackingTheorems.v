(** * C31, C32: packing keyswitch and private functional packing keyswitch *)
From Verif Require Import Base Word WordFacts NegaRing PolySpec PolyModel PolyProofs RingSum DecompModel DecompProofs DecompTheorems
  ExtProdProofs ExtProdTheorems RandomModel RandomProofs LweSpec LweModel LweProofs LweTheorems GlweSpec GlweModel GlweProofs GlweTheorems GgswModel GgswProofs
  GgswTheorems NoiseBounds BootstrapTheorems KeyswitchModel KeyswitchSpec KeyswitchProofs KeyswitchTheorems PackingProofs.

(** ** Shared lemmas *)
Lemma set_first_zero_body w k N (mask0 : list (list Z)) (body0 : list Z) body : 0 <= w -> (0 < N)%nat -> length mask0 = k -> length body0 = N ->
  Forall (fun a => length a = N) mask0 -> is_word w body ->
  exists gbody, set_first (map (fun _ => 0) body0) body = Ret gbody /\ glwe_wf w k N (map (map (fun _ => 0)) mask0 ++ [gbody]) /\
    forall key, length key = k -> req (2 ^ w) (gphase N key (map (map (fun _ => 0)) mask0 ++ [gbody])) (rconst N body).
Proof.
  intros Hw HN Hk Hb0 Hm Hb. destruct body0 as [|x0 body0]; [cbn in Hb0; lia|]. cbn [map set_first]. eexists. split; [reflexivity|].
  assert (E0 : map (map (fun _ => 0)) mask0 = repeat (repeat 0 N) k).
  { subst k. clear Hb0. induction mask0 as [|a mask0 IH]; [reflexivity|]. cbn [map length repeat]. rewrite IH by apply (Forall_inv_tail Hm).
    f_equal. pose proof (Forall_inv Hm) as <-. clear. induction a as [|y a IH]; [reflexivity|]. cbn. rewrite IH. reflexivity. }
  rewrite E0.
  assert (Hz : forall n, Forall (is_word w) (repeat 0 n)).
  { intros n. apply Forall_forall. intros y Hy. apply repeat_spec in Hy. subst y. split; [lia|apply pow2_pos; assumption]. }
  assert (Eb : map (fun _ : Z => 0) body0 = repeat 0 (N - 1)).
  { replace (N - 1)%nat with (length body0) by (cbn in Hb0; lia). clear. induction body0 as [|y body0 IH]; [reflexivity|]. cbn. rewrite IH. reflexivity. }
  rewrite Eb. split.
  - split; [rewrite app_length, repeat_length; cbn; lia|]. apply Forall_app. split.
    + apply Forall_forall. intros a Ha. apply repeat_spec in Ha. subst a. split; [apply repeat_length|apply Hz].
    + constructor; [|constructor]. split; [cbn [length]; rewrite repeat_length; lia|]. constructor; [assumption|apply Hz].
  - intros key Hkey. rewrite gphase_snoc.
    rewrite (rdot_rsum (2 ^ w) k) by (assumption || apply repeat_length).
    rewrite (rsum_ext (2 ^ w) k _ (fun _ => rzero N)).
    2: { intros u Hu. rewrite (nth_indep _ [] (repeat 0 N)) by (rewrite repeat_length; lia). rewrite nth_repeat.
         rewrite (R_zero N (2 ^ w) N). intros y. apply eqm_eq. cbn.
         rewrite sumz_const. lia. }
    rewrite rsum_zero.
    assert (Er : req (2 ^ w) (R N (body :: repeat 0 (N - 1))) (rconst N body)).
    { apply req_coefs. intros c Hc. rewrite rcoef_rconst, rcoef_R by lia. apply eqm_eq. unfold coef.
      destruct (Z.eqb_spec c 0) as [->|Hne]; [reflexivity|]. destruct (Z.to_nat c) as [|c'] eqn:Ec; [lia|]. cbn [nth]. apply nth_repeat. }
    rewrite Er. intros y. apply eqm_eq. cbn. lia.
Qed.

Lemma decrypt_coefs p w N key c : 0 <= w -> (0 < N)%nat -> gkey_ok p N key -> glwe_wf w (length key) N c ->
  exists d, decrypt_glwe p w key N c = Ret d /\ length d = N /\
    forall i, (i < N)%nat -> eqm (2 ^ w) (nth i d 0) (rcoef (gphase N key c) (Z.of_nat i)).
Proof.
  intros Hw HN Hk Hc. destruct (decrypt_glwe_phase p w N key c Hw HN Hk Hc) as (d & E & [Hl _] & Hr).
  exists d. split; [assumption|]. split; [assumption|]. intros i Hi. rewrite <- (Hr (Z.of_nat i)). rewrite rcoef_R by lia.
  unfold coef. rewrite Nat2Z.id. reflexivity.
Qed.

Lemma rscal_one N q c : req q (rscal c (rone N)) (rconst N c).
Proof.
  apply req_coefs. intros k Hk. unfold rone.
  change (rcoef (rscal c (rconst N 1)) k) with (c * rcoef (rconst N 1) k).
  rewrite !rcoef_rconst by lia. apply eqm_eq. destruct (k =? 0); lia.
Qed.

(** A sum of shifted constants has the constants as its coefficients. *)
Lemma rcoef_shift_const N c t k : (t < N)%nat -> (k < N)%nat ->
  rcoef (rshift (Z.of_nat t) (rconst N c)) (Z.of_nat k) = if Nat.eqb k t then c else 0.
Proof.
  intros Ht Hk. change (rcoef (rshift (Z.of_nat t) (rconst N c)) (Z.of_nat k)) with (rcoef (rconst N c) (Z.of_nat k - Z.of_nat t)).
  destruct (Nat.le_gt_cases t k).
  - rewrite rcoef_rconst by lia. destruct (Z.eqb_spec (Z.of_nat k - Z.of_nat t) 0), (Nat.eqb_spec k t); lia.
  - pose proof (proj2_sig (rconst N c) (Z.of_nat k - Z.of_nat t)) as E.
    change (rcoef (rconst N c) (Z.of_nat k - Z.of_nat t + Z.of_nat N) = - rcoef (rconst N c) (Z.of_nat k - Z.of_nat t)) in E.
    rewrite rcoef_rconst in E by lia.
    destruct (Z.eqb_spec (Z.of_nat k - Z.of_nat t + Z.of_nat N) 0); [lia|]. destruct (Nat.eqb_spec k t); lia.
Qed.

Lemma zsum_pick n (f : nat -> Z) k : zsum n (fun t => if Nat.eqb k t then f t else 0) = if Nat.ltb k n then f k else 0.
Proof.
  induction n as [|n IH]; [reflexivity|]. rewrite zsum_S, IH.
  destruct (Nat.eqb_spec k n) as [->|Hne].
  - destruct (Nat.ltb_spec n n); [lia|]. destruct (Nat.ltb_spec n (S n)); lia.
  - destruct (Nat.ltb_spec k n), (Nat.ltb_spec k (S n)); lia.
Qed.

Lemma rcoef_rsum_shift_const N m c k : (m <= N)%nat -> (k < N)%nat ->
  rcoef (rsum m (fun t => rshift (Z.of_nat t) (rconst N (c t)))) (Z.of_nat k) = if Nat.ltb k m then c k else 0.
Proof.
  intros Hm Hk. rewrite rcoef_rsum. rewrite (zsum_ext m _ (fun t => if Nat.eqb k t then c t else 0)); [apply zsum_pick|].
  intros t Ht. apply rcoef_shift_const; lia.
Qed.

(** Rounding the mask of a ciphertext moves its phase by at most n*2^(w-bl-1). *)
Lemma rounded_mask_error w b l s ct : dec_wf w (Dec b l) -> binary s -> lwe_wf w (length s) ct ->
  exists e, Z.abs e <= Z.of_nat (length s) * 2 ^ (w - b * Z.of_nat l - 1) /\
    eqm (2 ^ w) (last ct 0 - zsum (length s) (fun i => closest_representable w (Dec b l) (nth i ct 0) * nth i s 0))
      (phase w s ct + e).
Proof.
  intros Hd Hbin [Hbl Hbw]. pose proof Hd as (H1 & H2 & H3 & H4). cbn [base_log level_count] in *.
  destruct (snoc_dec ct _ Hbl) as (mask & body & -> & Hml).
  apply Forall_app in Hbw. destruct Hbw as [Hmw _].
  set (n := length s) in *. rewrite last_last.
  destruct (list_choice (fun i e => Z.abs e <= 2 ^ (w - b * Z.of_nat l - 1) /\
     eqm (2 ^ w) (closest_representable w (Dec b l) (nth i (mask ++ [body]) 0)) (nth i (mask ++ [body]) 0 + e)) 0 n) as (es & Hel & Hes).
  { intros i Hi. rewrite nth_snoc_lt by lia.
    destruct (sdigits_gadget w b l (nth i mask 0) Hd) as (_ & _ & e & He); [|exists e; exact He].
    rewrite Forall_forall in Hmw. apply Hmw, nth_In. lia. }
  exists (- zsum n (fun i => nth i es 0 * nth i s 0)). split.
  - rewrite Z.abs_opp. apply zsum_le_const. intros i Hi. destruct (Hes i Hi) as [He _].
    assert (Hs : nth i s 0 = 0 \/ nth i s 0 = 1) by (unfold binary in Hbin; rewrite Forall_forall in Hbin; apply Hbin, nth_In; assumption).
    pose proof (Z.pow_nonneg 2 (w - b * Z.of_nat l - 1) ltac:(lia)). destruct Hs as [-> | ->]; lia.
  - rewrite phase_eqm, raw_snoc, dot_zsum by exact Hml. rewrite Hml.
    rewrite (zsum_eqm (2 ^ w) n (fun i => closest_representable w (Dec b l) (nth i (mask ++ [body]) 0) * nth i s 0)
       (fun i => nth i mask 0 * nth i s 0 + nth i es 0 * nth i s 0)).
    + rewrite zsum_add. apply eqm_eq. lia.
    + intros i Hi. destruct (Hes i Hi) as [_ Ee]. rewrite Ee, nth_snoc_lt by lia. apply eqm_eq. ring.
Qed.

Lemma gksk_noise_bound w b l N n (D : nat -> nat -> Z) (noise : nat -> nat -> rp N) beta : 0 < b -> 0 <= beta ->
  (forall i j, (i < n)%nat -> (j < l)%nat -> Z.abs (D i j) <= 2 ^ (b - 1)) ->
  (forall i j, (i < n)%nat -> (j < l)%nat -> rbound (2 ^ w) beta (noise i j)) ->
  rbound (2 ^ w) (Z.of_nat n * (Z.of_nat l * (2 ^ (b - 1) * beta))) (rsum n (fun i => rsum l (fun j => rscal (D i j) (noise i j)))).
Proof.
  intros Hb Hbeta HD Hn. pose proof (pow2_pos (b - 1) ltac:(lia)).
  apply rbound_rsum; [nia|]. intros i Hi. apply rbound_rsum; [nia|]. intros j Hj.
  eapply rbound_le; [|apply rbound_scal, Hn; assumption]. specialize (HD i j Hi Hj). nia.
Qed.

(** ** C31 *)
Lemma packing_keyswitch_digits : forall p w b l N key s noise pksk after before,
  dec_wf w (Dec b l) -> (0 < N)%nat -> gksk_encrypts w b l N key s (rone N) noise pksk ->
  lwe_wf w (length s) before -> length after = S (length key) -> Forall (fun a => length a = N) after ->
  exists out,
    packing_keyswitch_ciphertext p w b l (length key) pksk after before = Ret out /\
    glwe_wf w (length key) N out /\
    req (2 ^ w) (gphase N key out)
      (rsub (rconst N (last before 0 - zsum (length s) (fun i => closest_representable w (Dec b l) (nth i before 0) * nth i s 0)))
            (rsum (length s) (fun i => rsum l (fun j => rscal (sdigit w (Dec b l) (l - 1 - j) (nth i before 0)) (noise i j))))).
Proof.
  intros p w b l N key s noise pksk after before Hd HN Hk [Hbl Hbw] Hal Haf.
  pose proof Hd as (H1 & H2 & H3 & H4). cbn [base_log level_count] in *. assert (Hw : 0 < w) by nia.
  destruct (snoc_dec before _ Hbl) as (mask & body & -> & Hml). destruct (snoc_dec after _ Hal) as (mask0 & body0 & -> & Hm0).
  apply Forall_app in Hbw. destruct Hbw as [Hmw Hbw]. apply Forall_inv in Hbw.
  apply Forall_app in Haf. destruct Haf as [Haf Hab]. apply Forall_inv in Hab. cbn beta in Hab.
  unfold packing_keyswitch_ciphertext. rewrite split_last_snoc, glwe_split_snoc. cbn [obind].
  rewrite ck_dim_eq_ok by (destruct Hk; congruence). cbn [obind]. rewrite ck_dim_eq_ok by congruence. cbn [obind].
  destruct (set_first_zero_body w (length key) N mask0 body0 body) as (gbody & Eg & Wg & Pg); auto; [lia|].
  rewrite Eg. cbn [obind]. rewrite dec_new_ok by assumption. cbn [obind].
  destruct (glwe_ks_blocks_digits p w b l N key s (rone N) noise pksk mask _ Hd Hk Hml Hmw Wg) as (out & E & Ho & P).
  exists out. split; [exact E|]. split; [assumption|].
  rewrite (rsum_ext (2 ^ w) (length s) (fun i => rsum l (fun j => rscal (sdigit w (Dec b l) (l - 1 - j) (nth i (mask ++ [body]) 0)) (noise i j)))
    (fun i => rsum l (fun j => rscal (sdigit w (Dec b l) (l - 1 - j) (nth i mask 0)) (noise i j)))) by (intros i Hi; rewrite nth_snoc_lt by lia; reflexivity).
  rewrite P, (Pg key eq_refl), rscal_one, last_last.
  rewrite (zsum_ext (length s) (fun i => closest_representable w (Dec b l) (nth i (mask ++ [body]) 0) * nth i s 0)
             (fun i => closest_representable w (Dec b l) (nth i mask 0) * nth i s 0)) by (intros i Hi; rewrite nth_snoc_lt by lia; reflexivity).
  set (Z1 := zsum _ _). set (X := rsum _ _). clearbody Z1 X.
  apply req_coefs. intros k Hkk. change (rcoef (rsub (rsub (rconst N body) (rconst N Z1)) X) k) with (rcoef (rconst N body) k - rcoef (rconst N Z1) k - rcoef X k).
  change (rcoef (rsub (rconst N (body - Z1)) X) k) with (rcoef (rconst N (body - Z1)) k - rcoef X k).
  rewrite !rcoef_rconst by lia. apply eqm_eq. destruct (k =? 0); lia.
Qed.
Theorem C31_keyswitch : forall p w b l N key s noise pksk after before,
  dec_wf w (Dec b l) -> (0 < N)%nat -> gksk_encrypts w b l N key s (rone N) noise pksk ->
  lwe_wf w (length s) before -> length after = S (length key) -> Forall (fun a => length a = N) after ->
  exists out D,
    packing_keyswitch_ciphertext p w b l (length key) pksk after before = Ret out /\
    glwe_wf w (length key) N out /\
    (forall i, (i < length s)%nat ->
       gadget_digits w b l (nth i before 0) (closest_representable w (Dec b l) (nth i before 0)) (D i)) /\
    req (2 ^ w) (gphase N key out)
      (rsub (rconst N (last before 0 - zsum (length s) (fun i => closest_representable w (Dec b l) (nth i before 0) * nth i s 0)))
            (rsum (length s) (fun i => rsum l (fun j => rscal (D i j) (noise i j))))).
Proof.
  intros p w b l N key s noise pksk after before Hd HN Hk Hb Hal Haf.
  destruct (packing_keyswitch_digits p w b l N key s noise pksk after before Hd HN Hk Hb Hal Haf) as (out & E & Ho & P).
  exists out, (fun i j => sdigit w (Dec b l) (l - 1 - j) (nth i before 0)). split; [exact E|]. split; [assumption|]. split; [|exact P].
  intros i Hi. apply sdigits_gadget; [assumption|]. destruct Hb as [Hbl Hbw]. rewrite Forall_forall in Hbw. apply Hbw, nth_In. lia.
Qed.
Print Assumptions C31_keyswitch.

(** Packing m <= N ciphertexts: coefficient t of the result carries ciphertext t. *)
Theorem C31_packing : forall p w b l N key s noise pksk output input,
  dec_wf w (Dec b l) -> (0 < N)%nat -> gksk_encrypts w b l N key s (rone N) noise pksk ->
  Forall (lwe_wf w (length s)) input -> (length input <= N)%nat ->
  length output = S (length key) -> Forall (fun a => length a = N) output ->
  exists out D,
    packing_keyswitch p w b l (length key) pksk output input = Ret out /\
    glwe_wf w (length key) N out /\
    (forall t ct, nth_error input t = Some ct -> forall i, (i < length s)%nat ->
       gadget_digits w b l (nth i ct 0) (closest_representable w (Dec b l) (nth i ct 0)) (D t i)) /\
    req (2 ^ w) (gphase N key out)
      (rsub (rsum (length input) (fun t => rshift (Z.of_nat t) (rconst N
               (last (nth t input []) 0
                - zsum (length s) (fun i => closest_representable w (Dec b l) (nth i (nth t input []) 0) * nth i s 0)))))
            (rsum (length input) (fun t => rshift (Z.of_nat t) (rsum (length s) (fun i => rsum l (fun j => rscal (D t i j) (noise i j))))))).
Proof.
  intros p w b l N key s noise pksk output input Hd HN Hk Hin Hm Ho Hof.
  pose proof Hd as (H1 & H2 & H3 & H4). cbn [base_log level_count] in *. assert (Hw : 0 < w) by nia.
  set (V1 := fun t => rconst N (last (nth t input []) 0
     - zsum (length s) (fun i => closest_representable w (Dec b l) (nth i (nth t input []) 0) * nth i s 0))).
  set (K := fun D : nat -> nat -> Z => rsum (length s) (fun i => rsum l (fun j => rscal (D i j) (noise i j)))).
  assert (Hfix : forall t, (t < length input)%nat -> exists D : nat -> nat -> Z,
     (forall i, (i < length s)%nat -> gadget_digits w b l (nth i (nth t input []) 0) (closest_representable w (Dec b l) (nth i (nth t input []) 0)) (D i)) /\
     forall buf, glwe_wf w (length key) N buf -> exists r, packing_keyswitch_ciphertext p w b l (length key) pksk buf (nth t input []) = Ret r /\
       glwe_wf w (length key) N r /\ req (2 ^ w) (gphase N key r) (rsub (V1 t) (K D))).
  { intros t Ht. rewrite Forall_forall in Hin. assert (Hct : lwe_wf w (length s) (nth t input [])) by (apply Hin, nth_In; assumption).
    pose proof (zeros_glwe_wf w (length key) N ltac:(lia)) as Hz.
    assert (Hlen : forall buf, glwe_wf w (length key) N buf -> length buf = S (length key) /\ Forall (fun a => length a = N) buf).
    { intros buf [Hb1 Hb2]. split; [assumption|]. eapply Forall_impl; [|exact Hb2]. intros a [Ha _]. exact Ha. }
    destruct (Hlen _ Hz) as [Hz1 Hz2].
    destruct (C31_keyswitch p w b l N key s noise pksk _ (nth t input []) Hd HN Hk Hct Hz1 Hz2) as (r0 & D & E0 & W0 & HD & P0).
    exists D. split; [assumption|]. intros buf Hbuf. destruct (Hlen _ Hbuf) as [Hb1 Hb2].
    exists r0. split; [|split; assumption]. rewrite <- E0.
    unfold packing_keyswitch_ciphertext. destruct (split_last (nth t input [])) as [[mask body]|]; [|reflexivity]. cbn [obind].
    destruct (snoc_dec buf _ Hb1) as (m1 & o1 & -> & L1). destruct (snoc_dec (glwe_allocate (S (length key)) N) _ Hz1) as (m2 & o2 & E2 & L2).
    rewrite E2 in *. rewrite !glwe_split_snoc. cbn [obind]. rewrite L1, L2.
    apply Forall_app in Hb2, Hz2. destruct Hb2 as [Hb2 Hb3], Hz2 as [Hz2 Hz3]. apply Forall_inv in Hb3, Hz3. cbn beta in *.
    assert (Hc : forall (l1 l2 : list Z), length l1 = length l2 -> map (fun _ : Z => 0) l1 = map (fun _ : Z => 0) l2).
    { clear. induction l1 as [|x l1 IH]; intros [|y l2] H; try discriminate; [reflexivity|]. cbn. f_equal. apply IH. cbn in H. lia. }
    rewrite (Hc o1 o2) by congruence.
    assert (Hcc : map (map (fun _ : Z => 0)) m1 = map (map (fun _ : Z => 0)) m2).
    { clear - L1 L2 Hb2 Hz2 Hc. rewrite <- L2 in L1. clear L2. revert m2 L1 Hz2. induction m1 as [|a m1 IH]; intros [|c m2] L1 Hz2; try discriminate; [reflexivity|].
      cbn [map]. f_equal; [apply Hc; pose proof (Forall_inv Hb2); pose proof (Forall_inv Hz2); cbn beta in *; congruence|].
      apply IH; [apply (Forall_inv_tail Hb2)|cbn in L1; lia|apply (Forall_inv_tail Hz2)]. }
    rewrite Hcc. reflexivity. }
  destruct (list_choice _ (fun _ _ => 0) (length input) Hfix) as (Ds & _ & HDs).
  destruct (pack_ok p w (length key) N key (packing_keyswitch_ciphertext p w b l (length key) pksk)
              (fun t => rsub (V1 t) (K (nth t Ds (fun _ _ => 0)))) output input Hw HN eq_refl Ho Hof Hm) as (out & E & W & P).
  { intros t ct buf Ht Hbuf. assert (Hlt : (t < length input)%nat) by (apply nth_error_Some; congruence).
    destruct (HDs t Hlt) as [_ Hr]. destruct (Hr buf Hbuf) as (r & Er & Wr & Pr). rewrite (nth_error_nth _ _ _ Ht) in Er. eauto. }
  exists out, (fun t => nth t Ds (fun _ _ => 0)). split; [exact E|]. split; [assumption|]. split.
  { intros t ct Ht i Hi. assert (Hlt : (t < length input)%nat) by (apply nth_error_Some; congruence).
    destruct (HDs t Hlt) as [HD _]. rewrite (nth_error_nth _ _ _ Ht) in HD. auto. }
  rewrite P. rewrite <- rsum_sub. apply rsum_ext. intros t _. apply rshift_rsub.
Qed.
Print Assumptions C31_packing.

(** In terms of decryptions: coefficient t < m is the decryption of ciphertext t, moved by at most
    n*2^(w-bl-1) + m*n*l*2^(b-1)*beta; the other coefficients carry only the noise of the key. *)
Theorem C31_error_bound : forall p w b l N key s noise beta pksk output input,
  dec_wf w (Dec b l) -> (0 < N)%nat -> gkey_ok p N key -> gksk_encrypts w b l N key s (rone N) noise pksk -> binary s -> 0 <= beta ->
  (forall i j, (i < length s)%nat -> (j < l)%nat -> rbound (2 ^ w) beta (noise i j)) ->
  Forall (lwe_wf w (length s)) input -> (length input <= N)%nat ->
  length output = S (length key) -> Forall (fun a => length a = N) output ->
  exists out d,
    packing_keyswitch p w b l (length key) pksk output input = Ret out /\
    decrypt_glwe p w key N out = Ret d /\ length d = N /\
    (forall t ct, nth_error input t = Some ct -> exists x, decrypt_lwe p w s ct = Ret x /\
       torus_dist w x (nth t d 0) <= Z.of_nat (length s) * 2 ^ (w - b * Z.of_nat l - 1)
          + Z.of_nat (length input) * (Z.of_nat (length s) * (Z.of_nat l * (2 ^ (b - 1) * beta)))) /\
    (forall t, (length input <= t < N)%nat ->
       torus_dist w 0 (nth t d 0) <= Z.of_nat (length input) * (Z.of_nat (length s) * (Z.of_nat l * (2 ^ (b - 1) * beta)))).
Proof.
  intros p w b l N key s noise beta pksk output input Hd HN Hgk Hk Hbin Hbeta Hnb Hin Hm Ho Hof.
  pose proof Hd as (H1 & H2 & H3 & H4). cbn [base_log level_count] in *. assert (Hw : 0 < w) by nia.
  destruct (C31_packing p w b l N key s noise pksk output input Hd HN Hk Hin Hm Ho Hof) as (out & D & E & W & HD & P).
  destruct (decrypt_coefs p w N key out ltac:(lia) HN Hgk W) as (d & Ed & Hld & Hdc).
  exists out, d. split; [assumption|]. split; [assumption|]. split; [assumption|].
  assert (HB : rbound (2 ^ w) (Z.of_nat (length input) * (Z.of_nat (length s) * (Z.of_nat l * (2 ^ (b - 1) * beta))))
     (rsum (length input) (fun t => rshift (Z.of_nat t) (rsum (length s) (fun i => rsum l (fun j => rscal (D t i j) (noise i j))))))).
  { pose proof (pow2_pos (b - 1) ltac:(lia)). apply rbound_rsum; [nia|]. intros t Ht. apply rbound_shift. apply gksk_noise_bound; auto.
    intros i j Hi Hj. destruct (nth_error input t) as [ct|] eqn:Et; [|apply nth_error_None in Et; lia].
    destruct (HD t ct Et i Hi) as (Hb & _). apply Hb. assumption. }
  assert (Hc : forall t, (t < N)%nat -> exists e, Z.abs e <= Z.of_nat (length input) * (Z.of_nat (length s) * (Z.of_nat l * (2 ^ (b - 1) * beta))) /\
     eqm (2 ^ w) (nth t d 0) ((if Nat.ltb t (length input) then last (nth t input []) 0
       - zsum (length s) (fun i => closest_representable w (Dec b l) (nth i (nth t input []) 0) * nth i s 0) else 0) + e)).
  { intros t Ht. destruct (HB (Z.of_nat t) ltac:(lia)) as (e & Ee & He). exists (- e). split; [lia|].
    rewrite (Hdc t Ht), (P (Z.of_nat t)).
    match goal with |- eqm _ (rcoef (rsub ?a ?b) _) _ => change (rcoef (rsub a b) (Z.of_nat t)) with (rcoef a (Z.of_nat t) - rcoef b (Z.of_nat t)) end.
    rewrite Ee. rewrite rcoef_rsum_shift_const by assumption. apply eqm_eq. lia. }
  split.
  - intros t ct Ht. assert (Hlt : (t < length input)%nat) by (apply nth_error_Some; congruence).
    assert (Hct : lwe_wf w (length s) ct) by (rewrite Forall_forall in Hin; apply Hin; eapply nth_error_In; eassumption).
    exists (phase w s ct). split; [apply decrypt_phase; auto; try lia; right; assumption|].
    destruct (Hc t ltac:(lia)) as (e & He & Ee). destruct (Nat.ltb_spec t (length input)); [|lia].
    rewrite (nth_error_nth _ _ _ Ht) in Ee.
    destruct (rounded_mask_error w b l s ct Hd Hbin Hct) as (e2 & He2 & Ee2).
    apply (torus_dist_le w _ _ (e2 + e)); [lia| |lia]. rewrite Ee, Ee2. apply eqm_eq. lia.
  - intros t Ht. destruct (Hc t ltac:(lia)) as (e & He & Ee). destruct (Nat.ltb_spec t (length input)); [lia|].
    apply (torus_dist_le w _ _ e); [lia| |lia]. exact Ee.
Qed.
Print Assumptions C31_error_bound.

(** What the output held before the call plays no role. *)
Lemma zero_same (l1 l2 : list Z) : length l1 = length l2 -> map (fun _ : Z => 0) l1 = map (fun _ : Z => 0) l2.
Proof. revert l2. induction l1 as [|x l1 IH]; intros [|y l2] H; try discriminate; [reflexivity|]. cbn. f_equal. apply IH. cbn in H. lia. Qed.

Theorem C31_ignores_output : forall p w b l k_out pksk output output' input,
  map (@length Z) output = map (@length Z) output' ->
  packing_keyswitch p w b l k_out pksk output input = packing_keyswitch p w b l k_out pksk output' input.
Proof.
  intros p w b l k_out pksk output output' input Hl. unfold packing_keyswitch, pack.
  assert (Hz : map (map (fun _ : Z => 0)) output = map (map (fun _ : Z => 0)) output').
  { revert output' Hl. induction output as [|a o IH]; intros [|a' o'] Hl; try discriminate; [reflexivity|]. cbn [map] in *.
    injection Hl as H1 H2. f_equal; [apply zero_same; assumption|apply IH; assumption]. }
  rewrite Hz. clear Hz.
  destruct output as [|a o], output' as [|a' o']; try discriminate; [reflexivity|].
  destruct (snoc_dec (a :: o) (length o) eq_refl) as (m1 & b1 & E1 & L1). 
  assert (Hlo : length o = length o') by (apply (f_equal (@length nat)) in Hl; cbn [map length] in Hl; rewrite !map_length in Hl; lia).
  destruct (snoc_dec (a' :: o') (length o)) as (m2 & b2 & E2 & L2); [cbn; lia|].
  rewrite E1, E2 in *. rewrite !glwe_split_snoc. cbn [obind].
  rewrite !map_app in Hl. cbn [map] in Hl. apply app_inj_tail in Hl. destruct Hl as [_ Hb]. rewrite Hb. reflexivity.
Qed.
Print Assumptions C31_ignores_output.

(** ** Generated keys *)
Lemma pks_messages_ok p w b l N bit : dec_wf w (Dec b l) -> (0 < N)%nat ->
  pks_messages p w b l N bit = Ret (map (fun j => shl w bit (w - b * Z.of_nat j) :: repeat 0 (N - 1)) (seq 1 l)).
Proof.
  intros Hd HN. unfold pks_messages. apply omap_ok. intros j Hj. apply in_seq in Hj.
  pose proof (summand_ok p w (Dec b l) j bit Hd ltac:(cbn [level_count]; lia)) as Es. cbn [base_log] in Es. rewrite Es. cbn [obind].
  destruct N as [|N]; [lia|]. cbn [repeat set_first]. rewrite Nat.sub_0_r || replace (S N - 1)%nat with N by lia. reflexivity.
Qed.

Lemma R_first N q x : (0 < N)%nat -> req q (R N (x :: repeat 0 (N - 1))) (rconst N x).
Proof.
  intros HN. apply req_coefs. intros c Hc. rewrite rcoef_rconst, rcoef_R by lia. apply eqm_eq. unfold coef.
  destruct (Z.eqb_spec c 0) as [->|Hne]; [reflexivity|]. destruct (Z.to_nat c) as [|c'] eqn:Ec; [lia|]. cbn [nth]. apply nth_repeat.
Qed.

(** The key generated for (s, key) encrypts s; its noises are the n*l successive polynomials drawn from
    the noise generator. *)
Theorem C31_generated_key : forall p w gauss b l N s key g pksk g',
  dec_wf w (Dec b l) -> w mod 8 = 0 -> (0 < N)%nat -> gauss_ok w gauss -> gkey_ok p N key -> egen_ok g ->
  generate_new_lwe_packing_keyswitch_key p w gauss b l N s key g = Ret (pksk, g') ->
  exists ess,
    noise_polys gauss N (length s * l) (eg_noise g) = Ret (ess, eg_noise g') /\
    length ess = (length s * l)%nat /\
    gksk_encrypts w b l N key s (rone N) (fun i j => R N (nth (i * l + j) ess [])) pksk.
Proof.
  intros p w gauss b l N s key g pksk g' Hd Hw8 HN Hga Hk Hg E.
  pose proof Hd as (H1 & H2 & H3 & H4). cbn [base_log level_count] in *. assert (Hw : 0 < w) by nia.
  unfold generate_new_lwe_packing_keyswitch_key in E. revert g pksk g' Hg E.
  induction s as [|x s IH]; intros g pksk g' Hg E; cbn [length repeat fill_with_packing_keyswitch_key] in E.
  - injection E as <- <-. exists []. split; [reflexivity|]. split; [reflexivity|]. split; [reflexivity|]. intros [|i]; discriminate.
  - rewrite pks_messages_ok in E by assumption. cbn [obind] in E.
    destruct (encrypt_glwe_list p w gauss key N _ _ g) as [[block g1]|] eqn:E1; [|discriminate]. cbn [obind] in E.
    destruct (fill_with_packing_keyswitch_key p w gauss b l N key s _ g1) as [[rest g2]|] eqn:E2; [|discriminate].
    cbn [obind] in E. injection E as <- <-.
    apply glwe_list_rows in E1; try assumption.
    2: { rewrite repeat_length, map_length, seq_length. reflexivity. }
    2: { apply Forall_forall. intros o Ho. apply repeat_spec in Ho. subst o. apply zeros_glwe_wf. lia. }
    2: { apply Forall_forall. intros m Hm. apply in_map_iff in Hm. destruct Hm as (j & <- & _). cbn [length]. rewrite repeat_length. lia. }
    rewrite map_length, seq_length in E1. destruct E1 as (es1 & En1 & Hl1 & Em1 & Hbl & Hrows).
    apply IH in E2; [|unfold egen_ok; rewrite Em1; exact Hg]. destruct E2 as (es2 & En2 & Hl2 & Hk2 & Hk3).
    exists (es1 ++ es2). split; [|split; [|split]].
    + cbn [Nat.mul length]. rewrite noise_polys_app, En1. cbn [obind]. rewrite En2. reflexivity.
    + rewrite app_length. cbn [length]. lia.
    + cbn [length]. congruence.
    + intros [|i] blk Hi; cbn [nth_error] in Hi.
      * injection Hi as <-. split; [assumption|]. intros j row Hj.
        assert (Hjl : (j < l)%nat) by (rewrite <- Hbl; apply nth_error_Some; congruence).
        destruct (Hrows j row Hj) as [W P]. split; [assumption|]. rewrite P. cbn [nth Nat.mul Nat.add].
        rewrite nth_map_seq by assumption. rewrite R_first by assumption. rewrite (app_nth1 es1) by lia.
        assert (Ec : req (2 ^ w) (rconst N (shl w x (w - b * Z.of_nat (1 + j)))) (rscal (x * 2 ^ (w - b * (Z.of_nat j + 1))) (rone N))).
        { rewrite rscal_one. apply req_coefs. intros c Hc. rewrite !rcoef_rconst by lia. destruct (c =? 0); [|reflexivity].
          rewrite shl_eqm. replace (Z.of_nat (1 + j)) with (Z.of_nat j + 1) by lia. reflexivity. }
        rewrite Ec. reflexivity.
      * destruct (Hk3 i blk Hi) as [Hb1 Hb2]. split; [assumption|]. intros j row Hj. destruct (Hb2 j row Hj) as [W P]. split; [assumption|].
        rewrite P. cbn [nth]. rewrite (app_nth2 es1) by nia. replace (S i * l + j - length es1)%nat with (i * l + j)%nat by lia. reflexivity.
Qed.
Print Assumptions C31_generated_key.

(** End to end with a generated key whose noise samples are at most [beta]. *)
Theorem C31_end_to_end : forall p w gauss b l N beta s key g pksk g' output input,
  dec_wf w (Dec b l) -> w mod 8 = 0 -> (0 < N)%nat -> gauss_ok w gauss -> gkey_ok p N key -> egen_ok g -> binary s ->
  gauss_small w beta gauss -> 0 <= beta ->
  generate_new_lwe_packing_keyswitch_key p w gauss b l N s key g = Ret (pksk, g') ->
  Forall (lwe_wf w (length s)) input -> (length input <= N)%nat ->
  length output = S (length key) -> Forall (fun a => length a = N) output ->
  exists out d,
    packing_keyswitch p w b l (length key) pksk output input = Ret out /\
    decrypt_glwe p w key N out = Ret d /\ length d = N /\
    (forall t ct, nth_error input t = Some ct -> exists x, decrypt_lwe p w s ct = Ret x /\
       torus_dist w x (nth t d 0) <= Z.of_nat (length s) * 2 ^ (w - b * Z.of_nat l - 1)
          + Z.of_nat (length input) * (Z.of_nat (length s) * (Z.of_nat l * (2 ^ (b - 1) * beta)))) /\
    (forall t, (length input <= t < N)%nat ->
       torus_dist w 0 (nth t d 0) <= Z.of_nat (length input) * (Z.of_nat (length s) * (Z.of_nat l * (2 ^ (b - 1) * beta)))).
Proof.
  intros p w gauss b l N beta s key g pksk g' output input Hd Hw8 HN Hga Hk Hg Hbin Hgs Hbeta E Hin Hm Ho Hof.
  pose proof Hd as (H1 & H2 & H3 & H4). cbn [base_log level_count] in *. assert (Hw : 0 < w) by nia.
  destruct (C31_generated_key p w gauss b l N s key g pksk g' Hd Hw8 HN Hga Hk Hg E) as (ess & En & Hl & He).
  destruct (noise_polys_small w beta gauss N ltac:(lia) Hgs _ _ _ _ En) as [_ Hsm].
  apply (C31_error_bound p w b l N key s _ beta pksk output input Hd HN Hk He Hbin Hbeta); try assumption.
  intros i j Hi Hj. apply Hsm. nia.
Qed.
Print Assumptions C31_end_to_end.

(** ** C32 *)
(** The keyswitch of one ciphertext: (f(1)*(closest(b) - sum closest(a_i)*s_i)) * P minus the digit-weighted
    noise of the key; the rows of the key encrypt s_0, ..., s_(n-1), -1 times f(1)*P. *)
Lemma functional_keyswitch_digits : forall p w b l N key s f1 (P : rp N) noise pfpksk after before,
  dec_wf w (Dec b l) -> (0 < N)%nat -> gksk_encrypts w b l N key (s ++ [-1]) (rscal f1 P) noise pfpksk ->
  lwe_wf w (length s) before -> length after = S (length key) -> Forall (fun a => length a = N) after ->
  exists out,
    private_functional_keyswitch_ciphertext p w b l (length key) pfpksk after before = Ret out /\
    glwe_wf w (length key) N out /\
    req (2 ^ w) (gphase N key out)
      (rsub (rscal (f1 * (closest_representable w (Dec b l) (last before 0)
                          - zsum (length s) (fun i => closest_representable w (Dec b l) (nth i before 0) * nth i s 0))) P)
            (rsum (S (length s)) (fun i => rsum l (fun j => rscal (sdigit w (Dec b l) (l - 1 - j) (nth i before 0)) (noise i j))))).
Proof.
  intros p w b l N key s f1 P noise pfpksk after before Hd HN Hk [Hbl Hbw] Hal Haf.
  pose proof Hd as (H1 & H2 & H3 & H4). cbn [base_log level_count] in *. assert (Hw : 0 < w) by nia.
  assert (Hsl : length (s ++ [-1]) = S (length s)) by (rewrite app_length; cbn; lia).
  unfold private_functional_keyswitch_ciphertext.
  rewrite ck_dim_eq_ok by (destruct Hk as [Hk _]; rewrite Hk, Hsl, Hbl; lia). cbn [obind].
  rewrite ck_dim_eq_ok by (rewrite Hal; lia). cbn [obind]. rewrite dec_new_ok by assumption. cbn [obind].
  rewrite (map_zero_glwe (length key) N) by assumption.
  pose proof (zeros_glwe_wf w (length key) N ltac:(lia)) as Hz. unfold glwe_allocate in Hz.
  destruct (glwe_ks_blocks_digits p w b l N key (s ++ [-1]) (rscal f1 P) noise pfpksk before _ Hd Hk ltac:(congruence) Hbw Hz) as (out & E & Ho & Q).
  exists out. split; [exact E|]. split; [assumption|].
  rewrite Q, (gphase_zero_glwe w N (length key) key eq_refl), Hsl.
  rewrite (zsum_S (length s)). rewrite (app_nth2 s) by lia. rewrite Nat.sub_diag. cbn [nth].
  rewrite (zsum_ext (length s) (fun i => closest_representable w (Dec b l) (nth i before 0) * nth i (s ++ [-1]) 0)
             (fun i => closest_representable w (Dec b l) (nth i before 0) * nth i s 0)) by (intros i Hi; rewrite nth_snoc_lt by lia; reflexivity).
  replace (last before 0) with (nth (length s) before 0).
  2: { destruct (snoc_dec before _ Hbl) as (mask & body & -> & Hml). rewrite last_last, app_nth2 by lia.
       rewrite Hml, Nat.sub_diag. reflexivity. }
  set (X := rsum _ _). set (Z1 := zsum _ _). set (c := closest_representable _ _ _). clearbody X Z1 c.
  intros x. apply eqm_eq. change (0 - (Z1 + c * -1) * (f1 * rcoef P x) - rcoef X x = f1 * (c - Z1) * rcoef P x - rcoef X x). ring.
Qed.
Theorem C32_keyswitch : forall p w b l N key s f1 (P : rp N) noise pfpksk after before,
  dec_wf w (Dec b l) -> (0 < N)%nat -> gksk_encrypts w b l N key (s ++ [-1]) (rscal f1 P) noise pfpksk ->
  lwe_wf w (length s) before -> length after = S (length key) -> Forall (fun a => length a = N) after ->
  exists out D,
    private_functional_keyswitch_ciphertext p w b l (length key) pfpksk after before = Ret out /\
    glwe_wf w (length key) N out /\
    (forall i, (i <= length s)%nat ->
       gadget_digits w b l (nth i before 0) (closest_representable w (Dec b l) (nth i before 0)) (D i)) /\
    req (2 ^ w) (gphase N key out)
      (rsub (rscal (f1 * (closest_representable w (Dec b l) (last before 0)
                          - zsum (length s) (fun i => closest_representable w (Dec b l) (nth i before 0) * nth i s 0))) P)
            (rsum (S (length s)) (fun i => rsum l (fun j => rscal (D i j) (noise i j))))).
Proof.
  intros p w b l N key s f1 P noise pfpksk after before Hd HN Hk Hb Hal Haf.
  destruct (functional_keyswitch_digits p w b l N key s f1 P noise pfpksk after before Hd HN Hk Hb Hal Haf) as (out & E & Ho & Q).
  exists out, (fun i j => sdigit w (Dec b l) (l - 1 - j) (nth i before 0)). split; [exact E|]. split; [assumption|]. split; [|exact Q].
  intros i Hi. apply sdigits_gadget; [assumption|]. destruct Hb as [Hbl Hbw]. rewrite Forall_forall in Hbw. apply Hbw, nth_In. lia.
Qed.
Print Assumptions C32_keyswitch.

(** Packing: coefficient-wise shifts of the above, summed. *)
Theorem C32_packing : forall p w b l N key s f1 (P : rp N) noise pfpksk output input,
  dec_wf w (Dec b l) -> (0 < N)%nat -> gksk_encrypts w b l N key (s ++ [-1]) (rscal f1 P) noise pfpksk ->
  Forall (lwe_wf w (length s)) input -> (length input <= N)%nat ->
  length output = S (length key) -> Forall (fun a => length a = N) output ->
  exists out D,
    private_functional_packing_keyswitch p w b l (length key) pfpksk output input = Ret out /\
    glwe_wf w (length key) N out /\
    (forall t ct, nth_error input t = Some ct -> forall i, (i <= length s)%nat ->
       gadget_digits w b l (nth i ct 0) (closest_representable w (Dec b l) (nth i ct 0)) (D t i)) /\
    req (2 ^ w) (gphase N key out)
      (rsub (rsum (length input) (fun t => rshift (Z.of_nat t) (rscal
               (f1 * (closest_representable w (Dec b l) (last (nth t input []) 0)
                - zsum (length s) (fun i => closest_representable w (Dec b l) (nth i (nth t input []) 0) * nth i s 0))) P)))
            (rsum (length input) (fun t => rshift (Z.of_nat t) (rsum (S (length s)) (fun i => rsum l (fun j => rscal (D t i j) (noise i j))))))).
Proof.
  intros p w b l N key s f1 P noise pfpksk output input Hd HN Hk Hin Hm Ho Hof.
  pose proof Hd as (H1 & H2 & H3 & H4). cbn [base_log level_count] in *. assert (Hw : 0 < w) by nia.
  set (V1 := fun t => rscal (f1 * (closest_representable w (Dec b l) (last (nth t input []) 0)
     - zsum (length s) (fun i => closest_representable w (Dec b l) (nth i (nth t input []) 0) * nth i s 0))) P).
  set (K := fun D : nat -> nat -> Z => rsum (S (length s)) (fun i => rsum l (fun j => rscal (D i j) (noise i j)))).
  assert (Hfix : forall t, (t < length input)%nat -> exists D : nat -> nat -> Z,
     (forall i, (i <= length s)%nat -> gadget_digits w b l (nth i (nth t input []) 0) (closest_representable w (Dec b l) (nth i (nth t input []) 0)) (D i)) /\
     forall buf, glwe_wf w (length key) N buf -> exists r, private_functional_keyswitch_ciphertext p w b l (length key) pfpksk buf (nth t input []) = Ret r /\
       glwe_wf w (length key) N r /\ req (2 ^ w) (gphase N key r) (rsub (V1 t) (K D))).
  { intros t Ht. rewrite Forall_forall in Hin. assert (Hct : lwe_wf w (length s) (nth t input [])) by (apply Hin, nth_In; assumption).
    pose proof (zeros_glwe_wf w (length key) N ltac:(lia)) as Hz.
    assert (Hlen : forall buf, glwe_wf w (length key) N buf -> length buf = S (length key) /\ Forall (fun a => length a = N) buf).
    { intros buf [Hb1 Hb2]. split; [assumption|]. eapply Forall_impl; [|exact Hb2]. intros a [Ha _]. exact Ha. }
    destruct (Hlen _ Hz) as [Hz1 Hz2].
    destruct (C32_keyswitch p w b l N key s f1 P noise pfpksk _ (nth t input []) Hd HN Hk Hct Hz1 Hz2) as (r0 & D & E0 & W0 & HD & P0).
    exists D. split; [assumption|]. intros buf Hbuf. destruct (Hlen _ Hbuf) as [Hb1 Hb2].
    exists r0. split; [|split; assumption]. rewrite <- E0.
    unfold private_functional_keyswitch_ciphertext. rewrite Hb1, Hz1.
    rewrite (map_zero_glwe (length key) N buf) by assumption. rewrite (map_zero_glwe (length key) N (glwe_allocate (S (length key)) N)) by assumption.
    reflexivity. }
  destruct (list_choice _ (fun _ _ => 0) (length input) Hfix) as (Ds & _ & HDs).
  destruct (pack_ok p w (length key) N key (private_functional_keyswitch_ciphertext p w b l (length key) pfpksk)
              (fun t => rsub (V1 t) (K (nth t Ds (fun _ _ => 0)))) output input Hw HN eq_refl Ho Hof Hm) as (out & E & W & Q).
  { intros t ct buf Ht Hbuf. assert (Hlt : (t < length input)%nat) by (apply nth_error_Some; congruence).
    destruct (HDs t Hlt) as [_ Hr]. destruct (Hr buf Hbuf) as (r & Er & Wr & Pr). rewrite (nth_error_nth _ _ _ Ht) in Er. eauto. }
  exists out, (fun t => nth t Ds (fun _ _ => 0)). split; [exact E|]. split; [assumption|]. split.
  { intros t ct Ht i Hi. assert (Hlt : (t < length input)%nat) by (apply nth_error_Some; congruence).
    destruct (HDs t Hlt) as [HD _]. rewrite (nth_error_nth _ _ _ Ht) in HD. auto. }
  rewrite Q. rewrite <- rsum_sub. apply rsum_ext. intros t _. apply rshift_rsub.
Qed.
Print Assumptions C32_packing.

(** The result is within the bound of the sum of the X^t * f(1) * (decryption of ciphertext t) * P, where
    [M] bounds the coefficients of f(1)*P. *)
Theorem C32_error_bound : forall p w b l N key s f1 (P : rp N) noise M beta pfpksk output input,
  dec_wf w (Dec b l) -> (0 < N)%nat -> gksk_encrypts w b l N key (s ++ [-1]) (rscal f1 P) noise pfpksk -> binary s ->
  0 <= beta -> 0 <= M -> rbound (2 ^ w) M (rscal f1 P) ->
  (forall i j, (i <= length s)%nat -> (j < l)%nat -> rbound (2 ^ w) beta (noise i j)) ->
  Forall (lwe_wf w (length s)) input -> (length input <= N)%nat ->
  length output = S (length key) -> Forall (fun a => length a = N) output ->
  exists out,
    private_functional_packing_keyswitch p w b l (length key) pfpksk output input = Ret out /\
    glwe_wf w (length key) N out /\
    rbound (2 ^ w) (Z.of_nat (length input) * (Z.of_nat (S (length s)) * 2 ^ (w - b * Z.of_nat l - 1) * M
                      + Z.of_nat (S (length s)) * (Z.of_nat l * (2 ^ (b - 1) * beta))))
      (rsub (gphase N key out)
            (rsum (length input) (fun t => rshift (Z.of_nat t) (rscal (f1 * phase w s (nth t input [])) P)))).
Proof.
  intros p w b l N key s f1 P noise M beta pfpksk output input Hd HN Hk Hbin Hbeta HM HPM Hnb Hin Hm Ho Hof.
  pose proof Hd as (H1 & H2 & H3 & H4). cbn [base_log level_count] in *. assert (Hw : 0 < w) by nia.
  destruct (C32_packing p w b l N key s f1 P noise pfpksk output input Hd HN Hk Hin Hm Ho Hof) as (out & D & E & W & HD & Q).
  exists out. split; [assumption|]. split; [assumption|].
  set (n := length s) in *. set (m := length input) in *.
  set (r := 2 ^ (w - b * Z.of_nat l - 1)) in *. assert (Hr : 0 <= r) by (apply Z.pow_nonneg; lia).
  pose proof (pow2_pos (b - 1) ltac:(lia)) as Hpb.
  destruct (list_choice (fun t e => Z.abs e <= Z.of_nat (S n) * r /\
     eqm (2 ^ w) (closest_representable w (Dec b l) (last (nth t input []) 0)
        - zsum n (fun i => closest_representable w (Dec b l) (nth i (nth t input []) 0) * nth i s 0)) (phase w s (nth t input []) + e)) 0 m) as (es & _ & Hes).
  { intros t Ht. destruct (nth_error input t) as [ct|] eqn:Et; [|apply nth_error_None in Et; unfold m in Ht; lia].
    rewrite (nth_error_nth _ _ _ Et).
    assert (Hct : lwe_wf w (length s) ct) by (rewrite Forall_forall in Hin; apply Hin; eapply nth_error_In; eassumption).
    destruct (rounded_mask_error w b l s ct Hd Hbin Hct) as (e1 & He1 & Ee1). fold n r in He1, Ee1.
    destruct (HD t ct Et n (le_n n)) as (_ & _ & e2 & He2 & Ee2). fold r in He2.
    assert (El : nth n ct 0 = last ct 0).
    { destruct Hct as [Hcl _]. destruct (snoc_dec ct _ Hcl) as (mask & body & -> & Hml). rewrite last_last, app_nth2 by (unfold n; lia).
      unfold n. rewrite Hml, Nat.sub_diag. reflexivity. }
    rewrite El in Ee2. exists (e1 + e2). split; [lia|]. rewrite Ee2.
    transitivity (last ct 0 - zsum n (fun i => closest_representable w (Dec b l) (nth i ct 0) * nth i s 0) + e2); [apply eqm_eq; lia|].
    rewrite Ee1. apply eqm_eq. lia. }
  eapply rbound_req.
  { symmetry.
    assert (G : req (2 ^ w) (rsub (gphase N key out) (rsum m (fun t => rshift (Z.of_nat t) (rscal (f1 * phase w s (nth t input [])) P))))
      (rsum m (fun t => rshift (Z.of_nat t) (rsub (rscal (nth t es 0) (rscal f1 P)) (rsum (S n) (fun i => rsum l (fun j => rscal (D t i j) (noise i j)))))))).
    { rewrite Q. 
      rewrite (rsum_ext (2 ^ w) m (fun t => rshift (Z.of_nat t) (rsub (rscal (nth t es 0) (rscal f1 P)) (rsum (S n) (fun i => rsum l (fun j => rscal (D t i j) (noise i j))))))
        (fun t => rsub (rsub (rshift (Z.of_nat t) (rscal
               (f1 * (closest_representable w (Dec b l) (last (nth t input []) 0)
                - zsum n (fun i => closest_representable w (Dec b l) (nth i (nth t input []) 0) * nth i s 0))) P))
             (rshift (Z.of_nat t) (rscal (f1 * phase w s (nth t input [])) P)))
           (rshift (Z.of_nat t) (rsum (S n) (fun i => rsum l (fun j => rscal (D t i j) (noise i j))))))).
      - rewrite !rsum_sub. set (X := rsum m _). set (Y := rsum m _). set (Z0 := rsum m _). clearbody X Y Z0. intros x. apply eqm_eq. cbn. ring.
      - intros t Ht. destruct (Hes t Ht) as [_ Ee]. rewrite rshift_rsub. intros x.
        set (Y := rshift _ (rsum _ _)). set (C := closest_representable _ _ _ - _) in *. clearbody C Y.
        change (eqm (2 ^ w) (nth t es 0 * (f1 * rcoef P (x - Z.of_nat t)) - rcoef Y x)
           (f1 * C * rcoef P (x - Z.of_nat t) - f1 * phase w s (nth t input []) * rcoef P (x - Z.of_nat t) - rcoef Y x)).
        rewrite Ee. apply eqm_eq. ring. }
    exact G. }
  apply rbound_rsum; [nia|]. intros t Ht. apply rbound_shift. apply rbound_sub.
  - destruct (Hes t Ht) as [He _]. eapply rbound_le; [|apply rbound_scal; exact HPM]. nia.
  - apply gksk_noise_bound; auto.
    + intros i j Hi Hj. destruct (nth_error input t) as [ct|] eqn:Et; [|apply nth_error_None in Et; unfold m in Ht; lia].
      destruct (HD t ct Et i ltac:(lia)) as (Hb & _). apply Hb. assumption.
    + intros i j Hi Hj. apply Hnb; [lia|assumption].
Qed.
Print Assumptions C32_error_bound.

Theorem C32_ignores_output : forall p w b l k_out pfpksk output output' input,
  map (@length Z) output = map (@length Z) output' ->
  private_functional_packing_keyswitch p w b l k_out pfpksk output input = private_functional_packing_keyswitch p w b l k_out pfpksk output' input.
Proof.
  intros p w b l k_out pfpksk output output' input Hl. unfold private_functional_packing_keyswitch, pack.
  assert (Hz : map (map (fun _ : Z => 0)) output = map (map (fun _ : Z => 0)) output').
  { revert output' Hl. induction output as [|a o IH]; intros [|a' o'] Hl; try discriminate; [reflexivity|]. cbn [map] in *.
    injection Hl as H1 H2. f_equal; [apply zero_same; assumption|apply IH; assumption]. }
  rewrite Hz. clear Hz.
  destruct output as [|a o], output' as [|a' o']; try discriminate; [reflexivity|].
  destruct (snoc_dec (a :: o) (length o) eq_refl) as (m1 & b1 & E1 & L1).
  assert (Hlo : length o = length o') by (apply (f_equal (@length nat)) in Hl; cbn [map length] in Hl; rewrite !map_length in Hl; lia).
  destruct (snoc_dec (a' :: o') (length o)) as (m2 & b2 & E2 & L2); [cbn; lia|].
  rewrite E1, E2 in *. rewrite !glwe_split_snoc. cbn [obind].
  rewrite !map_app in Hl. cbn [map] in Hl. apply app_inj_tail in Hl. destruct Hl as [_ Hb]. rewrite Hb. reflexivity.
Qed.
Print Assumptions C32_ignores_output.

(** ** Generated keys *)
Lemma eg_fork_children p g n mb nb ch g' : eg_fork p g n mb nb = Ret (Some ch, g') ->
  length ch = Z.to_nat n /\ Forall (fun c => bg_table (eg_mask c) = bg_table (eg_mask g)) ch.
Proof.
  unfold eg_fork. intros E.
  destruct (bg_fork p (eg_mask g) n mb) as [[[ms mask]|]|] eqn:Em; cbn [obind] in E; try discriminate.
  destruct (bg_fork p (eg_noise g) n nb) as [[[ns noise]|]|] eqn:En; cbn [obind] in E; try discriminate.
  injection E as <- <-. unfold bg_fork in Em, En.
  destruct ((n =? 0) || (mb =? 0)); [discriminate|]. destruct ((n =? 0) || (nb =? 0)); [discriminate|].
  destruct (plain p usize_bits (n * mb)) as [a|]; [|discriminate]. cbn [obind] in Em. destruct (_ <=? _) in Em; [|discriminate].
  destruct (plain p usize_bits (n * nb)) as [a'|]; [|discriminate]. cbn [obind] in En. destruct (_ <=? _) in En; [|discriminate].
  injection Em as <- _. injection En as <- _. split; [rewrite map2_length, !map_length, !zseq_len; lia|].
  rewrite map2_map_same. apply Forall_forall. intros c Hc. apply in_map_iff in Hc. destruct Hc as (i & <- & _). reflexivity.
Qed.

Lemma fill_pfpks_blocks_inv p w gauss b l N key f poly : forall bits blocks gs res,
  length blocks = length bits -> length gs = length bits ->
  fill_pfpks_blocks p w gauss b l N key f poly bits blocks gs = Ret res ->
  length res = length bits /\
  forall i blk, nth_error res i = Some blk -> exists block g, nth_error blocks i = Some block /\ nth_error gs i = Some g /\
    fill_pfpks_block p w gauss b l N key f poly (nth i bits 0) block g = Ret blk.
Proof.
  induction bits as [|bit bits IH]; intros [|block blocks] [|g gs] res Hb Hg E; try discriminate; cbn [fill_pfpks_blocks] in E.
  - injection E as <-. split; [reflexivity|]. intros [|i]; discriminate.
  - destruct (fill_pfpks_block p w gauss b l N key f poly bit block g) as [blk|] eqn:E1; [|discriminate]. cbn [obind] in E.
    destruct (fill_pfpks_blocks p w gauss b l N key f poly bits blocks gs) as [rest|] eqn:E2; [|discriminate]. cbn [obind] in E.
    injection E as <-. destruct (IH blocks gs rest) as [L F]; [cbn in *; lia|cbn in *; lia|assumption|]. split; [cbn; lia|].
    intros [|i] blk' Hi; cbn [nth_error nth] in *; [|apply F; assumption].
    injection Hi as <-. exists block, g. auto.
Qed.

Lemma R_zero_plus w N poly m : 0 <= w -> length poly = N ->
  req (2 ^ w) (R N (zip_update (fun o c => wadd w o (wmul w c m)) (repeat 0 N) poly)) (rscal m (R N poly)).
Proof.
  intros Hw Hl. apply req_coefs. intros j Hj. rewrite rcoef_R by lia.
  change (rcoef (rscal m (R N poly)) j) with (m * rcoef (R N poly) j). rewrite !rcoef_R by lia.
  unfold coef. set (i := Z.to_nat j). clearbody i. clear j Hj. subst N.
  revert i. induction poly as [|v b IH]; intros i; cbn [length repeat zip_update].
  - destruct i; apply eqm_eq; cbn; ring.
  - destruct i as [|i]; cbn [nth]; [|apply IH]. rewrite wadd_eqm, wmul_eqm. apply eqm_eq. ring.
Qed.

Lemma pfpks_messages_ok p w b l N f poly bit : dec_wf w (Dec b l) -> length poly = N ->
  pfpks_messages p w b l N f poly bit =
  Ret (map (fun j => zip_update (fun o c => wadd w o (wmul w c (shl w (wmul w (f 1) bit) (w - b * Z.of_nat j)))) (repeat 0 N) poly) (seq 1 l)).
Proof.
  intros Hd Hp. unfold pfpks_messages. apply omap_ok. intros j Hj. apply in_seq in Hj.
  pose proof (summand_ok p w (Dec b l) j (wmul w (f 1) bit) Hd ltac:(cbn [level_count]; lia)) as Es. cbn [base_log] in Es. rewrite Es. cbn [obind].
  unfold add_element_mul. rewrite ck_dim_eq_ok by (rewrite repeat_length; congruence). reflexivity.
Qed.

(** The generated key encrypts s_0, ..., s_(n-1), -1 times f(1)*P; block i uses the i-th child of the fork, and its
    noises are the l polynomials drawn from that child. *)
Theorem C32_generated_key : forall p w gauss b l N f poly s key g pfpksk g',
  dec_wf w (Dec b l) -> w mod 8 = 0 -> (0 < N)%nat -> gauss_ok w gauss -> gkey_ok p N key -> egen_ok g -> length poly = N ->
  generate_new_pfpks_key p w gauss b l N s key f poly g = Ret (pfpksk, g') ->
  exists children noise,
    fork_pfpksk_to_pfpksk_chunks p w g (Z.of_nat l) (Z.of_nat (S (length key))) (Z.of_nat N) (Z.of_nat (S (length s))) = Ret (Some children, g') /\
    length children = S (length s) /\
    (forall i child, nth_error children i = Some child -> exists ng, noise_polys gauss N l (eg_noise child) = Ret (noise i, ng)) /\
    gksk_encrypts w b l N key (s ++ [-1]) (rscal (f 1) (R N poly)) (fun i j => R N (nth j (noise i) [])) pfpksk.
Proof.
  intros p w gauss b l N f poly s key g pfpksk g' Hd Hw8 HN Hga Hk Hg Hp E.
  pose proof Hd as (H1 & H2 & H3 & H4). cbn [base_log level_count] in *. assert (Hw : 0 < w) by nia.
  unfold generate_new_pfpks_key, fill_with_pfpks_key in E.
  destruct (fork_pfpksk_to_pfpksk_chunks p w g (Z.of_nat l) (Z.of_nat (S (length key))) (Z.of_nat N) (Z.of_nat (S (length s)))) as [[[ch|] g1]|] eqn:Ef;
    cbn [obind] in E; try discriminate.
  destruct (fill_pfpks_blocks p w gauss b l N key f poly _ _ ch) as [blocks|] eqn:Eb; [|discriminate]. cbn [obind] in E. injection E as <- <-.
  pose proof Ef as Ef'. unfold fork_pfpksk_to_pfpksk_chunks in Ef'.
  destruct (mask_bytes_per_pfpksk_chunk p w (Z.of_nat l) (Z.of_nat (S (length key))) (Z.of_nat N)) as [mb|]; [|discriminate]. cbn [obind] in Ef'.
  destruct (noise_bytes_per_pfpksk_chunk p (Z.of_nat l) (Z.of_nat N)) as [nb|]; [|discriminate]. cbn [obind] in Ef'.
  apply eg_fork_children in Ef'. destruct Ef' as [Hcl Hct]. rewrite Nat2Z.id in Hcl.
  apply fill_pfpks_blocks_inv in Eb.
  2: { unfold pfpks_allocate. rewrite repeat_length, app_length. cbn. lia. }
  2: { rewrite app_length. cbn. lia. }
  destruct Eb as [Hbl Hbk]. rewrite app_length in Hbl. cbn [length] in Hbl.
  assert (Hrow : forall i, (i < S (length s))%nat -> exists ess, forall child, nth_error ch i = Some child ->
     (exists ng, noise_polys gauss N l (eg_noise child) = Ret (ess, ng)) /\
     forall blk, nth_error blocks i = Some blk -> length blk = l /\ forall j row, nth_error blk j = Some row ->
       glwe_wf w (length key) N row /\
       req (2 ^ w) (gphase N key row) (radd (rscal (nth i (s ++ [-1]) 0 * 2 ^ (w - b * (Z.of_nat j + 1))) (rscal (f 1) (R N poly))) (R N (nth j ess [])))).
  { intros i Hi. destruct (nth_error blocks i) as [blk|] eqn:Ei; [|apply nth_error_None in Ei; lia].
    destruct (Hbk i blk Ei) as (block & gi & Eblock & Egi & Ek). unfold fill_pfpks_block in Ek.
    rewrite pfpks_messages_ok in Ek by assumption. cbn [obind] in Ek.
    destruct (encrypt_glwe_list p w gauss key N block _ gi) as [[blk' ng]|] eqn:El; [|discriminate]. cbn [obind] in Ek. injection Ek as ->.
    unfold pfpks_allocate in Eblock. apply nth_error_In, repeat_spec in Eblock. subst block.
    assert (Hgi : egen_ok gi).
    { unfold egen_ok. rewrite Forall_forall in Hct. rewrite (Hct gi) by (eapply nth_error_In; eassumption). exact Hg. }
    apply glwe_list_rows in El; try assumption.
    2: { rewrite repeat_length, map_length, seq_length. reflexivity. }
    2: { apply Forall_forall. intros o Ho. apply repeat_spec in Ho. subst o. apply zeros_glwe_wf. lia. }
    2: { apply Forall_forall. intros m Hm. apply in_map_iff in Hm. destruct Hm as (j & <- & _). rewrite zip_update_length. apply repeat_length. }
    rewrite map_length, seq_length in El. destruct El as (ess & En & Hle & _ & Hlb & Hrows).
    exists ess. intros child Hc. assert (child = gi) by congruence. subst child. split; [eauto|]. intros blk2 Hb2. injection Hb2 as <-.
    split; [assumption|]. intros j row Hj. destruct (Hrows j row Hj) as [W P]. split; [assumption|]. rewrite P.
    assert (Hjl : (j < l)%nat) by (rewrite <- Hlb; apply nth_error_Some; congruence).
    rewrite nth_map_seq by assumption. rewrite R_zero_plus by (assumption || lia).
    set (e := R N (nth j ess [])). clearbody e.
    set (bit := nth i (s ++ [2 ^ w - 1]) 0). assert (Hbit : eqm (2 ^ w) bit (nth i (s ++ [-1]) 0)).
    { unfold bit. destruct (Nat.lt_ge_cases i (length s)).
      - rewrite !app_nth1 by assumption. reflexivity.
      - rewrite !app_nth2 by assumption. replace (i - length s)%nat with O by lia. cbn [nth]. apply (eqm_k _ _ _ 1). lia. }
    clearbody bit. intros x.
    change (eqm (2 ^ w) (shl w (wmul w (f 1) bit) (w - b * Z.of_nat (1 + j)) * rcoef (R N poly) x + rcoef e x)
      (nth i (s ++ [-1]) 0 * 2 ^ (w - b * (Z.of_nat j + 1)) * (f 1 * rcoef (R N poly) x) + rcoef e x)).
    rewrite shl_eqm, wmul_eqm, Hbit. replace (Z.of_nat (1 + j)) with (Z.of_nat j + 1) by lia. apply eqm_eq. ring. }
  destruct (list_choice _ [] (S (length s)) Hrow) as (noise & _ & Hn).
  exists ch, (fun i => nth i noise []). split; [reflexivity|]. split; [assumption|]. split.
  - intros i child Hc. assert (Hi : (i < S (length s))%nat) by (rewrite <- Hcl; apply nth_error_Some; congruence).
    apply (Hn i Hi child Hc).
  - split; [rewrite app_length; cbn; lia|]. intros i blk Hi.
    assert (Hil : (i < S (length s))%nat) by (replace (S (length s)) with (length blocks) by lia; apply nth_error_Some; congruence).
    destruct (nth_error ch i) as [child|] eqn:Ec; [|apply nth_error_None in Ec; lia].
    apply (proj2 (Hn i Hil child Ec)). assumption.
Qed.
Print Assumptions C32_generated_key.

Lemma gksk_encrypts_ext w b l N key s (P P' : rp N) noise ksk : req (2 ^ w) P P' ->
  gksk_encrypts w b l N key s P noise ksk -> gksk_encrypts w b l N key s P' noise ksk.
Proof.
  intros HP [Hl Hk]. split; [assumption|]. intros i blk Hi. destruct (Hk i blk Hi) as [H1 H2]. split; [assumption|].
  intros j row Hj. destruct (H2 j row Hj) as [W Q]. split; [assumption|]. rewrite Q. intros x.
  change (eqm (2 ^ w) (nth i s 0 * 2 ^ (w - b * (Z.of_nat j + 1)) * rcoef P x + rcoef (noise i j) x)
    (nth i s 0 * 2 ^ (w - b * (Z.of_nat j + 1)) * rcoef P' x + rcoef (noise i j) x)). rewrite (HP x). reflexivity.
Qed.

Lemma fill_fpksks_inv p w gauss b l N key s : forall keys polys gs res, length polys = length keys -> length gs = length keys ->
  fill_fpksks p w gauss b l N key s keys polys gs = Ret res ->
  length res = length keys /\ forall u k', nth_error res u = Some k' -> exists k0 g g', nth_error keys u = Some k0 /\ nth_error gs u = Some g /\
    fill_with_pfpks_key p w gauss b l N key (fun x => wsub w 0 x) (nth u polys []) s k0 g = Ret (k', g').
Proof.
  induction keys as [|k0 keys IH]; intros [|poly polys] [|g gs] res Hp Hg E; try discriminate; cbn [fill_fpksks] in E.
  - injection E as <-. split; [reflexivity|]. intros [|u]; discriminate.
  - destruct (fill_with_pfpks_key p w gauss b l N key (fun x => wsub w 0 x) poly s k0 g) as [[k1 g1]|] eqn:E1; [|discriminate]. cbn [obind] in E.
    destruct (fill_fpksks p w gauss b l N key s keys polys gs) as [rest|] eqn:E2; [|discriminate]. cbn [obind] in E. injection E as <-.
    destruct (IH polys gs rest) as [L F]; [cbn in *; lia|cbn in *; lia|assumption|]. split; [cbn; lia|].
    intros [|u] k' Hu; cbn [nth_error nth] in *; [|apply F; assumption]. injection Hu as <-. exists k0, g, g1. auto.
Qed.

(** The keys generated for the circuit bootstrap: key u < k multiplies by minus the u-th polynomial of the output key,
    the last one by 1; each uses its own child of the generator. *)
Theorem C32_circuit_bootstrap_keys : forall p w gauss b l N s key g keys g',
  dec_wf w (Dec b l) -> w mod 8 = 0 -> (0 < N)%nat -> gauss_ok w gauss -> gkey_ok p N key -> egen_ok g ->
  generate_new_cbs_pfpks_keys p w gauss b l N s key g = Ret (keys, g') ->
  exists children,
    fork_cbs_pfpksk_to_pfpksk p w g (Z.of_nat l) (Z.of_nat (S (length key))) (Z.of_nat N) (Z.of_nat (S (length s))) (Z.of_nat (S (length key)))
      = Ret (Some children, g') /\
    length keys = S (length key) /\ length children = S (length key) /\
    forall u ksk child, nth_error keys u = Some ksk -> nth_error children u = Some child ->
      exists grandchildren noise g1,
        fork_pfpksk_to_pfpksk_chunks p w child (Z.of_nat l) (Z.of_nat (S (length key))) (Z.of_nat N) (Z.of_nat (S (length s))) = Ret (Some grandchildren, g1) /\
        (forall i gc, nth_error grandchildren i = Some gc -> exists ng, noise_polys gauss N l (eg_noise gc) = Ret (noise i, ng)) /\
        gksk_encrypts w b l N key (s ++ [-1])
          (if Nat.ltb u (length key) then ropp (R N (nth u key [])) else rone N) (fun i j => R N (nth j (noise i) [])) ksk.
Proof.
  intros p w gauss b l N s key g keys g' Hd Hw8 HN Hga Hk Hg E.
  pose proof Hd as (H1 & H2 & H3 & H4). cbn [base_log level_count] in *. assert (Hw : 0 < w) by nia.
  unfold generate_new_cbs_pfpks_keys, fill_with_fpksk_for_circuit_bootstrap in E. rewrite !repeat_length in E.
  replace (match p with Debug => assert_ (Nat.eqb (S (length key)) (S (length key))) | Release => Ret tt end) with (Ret tt) in E
    by (destruct p; [rewrite Nat.eqb_refl|]; reflexivity).
  cbn [obind] in E.
  destruct (fork_cbs_pfpksk_to_pfpksk p w g (Z.of_nat l) (Z.of_nat (S (length key))) (Z.of_nat N) (Z.of_nat (S (length s))) (Z.of_nat (S (length key)))) as [[[ch|] g1]|] eqn:Ef;
    cbn [obind] in E; try discriminate.
  destruct N as [|N']; [lia|]. cbn [repeat set_first obind] in E. set (N := S N') in *.
  destruct (fill_fpksks p w gauss b l N key s _ _ ch) as [res|] eqn:Eb; [|discriminate]. cbn [obind] in E. injection E as <- <-.
  pose proof Ef as Ef'. unfold fork_cbs_pfpksk_to_pfpksk in Ef'.
  destruct (mask_bytes_per_pfpksk p w (Z.of_nat l) (Z.of_nat (S (length key))) (Z.of_nat N) (Z.of_nat (S (length s)))) as [mb|]; [|discriminate]. cbn [obind] in Ef'.
  destruct (noise_bytes_per_pfpksk p (Z.of_nat l) (Z.of_nat N) (Z.of_nat (S (length s)))) as [nb|]; [|discriminate]. cbn [obind] in Ef'.
  apply eg_fork_children in Ef'. destruct Ef' as [Hcl Hct]. rewrite Nat2Z.id in Hcl.
  change (pfpks_allocate l N (length key) (length s) :: repeat (pfpks_allocate l N (length key) (length s)) (length key))
    with (repeat (pfpks_allocate l N (length key) (length s)) (S (length key))) in Eb.
  apply fill_fpksks_inv in Eb.
  2: { rewrite repeat_length, app_length. cbn. lia. }
  2: { rewrite repeat_length. assumption. }
  rewrite repeat_length in Eb. destruct Eb as [Hrl Hr].
  exists ch. split; [reflexivity|]. split; [assumption|]. split; [assumption|].
  intros u ksk child Hu Hc. destruct (Hr u ksk Hu) as (k0 & gu & gu' & E0 & Egu & Ek). assert (gu = child) by congruence. subst gu.
  apply nth_error_In, repeat_spec in E0. subst k0.
  assert (Hul : (u < S (length key))%nat) by (rewrite <- Hcl; apply nth_error_Some; congruence).
  assert (Hgc : egen_ok child).
  { unfold egen_ok. rewrite Forall_forall in Hct. rewrite (Hct child) by (eapply nth_error_In; eassumption). exact Hg. }
  set (last_poly := (2 ^ w - 1) :: repeat 0 N') in *.
  assert (Hpl : length (nth u (key ++ [last_poly]) []) = N).
  { destruct Hk as [Hkl _]. destruct (Nat.lt_ge_cases u (length key)).
    - rewrite app_nth1 by assumption. rewrite Forall_forall in Hkl. apply Hkl, nth_In. assumption.
    - rewrite app_nth2 by assumption. replace (u - length key)%nat with O by lia. cbn [nth]. unfold last_poly. cbn [length]. rewrite repeat_length. reflexivity. }
  change (generate_new_pfpks_key p w gauss b l N s key (fun x => wsub w 0 x) (nth u (key ++ [last_poly]) []) child = Ret (ksk, gu')) in Ek.
  apply C32_generated_key in Ek; try assumption. destruct Ek as (gc & noise & Efk & _ & Hno & He).
  exists gc, noise, gu'. split; [exact Efk|]. split; [exact Hno|]. revert He. apply gksk_encrypts_ext.
  destruct (Nat.ltb_spec u (length key)).
  - rewrite app_nth1 by assumption. intros x.
    change (eqm (2 ^ w) (wsub w 0 1 * rcoef (R N (nth u key [])) x) (- rcoef (R N (nth u key [])) x)). rewrite wsub_eqm. apply eqm_eq. ring.
  - rewrite app_nth2 by assumption. replace (u - length key)%nat with O by lia. cbn [nth].
    unfold last_poly. replace N' with (N - 1)%nat by (unfold N; lia).
    rewrite R_first by (unfold N; lia). apply req_coefs. intros x Hx. unfold rone.
    change (eqm (2 ^ w) (wsub w 0 1 * rcoef (rconst N (2 ^ w - 1)) x) (rcoef (rconst N 1) x)).
    rewrite !rcoef_rconst by lia. rewrite wsub_eqm. destruct (x =? 0); [|reflexivity]. apply (eqm_k _ _ _ (-1)). lia.
Qed.
Print Assumptions C32_circuit_bootstrap_keys.

Definition demo_pgen : egen := EG (BG (fun i => (7 * i + 3) mod 256) 0 10000) (BG (fun i => (i * i + i / 512 + 1) mod 256) 0 1000000).
Definition demo_pks_in : list (list Z) := [demo_ks_in; [1234567890; 222222222; 333333333; 100000000]].
Definition demo_pksk : list (list (list (list Z))) :=
  match generate_new_lwe_packing_keyswitch_key Debug 32 demo_gauss_word 5 3 4 [1; 0; 1] [[1; 0; 1; 1]] demo_pgen with Ret (k, _) => k | Panic => [] end.
Definition demo_pfpksk : list (list (list (list Z))) :=
  match generate_new_pfpks_key Debug 32 demo_gauss_word 5 3 4 [1; 0; 1] [[1; 0; 1; 1]] (fun x => wsub 32 0 x) [0; 1; 1; 0] demo_pgen with
  | Ret (k, _) => k | Panic => [] end.

Lemma demo_pgkey : gkey_ok Debug 4 [[1; 0; 1; 1]].
Proof. split; [repeat constructor|]. right. repeat (constructor; [bin|]). constructor. Qed.

(** A generated key meets the hypotheses; two ciphertexts are packed. *)
Example C31_case :
  dec_wf 32 (Dec 5 3) /\ binary [1; 0; 1] /\ gkey_ok Debug 4 [[1; 0; 1; 1]] /\ Forall (lwe_wf 32 3) demo_pks_in /\
  (exists ess, length ess = 9%nat /\ (forall i, (i < 9)%nat -> rbound (2 ^ 32) 255 (R 4 (nth i ess []))) /\
     gksk_encrypts 32 5 3 4 [[1; 0; 1; 1]] [1; 0; 1] (rone 4) (fun i j => R 4 (nth (i * 3 + j) ess [])) demo_pksk) /\
  map (phase 32 [1; 0; 1]) demo_pks_in = [807695742; 2827066073] /\
  match packing_keyswitch Debug 32 5 3 1 demo_pksk [[7; 7; 7; 7]; [7; 7; 7; 7]] demo_pks_in with
  | Ret c => decrypt_glwe Debug 32 [[1; 0; 1; 1]] 4 c = Ret [807775923; 2827078262; 4294961907; 4294960086]
  | Panic => False
  end.
Proof.
  split; [unfold dec_wf; cbn [base_log level_count]; lia|].
  split; [unfold binary; repeat (apply Forall_cons; [lia|]); apply Forall_nil|].
  split; [apply demo_pgkey|].
  split. { unfold demo_pks_in, demo_ks_in. repeat (apply Forall_cons; [split; [reflexivity|]; unfold is_word; repeat (apply Forall_cons; [lia|]); apply Forall_nil|]). apply Forall_nil. }
  split; [|split; vm_compute; reflexivity].
  unfold demo_pksk.
  destruct (generate_new_lwe_packing_keyswitch_key Debug 32 demo_gauss_word 5 3 4 [1; 0; 1] [[1; 0; 1; 1]] demo_pgen) as [[k g']|] eqn:E.
  - apply C31_generated_key in E.
    + destruct E as (ess & En & Hl & He). exists ess. split; [exact Hl|]. split; [|exact He].
      eapply (noise_polys_small 32 255 demo_gauss_word 4); [lia|apply demo_gauss_word_small; lia|exact En].
    + unfold dec_wf; cbn [base_log level_count]; lia.
    + reflexivity.
    + lia.
    + apply demo_gauss_word_ok. lia.
    + apply demo_pgkey.
    + intros q. cbn. lia.
  - exfalso. apply (f_equal (fun o => match o with Ret _ => true | Panic => false end)) in E. vm_compute in E. discriminate.
Qed.

(** f(x) = -x and P = X + X^2: the result is near -(m0 + m1*X)*(X + X^2) = [0; -m0; -m0-m1; -m1]. *)
Example C32_case :
  (exists noise : nat -> list (list Z),
     gksk_encrypts 32 5 3 4 [[1; 0; 1; 1]] ([1; 0; 1] ++ [-1]) (rscal (wsub 32 0 1) (R 4 [0; 1; 1; 0])) (fun i j => R 4 (nth j (noise i) [])) demo_pfpksk /\
     forall i j, (i < 4)%nat -> (j < 3)%nat -> rbound (2 ^ 32) 255 (R 4 (nth j (noise i) []))) /\
  rbound (2 ^ 32) 1 (rscal (wsub 32 0 1) (R 4 [0; 1; 1; 0])) /\
  match private_functional_packing_keyswitch Debug 32 5 3 1 demo_pfpksk [[7; 7; 7; 7]; [7; 7; 7; 7]] demo_pks_in with
  | Ret c => decrypt_glwe Debug 32 [[1; 0; 1; 1]] 4 c =
      Ret [3596; (- 807695742 - 106222) mod 2 ^ 32; (- 807695742 - 2827066073 - 130181) mod 2 ^ 32; (- 2827066073 - 32787) mod 2 ^ 32]
  | Panic => False
  end.
Proof.
  split; [|split; [|vm_compute; reflexivity]].
  - unfold demo_pfpksk.
    destruct (generate_new_pfpks_key Debug 32 demo_gauss_word 5 3 4 [1; 0; 1] [[1; 0; 1; 1]] (fun x => wsub 32 0 x) [0; 1; 1; 0] demo_pgen) as [[k g']|] eqn:E.
    + apply C32_generated_key in E.
      * destruct E as (ch & noise & _ & Hcl & Hno & He). exists noise. split; [exact He|]. intros i j Hi Hj. cbn [length] in Hcl.
        destruct (nth_error ch i) as [c|] eqn:Ec; [|apply nth_error_None in Ec; lia]. destruct (Hno i c Ec) as [ng En].
        apply (noise_polys_small 32 255 demo_gauss_word 4) in En; [|lia|apply demo_gauss_word_small; lia]. apply En. assumption.
      * unfold dec_wf; cbn [base_log level_count]; lia.
      * reflexivity.
      * lia.
      * apply demo_gauss_word_ok. lia.
      * apply demo_pgkey.
      * intros q. cbn. lia.
      * reflexivity.
    + exfalso. apply (f_equal (fun o => match o with Ret _ => true | Panic => false end)) in E. vm_compute in E. discriminate.
  - apply (rbound_req (2 ^ 32) 1 (rscal (-1) (R 4 [0; 1; 1; 0]))).
    + intros x. change (eqm (2 ^ 32) (-1 * rcoef (R 4 [0; 1; 1; 0]) x) (wsub 32 0 1 * rcoef (R 4 [0; 1; 1; 0]) x)). rewrite wsub_eqm. apply eqm_eq. ring.
    + change 1 with (Z.abs (-1) * 1) at 1. apply rbound_scal. apply rbound_R; [reflexivity|].
      repeat (apply Forall_cons; [eexists; split; [reflexivity|lia]|]). apply Forall_nil.
Qed.

(** The circuit bootstrap key list: k+1 keys come out. *)
Example C32_cbs_case :
  match generate_new_cbs_pfpks_keys Debug 32 demo_gauss_word 5 3 4 [1; 0; 1] [[1; 0; 1; 1]] demo_pgen with
  | Ret (keys, _) => length keys = 2%nat | Panic => False end.
Proof. vm_compute. reflexivity. Qed.
