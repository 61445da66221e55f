(** * Theorems about the NTT backend: external product (C26), cmux (C27), blind rotation and bootstrap (C29) *)
From Verif Require Import Base Word WordFacts DecompModel DecompProofs NegaRing PolySpec PolyProofs RingSum PolyModel LweSpec LweProofs
  GlweSpec GlweModel GlweProofs GlweTheorems GgswSpec GgswModel GgswTheorems SeededModel ExtProdModel ExtProdSpec ExtProdProofs ExtProdTheorems
  BootstrapModel BootstrapSpec BootstrapTheorems NttModel NttSpec NttProofs NttEval NttApi NttTheorems NttSwitchProofs NttExtProdProofs
  NttTables32 NttTables64 NttTableTheorems.

(** The borrowed buffers have the right sizes and the right tables; their contents are arbitrary. *)
Definition bufs_for (q : Z) (L : nat) (psi : Z) (k : nat) (bufs : nbufs) : Prop :=
  transform_for q L psi (nb_ntt bufs) /\ length (nb_rounded bufs) = (S k * 2 ^ L)%nat.

(** The digits of a decomposition with base 2^b are not altered by the switch to modulus q. *)
Definition digits_fit (w q b : Z) : Prop := 2 ^ b * (2 ^ w - q) < 2 ^ w.

Lemma roots_unique q L psi nt1 nt2 : 1 < q -> transform_for q L psi nt1 -> transform_for q L psi nt2 -> nt_roots nt1 = nt_roots nt2.
Proof.
  intros Hq (_ & _ & ((A1 & A2) & _ & _ & _ & A3 & _)) (_ & _ & ((B1 & B2) & _ & _ & _ & B3 & _)).
  apply (nth_ext _ _ 0 0); [congruence|]. intros i Hi. rewrite A1 in Hi. rewrite Forall_forall in A2, B2.
  assert (Hz : 0 <= Z.of_nat i < 2 ^ Z.of_nat L) by (rewrite <- (Nat2Z.inj_pow 2); lia).
  destruct (A3 _ Hz) as [E1 _]. destruct (B3 _ Hz) as [E2 _]. unfold coef in E1, E2. rewrite Nat2Z.id in E1, E2.
  apply (eqm_small q); [apply A2, nth_In; lia|apply B2, nth_In; lia|]. rewrite E1, E2. reflexivity.
Qed.

Lemma glwe_flat_length w k N c : glwe_wf w k N c -> length (concat c) = (S k * N)%nat.
Proof. intros [Hl Hc]. rewrite <- Hl. clear Hl. induction Hc as [|s c Hs Hc IH]; [reflexivity|]. cbn [concat length]. rewrite app_length, IH. destruct Hs as [-> _]. lia. Qed.

Lemma extraction_buffer w N glwe out1 out2 n : length out1 = length out2 ->
  fill_lwe_with_sample_extraction w N glwe out1 n = fill_lwe_with_sample_extraction w N glwe out2 n.
Proof.
  intros Hl. unfold fill_lwe_with_sample_extraction.
  destruct out1 as [|x out1] using rev_ind; destruct out2 as [|y out2] using rev_ind; rewrite ?app_length in Hl; cbn [length] in Hl; try lia; [reflexivity|].
  rewrite !removelast_last. replace (length out1) with (length out2) by lia.
  destruct (out1 ++ [x]) eqn:E1; [destruct out1; discriminate|]. destruct (out2 ++ [y]) eqn:E2; [destruct out2; discriminate|]. reflexivity.
Qed.

Section Theorems.
Context (p : profile) (w q : Z) (L : nat) (psi : Z) (d : decomposer) (key : list (list Z)) (beta : Z).
Local Notation N := (2 ^ L)%nat.
Local Notation W := (2 * w).
Local Notation k := (length key).
Local Notation l := (level_count d).
Local Notation b := (base_log d).
Hypothesis (Hq : 1 < q < 2 ^ w) (Hsize : size_ok p L) (Hd : dec_wf w d) (Hfit : digits_fit w q b)
  (Hkey : binary_key N key) (Hbeta : 0 <= beta).
(** Error of the backend: half a unit for the switch back to words, and half a unit of the switched key
    for each of the products. *)
Local Notation E := (ntt_error w q N b (l * S k)).

Local Lemma Hw : 0 < w.
Proof. clear - Hd. destruct Hd as (H1 & H2 & H3 & H4). nia. Qed.
Local Lemma Hsmall : 2 * 2 ^ (b - 1) * (2 ^ w - q) < 2 ^ w.
Proof.
  clear - Hd Hfit. destruct Hd as (H1 & _). unfold digits_fit in Hfit. replace (2 * 2 ^ (b - 1)) with (2 ^ b); [exact Hfit|].
  replace b with (1 + (b - 1)) at 1 by lia. rewrite Z.pow_add_r by lia. reflexivity.
Qed.
Local Lemma HE : 0 <= E.
Proof.
  clear - Hd Hq. unfold ntt_error. destruct Hd as (H1 & _). pose proof (pow2_pos (b - 1) ltac:(lia)). apply Z.div_pos; [|lia].
  pose proof (Z.mul_nonneg_nonneg (Z.of_nat N) (2 ^ (b - 1) * 2 ^ w) ltac:(lia) ltac:(nia)).
  pose proof (Z.mul_nonneg_nonneg (Z.of_nat (l * S k)) _ ltac:(lia) H0). lia.
Qed.
Local Lemma HN : (0 < N)%nat.
Proof. pose proof (Nat.pow_nonzero 2 L). lia. Qed.

Lemma fsw_unique nt1 nt2 : transform_for q L psi nt1 -> transform_for q L psi nt2 -> fsw w q L nt1 = fsw w q L nt2.
Proof. intros H1 H2. unfold fsw. rewrite (roots_unique q L psi nt1 nt2) by (try assumption; lia). reflexivity. Qed.

(** The external product and the cmux, as functions of the key in the standard domain. *)
Local Notation ep_pure out c G := (map (fun u => ntt_run w q N (nth u out []) (pairs_of (ep_flat w d G c) u)) (seq 0 (S k))).
Local Notation diff_of ct0 ct1 := (zip_update (zip_update (wsub w)) ct1 ct0).
Local Notation cm_pure := (fun ct0 ct1 (G : list (list (list (list Z)))) => Ret (ep_pure ct0 (diff_of ct0 ct1) G, diff_of ct0 ct1)).

Lemma ep_pure_ok m noise G : ggsw_wf w k N l G -> ggsw_encrypts w b N key m noise G ->
  (forall j i, (j < l)%nat -> (i <= k)%nat -> rbound (2 ^ w) beta (R N (noise (S j) i))) ->
  forall out c, glwe_wf w k N out -> glwe_wf w k N c -> glwe_wf w k N (ep_pure out c G) /\
    rbound (2 ^ w) (ep_error w b k N l m beta E) (rsub (gphase N key (ep_pure out c G)) (radd (gphase N key out) (rscal m (gphase N key c)))).
Proof.
  intros HG Henc Hn out c Ho Hc. pose proof Hw as Hw'. pose proof Hd as (D1 & _).
  destruct (ep_phase w N d k key m noise (ntt_run w q N) (l * S k) E out G c Hd eq_refl Ho Hc HG Henc
    (ntt_run_ok w q N Hw' Hq b D1 Hsmall (l * S k)) (le_n _)) as [Hwf (err & He & Hr)].
  split; [exact Hwf|]. apply (ep_bound w N d k key m noise beta E _ out c err); try assumption; [reflexivity|exact HE].
Qed.

Lemma ep_pure_run G out c nt bufs : ggsw_wf w k N l G -> glwe_wf w k N out -> glwe_wf w k N c ->
  transform_for q L psi nt -> bufs_for q L psi k bufs ->
  exists bufs', ntt_external_product p W q w N (S k) b out (map (map (map (fsw w q L nt))) G) c bufs = Ret (ep_pure out c G, bufs') /\ bufs_for q L psi k bufs'.
Proof.
  intros HG Ho Hc Hnt [Hb1 Hb2]. pose proof Hw as Hw'.
  destruct (ntt_external_product_run p w q L psi Hw' Hq Hsize k d out G c bufs Hd Ho Hc HG Hb1 Hb2) as (b1 & Hb1' & E1).
  rewrite (fsw_unique nt (nb_ntt bufs) Hnt Hb1). rewrite E1. eexists. split; [reflexivity|]. split; cbn [nb_ntt nb_rounded].
  - apply (ntt_ok_buffer q L psi (nb_ntt bufs)); assumption.
  - rewrite map_length. destruct Hc as [Hcl Hcw].
    rewrite <- Hcl. clear - Hcw. induction Hcw as [|s c Hs Hc IH]; [reflexivity|]. cbn [concat length]. rewrite app_length, IH. destruct Hs as [-> _]. lia.
Qed.

Lemma cm_pure_ok m noise G : m = 0 \/ m = 1 -> ggsw_wf w k N l G -> ggsw_encrypts w b N key m noise G ->
  (forall j i, (j < l)%nat -> (i <= k)%nat -> rbound (2 ^ w) beta (R N (noise (S j) i))) ->
  forall ct0 ct1, glwe_wf w k N ct0 -> glwe_wf w k N ct1 -> glwe_wf w k N (ep_pure ct0 (diff_of ct0 ct1) G) /\ glwe_wf w k N (diff_of ct0 ct1) /\
    rbound (2 ^ w) (ep_error w b k N l m beta E) (rsub (gphase N key (ep_pure ct0 (diff_of ct0 ct1) G)) (gphase N key (if m =? 1 then ct1 else ct0))).
Proof.
  intros Hm HG Henc Hn ct0 ct1 H0 H1. pose proof Hw as Hw'.
  destruct (zip_sub_wf w k N ct1 ct0 ltac:(lia) H1 H0) as [Hwf HR].
  destruct (ep_pure_ok m noise G HG Henc Hn ct0 _ H0 Hwf) as [Wo Hbd]. split; [exact Wo|]. split; [exact Hwf|].
  eapply rbound_req; [|exact Hbd].
  rewrite (gphase_sub w k N key _ ct1 ct0 eq_refl (proj1 Hwf) (proj1 H1) (proj1 H0) HR).
  assert (Hm' : m = 0 /\ (m =? 1) = false \/ m = 1 /\ (m =? 1) = true) by (destruct Hm as [-> | ->]; auto).
  destruct Hm' as [[Em ->]|[Em ->]]; intros x; apply eqm_eq; cbn; subst m; ring.
Qed.

Lemma cm_pure_run G ct0 ct1 nt bufs : ggsw_wf w k N l G -> glwe_wf w k N ct0 -> glwe_wf w k N ct1 ->
  transform_for q L psi nt -> bufs_for q L psi k bufs ->
  exists bufs', ntt_cmux p W q w N (S k) b ct0 ct1 (map (map (map (fsw w q L nt))) G) bufs = Ret (ep_pure ct0 (diff_of ct0 ct1) G, diff_of ct0 ct1, bufs') /\
    bufs_for q L psi k bufs'.
Proof.
  intros HG H0 H1 Hnt Hb. pose proof Hw as Hw'. destruct (zip_sub_wf w k N ct1 ct0 ltac:(lia) H1 H0) as [Hwf _].
  destruct (ep_pure_run G ct0 _ nt bufs HG H0 Hwf Hnt Hb) as (bufs' & E1 & Hb'). exists bufs'. split; [|exact Hb'].
  unfold ntt_cmux. rewrite E1. reflexivity.
Qed.

(** ** C26.  The key is transformed once, with the transform [nt]; the product may use any buffers, and its
    result does not depend on them. *)
Theorem C26_ntt_external_product m noise G outs nt :
  ggsw_wf w k N l G -> ggsw_encrypts w b N key m noise G ->
  (forall j i, (j < l)%nat -> (i <= k)%nat -> rbound (2 ^ w) beta (R N (noise (S j) i))) ->
  ntt_shape L k l outs -> transform_for q L psi nt ->
  exists FG nt', fill_with_forward_ntt p W q w nt outs G = Ret (FG, nt') /\ transform_for q L psi nt' /\
  forall out c, glwe_wf w k N out -> glwe_wf w k N c ->
  exists out', glwe_wf w k N out' /\
    rbound (2 ^ w) (ep_error w b k N l m beta E) (rsub (gphase N key out') (radd (gphase N key out) (rscal m (gphase N key c)))) /\
    forall bufs, bufs_for q L psi k bufs -> exists bufs',
      ntt_external_product p W q w N (S k) b out FG c bufs = Ret (out', bufs') /\ bufs_for q L psi k bufs'.
Proof.
  intros HG Henc Hn Hsh Hnt. pose proof Hw as Hw'.
  destruct (fill_ok p w q L psi Hw' Hq Hsize k l G outs nt Hnt Hsh HG) as (b0 & Hb0 & E0).
  exists (map (map (map (fsw w q L nt))) G), (with_buffer nt b0). split; [exact E0|]. split; [apply (ntt_ok_buffer q L psi nt); assumption|].
  intros out c Ho Hc. destruct (ep_pure_ok m noise G HG Henc Hn out c Ho Hc) as [Hwf Hbd].
  eexists. split; [exact Hwf|]. split; [exact Hbd|]. intros bufs Hb. apply ep_pure_run; assumption.
Qed.

(** ** C27 *)
Theorem C27_ntt_cmux (bit : bool) noise G outs nt :
  ggsw_wf w k N l G -> ggsw_encrypts w b N key (Z.b2z bit) noise G ->
  (forall j i, (j < l)%nat -> (i <= k)%nat -> rbound (2 ^ w) beta (R N (noise (S j) i))) ->
  ntt_shape L k l outs -> transform_for q L psi nt ->
  exists FG nt', fill_with_forward_ntt p W q w nt outs G = Ret (FG, nt') /\ transform_for q L psi nt' /\
  forall ct0 ct1, glwe_wf w k N ct0 -> glwe_wf w k N ct1 ->
  exists out diff, glwe_wf w k N out /\ glwe_wf w k N diff /\
    rbound (2 ^ w) (ep_error w b k N l (Z.b2z bit) beta E) (rsub (gphase N key out) (gphase N key (if bit then ct1 else ct0))) /\
    forall bufs, bufs_for q L psi k bufs -> exists bufs',
      ntt_cmux p W q w N (S k) b ct0 ct1 FG bufs = Ret (out, diff, bufs') /\ bufs_for q L psi k bufs'.
Proof.
  intros HG Henc Hn Hsh Hnt. pose proof Hw as Hw'.
  destruct (fill_ok p w q L psi Hw' Hq Hsize k l G outs nt Hnt Hsh HG) as (b0 & Hb0 & E0).
  exists (map (map (map (fsw w q L nt))) G), (with_buffer nt b0). split; [exact E0|]. split; [apply (ntt_ok_buffer q L psi nt); assumption|].
  intros ct0 ct1 H0 H1. destruct (cm_pure_ok (Z.b2z bit) noise G ltac:(destruct bit; auto) HG Henc Hn ct0 ct1 H0 H1) as (W1 & W2 & Hbd).
  eexists _, _. split; [exact W1|]. split; [exact W2|]. split; [destruct bit; exact Hbd|]. intros bufs Hb. apply cm_pure_run; assumption.
Qed.

(** ** C29 *)
Hypothesis (HLw : Z.of_nat L + 2 < w).
Local Notation bound := (ep_error w b k N l 1 beta E).
Local Lemma EN : Z.to_nat (2 ^ Z.of_nat L) = N.
Proof. rewrite <- (Nat2Z.inj_pow 2). apply Nat2Z.id. Qed.

Lemma ntt_bsk_selects bsk s : Forall (fun x => x = 0 \/ x = 1) s -> bsk_encrypts w b N l key beta bsk s ->
  Forall2 (cmux_selects w N key bound cm_pure) bsk s.
Proof.
  intros Hs Hb. induction Hb as [|G si bsk s (HG & noise & Henc & Hn) Hb IH]; [constructor|].
  pose proof (Forall_inv Hs) as Hsi. apply Forall_inv_tail in Hs. constructor; [|apply IH; assumption].
  split; [exact Hsi|]. intros ct0 ct1 H0 H1.
  destruct (cm_pure_ok si noise G Hsi HG Henc Hn ct0 ct1 H0 H1) as (W1 & W2 & Hbd).
  eexists _, _. split; [reflexivity|]. split; [exact W1|]. eapply rbound_le; [|exact Hbd]. apply ep_error_mono. exact Hsi.
Qed.

Lemma ntt_loop_follows nt : transform_for q L psi nt -> forall mask bsk s ct0 ct bufs, Forall (is_word w) mask ->
  Forall (fun x => x = 0 \/ x = 1) s -> bsk_encrypts w b N l key beta bsk s -> glwe_wf w k N ct0 ->
  rotate_loop p w cm_pure N (combine mask bsk) ct0 = Ret ct -> bufs_for q L psi k bufs ->
  exists bufs', ntt_rotate_loop p W q w N (S k) b (combine mask (map (map (map (map (fsw w q L nt)))) bsk)) ct0 bufs = Ret (ct, bufs') /\
    bufs_for q L psi k bufs'.
Proof.
  intros Hnt. induction mask as [|x mask IH]; intros bsk s ct0 ct bufs Hm Hs Hb Hc Er Hbu.
  { cbn in Er |- *. injection Er as <-. exists bufs. split; [reflexivity|exact Hbu]. }
  destruct Hb as [|G si bsk s (HG & noise & Henc & Hn) Hb].
  { cbn in Er |- *. injection Er as <-. exists bufs. split; [reflexivity|exact Hbu]. }
  pose proof (Forall_inv Hs) as Hsi. apply Forall_inv_tail in Hs. pose proof (Forall_inv Hm) as Hx. apply Forall_inv_tail in Hm.
  cbn [combine map rotate_loop ntt_rotate_loop] in Er |- *. destruct (Z.eqb_spec x 0) as [->|Hx0].
  { apply (IH bsk s); assumption. }
  pose proof Hw as Hw'. pose proof Hd as (_ & _ & _ & Hw64).
  assert (Hsw : pbs_modulus_switch p w x (Z.of_nat N) 0 0 = Ret (switched w (Z.of_nat N) 0 x) /\ 0 <= switched w (Z.of_nat N) 0 x).
  { pose proof (switch_ok p w (Z.of_nat L) key cm_pure ltac:(lia) HLw Hw64 x Hx) as Sw. rewrite EN in Sw. exact Sw. }
  destruct Hsw as [Es Hs0]. rewrite Es in Er |- *. cbn [obind] in Er |- *. set (e := switched w (Z.of_nat N) 0 x) in *.
  destruct (list_rotation_ok w N k ct0 (fun poly => monic_monomial_mul w poly (Z.to_nat e)) e Hc) as [W1 _].
  { intros r Hr. destruct (monic_monomial_mul_ok w ltac:(lia) N r (Z.to_nat e) HN Hr) as [A B].
    rewrite Z2Nat.id in B by assumption. split; assumption. }
  fold (list_monic_monomial_mul w ct0 (Z.to_nat e)) in W1. set (ct1 := list_monic_monomial_mul w ct0 (Z.to_nat e)) in *.
  destruct (cm_pure_run G ct0 ct1 nt bufs HG Hc W1 Hnt Hbu) as (bufs1 & E1 & Hb1). rewrite E1. cbn [obind].
  apply (IH bsk s); try assumption. apply (cm_pure_ok si noise G); assumption.
Qed.

Lemma ntt_rotate_follows nt bsk s lut lwe ct bufs : transform_for q L psi nt -> lwe_wf w (length s) lwe ->
  Forall (fun x => x = 0 \/ x = 1) s -> bsk_encrypts w b N l key beta bsk s -> glwe_wf w k N lut ->
  blind_rotate p w cm_pure N bsk lut lwe = Ret ct -> bufs_for q L psi k bufs ->
  exists bufs', ntt_blind_rotate p W q w N (S k) b (map (map (map (map (fsw w q L nt)))) bsk) lut lwe bufs = Ret (ct, bufs') /\
    bufs_for q L psi k bufs'.
Proof.
  intros Hnt [Hl Hwd] Hs Hb Hc Er Hbu. unfold blind_rotate in Er. unfold ntt_blind_rotate.
  destruct (snoc_dec lwe _ Hl) as (m & x & -> & Hm). rewrite removelast_last, last_last in *.
  apply Forall_app in Hwd. destruct Hwd as [Hmw Hx]. apply Forall_inv in Hx.
  destruct (m ++ [x]) eqn:El; [destruct m; discriminate|]. clear El.
  pose proof Hw as Hw'. pose proof Hd as (_ & _ & _ & Hw64).
  assert (Hsw : pbs_modulus_switch p w x (Z.of_nat N) 0 0 = Ret (switched w (Z.of_nat N) 0 x) /\ 0 <= switched w (Z.of_nat N) 0 x).
  { pose proof (switch_ok p w (Z.of_nat L) key cm_pure ltac:(lia) HLw Hw64 x Hx) as Sw. rewrite EN in Sw. exact Sw. }
  destruct Hsw as [Es Hs0]. rewrite Es in Er |- *. cbn [obind] in Er |- *. set (e := switched w (Z.of_nat N) 0 x) in *.
  destruct (list_rotation_ok w N k lut (fun poly => unit_monomial_div w poly (Z.to_nat e)) (- e) Hc) as [W1 _].
  { intros r Hr. destruct (unit_monomial_div_ok w ltac:(lia) N r (Z.to_nat e) HN Hr) as [A B].
    rewrite Z2Nat.id in B by assumption. split; assumption. }
  fold (list_monic_monomial_div w lut (Z.to_nat e)) in W1. apply (ntt_loop_follows nt Hnt m bsk s); assumption.
Qed.

(** The shape of the allocated output of the conversion of a bootstrap key of [n] GGSW ciphertexts. *)
Definition ntt_bsk_shape (n : nat) (outs : list (list (list (list (list Z))))) : Prop := length outs = n /\ Forall (ntt_shape L k l) outs.

Lemma bsk_encrypts_length bsk s : bsk_encrypts w b N l key beta bsk s -> length bsk = length s.
Proof. intros H. induction H; cbn; congruence. Qed.

Theorem C29_ntt_blind_rotation bsk s outs nt : Forall (fun x => x = 0 \/ x = 1) s -> bsk_encrypts w b N l key beta bsk s ->
  ntt_bsk_shape (length s) outs -> transform_for q L psi nt ->
  exists FB nt', bsk_forward_ntt p W q w nt outs bsk = Ret (FB, nt') /\ transform_for q L psi nt' /\
  forall lut lwe, lwe_wf w (length s) lwe -> glwe_wf w k N lut ->
  exists ct, glwe_wf w k N ct /\
    rbound (2 ^ w) (Z.of_nat (nonzeros (removelast lwe)) * bound)
      (rsub (gphase N key ct) (rmul (rmono N (- rot_exponent w N s lwe)) (gphase N key lut))) /\
    forall bufs, bufs_for q L psi k bufs -> exists bufs',
      ntt_blind_rotate p W q w N (S k) b FB lut lwe bufs = Ret (ct, bufs') /\ bufs_for q L psi k bufs'.
Proof.
  intros Hs Hb [Lo Ho] Hnt. pose proof Hw as Hw'. pose proof Hd as (_ & _ & _ & Hw64).
  destruct (bsk_forward_ok p w q L psi Hw' Hq Hsize k l bsk outs nt Hnt) as (b0 & Hb0 & E0).
  { rewrite Lo. symmetry. apply bsk_encrypts_length. exact Hb. }
  { exact Ho. }
  { clear - Hb. induction Hb as [|G si bsk s (HG & _) Hb IH]; constructor; assumption. }
  eexists _, _. split; [exact E0|]. split; [apply (ntt_ok_buffer q L psi nt); assumption|]. intros lut lwe Hl Hc.
  pose proof (blind_rotate_ok p w (Z.of_nat L) key bound cm_pure ltac:(lia) HLw Hw64 bsk s lut lwe) as Br. rewrite EN in Br.
  destruct (Br Hl (ntt_bsk_selects bsk s Hs Hb) Hc) as (ct & E1 & W1 & Hbd).
  exists ct. split; [exact W1|]. split; [eapply rbound_req; [|exact Hbd]; rewrite rmono_mul; reflexivity|].
  intros bufs Hbu. apply (ntt_rotate_follows nt bsk s); assumption.
Qed.

(** The full bootstrap; the LUT is any GLWE ciphertext, [lut_buffer] any buffer of its size. *)
Theorem C29_ntt_bootstrap bsk s outs nt : Forall (fun x => x = 0 \/ x = 1) s -> bsk_encrypts w b N l key beta bsk s ->
  ntt_bsk_shape (length s) outs -> transform_for q L psi nt ->
  exists FB nt', bsk_forward_ntt p W q w nt outs bsk = Ret (FB, nt') /\ transform_for q L psi nt' /\
  forall lut lwe, lwe_wf w (length s) lwe -> glwe_wf w k N lut ->
  exists lo e, lwe_wf w (k * N) lo /\ Z.abs e <= Z.of_nat (nonzeros (removelast lwe)) * bound /\
    phase w (glwe_key_into_lwe_key key) lo =
      (rcoef (rmul (rmono N (- rot_exponent w N s lwe)) (gphase N key lut)) 0 + e) mod 2 ^ w /\
    forall out lut_buffer bufs, length out = S (k * N) -> glwe_wf w k N lut_buffer -> bufs_for q L psi k bufs -> exists lut' bufs',
      ntt_bootstrap p W q w N (S k) b FB out lwe lut lut_buffer bufs = Ret (lo, lut', bufs') /\
      glwe_wf w k N lut' /\ bufs_for q L psi k bufs'.
Proof.
  intros Hs Hb Ho Hnt. destruct (C29_ntt_blind_rotation bsk s outs nt Hs Hb Ho Hnt) as (FB & nt' & E0 & Hnt' & Hrot).
  exists FB, nt'. split; [exact E0|]. split; [exact Hnt'|]. intros lut lwe Hl Hc.
  destruct (Hrot lut lwe Hl Hc) as (ct & Wc & Hbd & Hrun).
  assert (Hkl : Forall (fun s => length s = N) key) by (eapply Forall_impl; [|exact Hkey]; intros x Hx; apply Hx).
  assert (Hex : exists lo, lwe_wf w (k * N) lo /\ phase w (glwe_key_into_lwe_key key) lo = rcoef (gphase N key ct) 0 mod 2 ^ w /\
     forall out, length out = S (k * N) -> fill_lwe_with_sample_extraction w N ct out 0 = Ret lo).
  { destruct (C24_extraction_phase w N key ct (repeat 0 (S (k * N))) 0) as (lo & El & Wl & Hp); try assumption; [pose proof Hw; lia|apply HN|apply repeat_length|].
    exists lo. split; [exact Wl|]. split; [exact Hp|]. intros out Hout. rewrite <- El.
    apply extraction_buffer. rewrite Hout, repeat_length. reflexivity. }
  destruct Hex as (lo & Wl & Hp & Hfill). destruct (Hbd 0) as (e & He & Hab); [pose proof HN; lia|].
  exists lo, e. split; [exact Wl|]. split; [exact Hab|]. split.
  - rewrite Hp. change (eqm (2 ^ w) (rcoef (gphase N key ct) 0) (rcoef (rmul (rmono N (- rot_exponent w N s lwe)) (gphase N key lut)) 0 + e)).
    rewrite <- He. apply eqm_eq. cbn [rcoef rsub proj1_sig]. unfold rcoef. lia.
  - intros out lb bufs Hout Hlb Hbu. destruct (Hrun bufs Hbu) as (bufs' & E1 & Hbu'). exists ct, bufs'.
    unfold ntt_bootstrap. rewrite (glwe_flat_length w k N lb Hlb), (glwe_flat_length w k N lut Hc), Nat.eqb_refl. cbn [assert_ obind].
    rewrite E1. cbn [obind]. rewrite (Hfill out Hout). cbn [obind]. split; [reflexivity|]. split; assumption.
Qed.

(** The LUT is a plaintext polynomial [v] in a trivial ciphertext; see C29_lookup. *)
Theorem C29_ntt_lookup bsk s outs nt : Forall (fun x => x = 0 \/ x = 1) s -> bsk_encrypts w b N l key beta bsk s ->
  ntt_bsk_shape (length s) outs -> transform_for q L psi nt ->
  exists FB nt', bsk_forward_ntt p W q w nt outs bsk = Ret (FB, nt') /\ transform_for q L psi nt' /\
  forall v lwe, lwe_wf w (length s) lwe -> poly_wf w N v ->
  exists lo e, lwe_wf w (k * N) lo /\ Z.abs e <= Z.of_nat (nonzeros (removelast lwe)) * bound /\
    phase w (glwe_key_into_lwe_key key) lo = (lut_at N v (rot_exponent w N s lwe) + e) mod 2 ^ w /\
    (forall val, (forall j, 2 * Z.abs (2 ^ w * j - 2 * Z.of_nat N * phase w s lwe) <= 2 ^ w * (Z.of_nat (length s) + 1) -> lut_at N v j = val) ->
       phase w (glwe_key_into_lwe_key key) lo = (val + e) mod 2 ^ w) /\
    forall out lut_buffer bufs, length out = S (k * N) -> glwe_wf w k N lut_buffer -> bufs_for q L psi k bufs -> exists lut' bufs',
      ntt_bootstrap p W q w N (S k) b FB out lwe (repeat (repeat 0 N) k ++ [v]) lut_buffer bufs = Ret (lo, lut', bufs') /\
      glwe_wf w k N lut' /\ bufs_for q L psi k bufs'.
Proof.
  intros Hs Hb Ho Hnt. pose proof Hw as Hw'. destruct (C29_ntt_bootstrap bsk s outs nt Hs Hb Ho Hnt) as (FB & nt' & E0 & Hnt' & Hboot).
  exists FB, nt'. split; [exact E0|]. split; [exact Hnt'|]. intros v lwe Hl Hv.
  assert (Hlut : glwe_wf w k N (repeat (repeat 0 N) k ++ [v])).
  { apply glwe_wf_snoc. split; [apply repeat_length|]. split; [|exact Hv]. apply Forall_forall. intros x Hx. apply repeat_spec in Hx. subst x.
    apply zero_poly_wf. lia. }
  destruct (Hboot _ lwe Hl Hlut) as (lo & e & Wl & He & Hp & Hrun).
  assert (Hp' : phase w (glwe_key_into_lwe_key key) lo = (lut_at N v (rot_exponent w N s lwe) + e) mod 2 ^ w).
  { rewrite Hp. rewrite <- (lut_at_ext N v _ HN).
    change (eqm (2 ^ w) (rcoef (rmul (rmono N (- rot_exponent w N s lwe)) (gphase N key (repeat (repeat 0 N) k ++ [v]))) 0 + e)
      (rcoef (R N v) (rot_exponent w N s lwe) + e)).
    rewrite (rmono_mul (2 ^ w) (- rot_exponent w N s lwe) _ 0). cbn [rcoef rshift proj1_sig].
    replace (0 - - rot_exponent w N s lwe) with (rot_exponent w N s lwe) by lia.
    pose proof (gphase_trivial N key v (2 ^ w) (rot_exponent w N s lwe)) as X. unfold rcoef in X |- *. rewrite X. reflexivity. }
  exists lo, e. split; [exact Wl|]. split; [exact He|]. split; [exact Hp'|]. split; [|exact Hrun].
  intros val Hval. rewrite Hp'. destruct (C28_exponent w N s lwe) as (t & Ht); [lia|exact Hl|exact Hs|].
  pose proof (lut_at_period N v (rot_exponent w N s lwe) t HN) as X.
  rewrite <- X, (Hval _ Ht). reflexivity.
Qed.
End Theorems.
Print Assumptions C26_ntt_external_product.
Print Assumptions C27_ntt_cmux.
Print Assumptions C29_ntt_blind_rotation.
Print Assumptions C29_ntt_bootstrap.
Print Assumptions C29_ntt_lookup.

(** The shipped moduli and tables meet the hypotheses of the theorems above, in every build, for all bases up to
    2^14 with 32-bit words and 2^47 with 64-bit words. *)
Theorem C29_ntt_shipped : forall t p k b, In t shipped -> 0 < b <= (if pr_w t =? 32 then 14 else 47) ->
  pr_W t = 2 * pr_w t /\ 1 < pr_q t < 2 ^ pr_w t /\ digits_fit (pr_w t) (pr_q t) b /\ size_ok p (pr_L t) /\ Z.of_nat (pr_L t) + 2 < pr_w t /\
  let nt := ntt_new (2 ^ pr_L t) (pr_L t) (pr_roots t) (pr_roots_inv t) (pr_n_inv t) in
  exists psi, transform_for (pr_q t) (pr_L t) psi nt /\ bufs_for (pr_q t) (pr_L t) psi k (NB nt (repeat 0 (S k * 2 ^ pr_L t))).
Proof.
  intros t p k b Ht Hb. destruct (C37_shipped_tables t Ht) as ((Hq & _) & EW & Hr & _).
  destruct (C37_shipped_transforms t p Ht) as (psi & Hpsi & _ & Hsz).
  split; [exact EW|]. split; [lia|]. 
  assert (Hc : (pr_w t = 32 /\ pr_q t = 4294828033 \/ pr_w t = 64 /\ pr_q t = 18446744073709436929) /\ (pr_L t <= 12)%nat).
  { clear - Ht. unfold shipped in Ht. cbn [In] in Ht.
    repeat (destruct Ht as [<-|Ht]; [cbn [pr_w pr_q pr_L]; (split; [first [left; split; reflexivity|right; split; reflexivity]|lia])|]). contradiction. }
  destruct Hc as [Hc HL]. split; [|split; [exact Hsz|split; [destruct Hc as [[-> _]|[-> _]]; lia|]]].
  - unfold digits_fit. destruct Hc as [[Ew Eq]|[Ew Eq]]; rewrite Ew, Eq in *; cbn [Z.eqb Pos.eqb] in Hb.
    + pose proof (Z.pow_le_mono_r 2 b 14 ltac:(lia) ltac:(lia)). change (2 ^ 14) with 16384 in *. change (2 ^ 32) with 4294967296. lia.
    + pose proof (Z.pow_le_mono_r 2 b 47 ltac:(lia) ltac:(lia)). change (2 ^ 47) with 140737488355328 in *. change (2 ^ 64) with 18446744073709551616. lia.
  - intros nt. exists psi. split; [exact Hpsi|]. split; [exact Hpsi|]. cbn [nb_rounded]. apply repeat_length.
Qed.
Print Assumptions C29_ntt_shipped.

(** A concrete bootstrap with the shipped 32-bit modulus and the first 4 of its roots: N = 4 (an optimized build, the
    checked build only accepts the shipped sizes), the key, input and LUT of C29_case. *)
Definition case_nt : ntt := ntt_new 4 2 (firstn 4 ROOTS_32_4096) (firstn 4 INVROOTS_32_4096) 3221121025.
Definition case_outs : list (list (list (list Z))) := repeat (repeat (repeat (repeat 7 4) 2) 2) 3.
Lemma case_transform : exists psi, transform_for MOD_32_4096 2 psi case_nt.
Proof.
  destruct (shipped_32 2 (firstn (2 ^ 2) ROOTS_32_4096) (firstn (2 ^ 2) INVROOTS_32_4096) 3221121025) as (psi & H); try reflexivity; [lia|unfold residue; vm_compute; split; congruence|].
  exists psi. split; [reflexivity|]. split; [reflexivity|exact H].
Qed.
Definition case_run : outcome (list Z) :=
  let! (FB, _) := bsk_forward_ntt Release 64 MOD_32_4096 32 case_nt (repeat case_outs 3) demo_bsk in
  let! (out, _, _) := ntt_bootstrap Release 64 MOD_32_4096 32 4 2 6 FB (repeat 0 5) demo_lwe (repeat (repeat 0 4) 1 ++ [demo_lut]) (repeat (repeat 0 4) 2)
    (NB case_nt (repeat 9 8)) in Ret out.
Example C29_ntt_case : digits_fit 32 MOD_32_4096 6 /\ size_ok Release 2 /\ 1 < MOD_32_4096 < 2 ^ 32 /\
  ntt_shape 2 1 3 case_outs /\ (exists psi, transform_for MOD_32_4096 2 psi case_nt /\ bufs_for MOD_32_4096 2 psi 1 (NB case_nt (repeat 9 8))) /\
  ntt_error 32 MOD_32_4096 4 6 6 = 384 /\
  exists out, case_run = Ret out /\ torus_dist 32 (phase 32 (glwe_key_into_lwe_key [[1; 0; 1; 1]]) out) (2 * 2 ^ 28) < 2 ^ 26.
Proof.
  split; [vm_compute; reflexivity|]. split; [left; reflexivity|]. split; [vm_compute; split; reflexivity|].
  split; [split; [reflexivity|]; repeat constructor|]. split.
  { destruct case_transform as (psi & H). exists psi. split; [exact H|]. split; [exact H|reflexivity]. }
  split; [vm_compute; reflexivity|].
  eexists. split; [vm_compute; reflexivity|vm_compute; reflexivity].
Qed.
