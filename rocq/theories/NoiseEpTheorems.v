(** * C67: the noise estimate of the external product, against the code *)
From Verif Require Import Base Word WordFacts NegaRing PolySpec RingSum DecompModel DecompProofs ExtProdModel ExtProdSpec ExtProdProofs ExtProdTheorems LweSpec LweProofs GlweSpec GlweModel GgswSpec
  KeyswitchModel KeyswitchSpec KeyswitchProofs KeyswitchTheorems PackingProofs GswTheorems
  NoiseSpec NoiseFacts NoiseDigitFacts NoiseModel NoiseKeyFacts NoiseTheorems NoiseKeyTheorems NoiseKsFacts NoiseKsTheorems NoisePackTheorems.
From Coq Require Import Reals Lra Lia.
Notation column := (Z * (Z * list Z))%type.
Notation blank := (0, (0, @nil Z))%Z.

(** In the product of two polynomials modulo X^N + 1, the coefficient of index c is the sum over i of zsign c i * a_i * b_(partner N c i). *)
Definition zsign (c i : nat) : Z := if Nat.leb i c then 1 else -1.
Lemma poly_coef N (a s : list Z) c : (c < N)%nat ->
  rcoef (rmul (NegaRing.R N a) (NegaRing.R N s)) (Z.of_nat c) = zsum N (fun i => nth i a 0 * (zsign c i * nth (partner N c i) s 0)).
Proof.
  intros Hc. unfold zsum. change (rcoef (rmul (NegaRing.R N a) (NegaRing.R N s)) (Z.of_nat c)) with (sumz N (fun i => rcoef (NegaRing.R N a) i * rcoef (NegaRing.R N s) (Z.of_nat c - i))).
  apply sumz_ext. intros i Hi. rewrite rcoef_R by assumption. unfold coef at 1. f_equal. unfold zsign, partner. destruct (Nat.leb_spec (Z.to_nat i) c).
  - rewrite rcoef_R by lia. unfold coef. replace (Z.to_nat (Z.of_nat c - i)) with (c - Z.to_nat i)%nat by lia. ring.
  - pose proof (rcoef_anti (NegaRing.R N s) (Z.of_nat c - i)) as E. rewrite rcoef_R in E by lia. unfold coef in E.
    replace (Z.to_nat (Z.of_nat c - i + Z.of_nat N)) with (c + N - Z.to_nat i)%nat in E by lia. lia.
Qed.

Section Code.
Context (w b : Z) (l : nat) (Hd : dec_wf w (Dec b l)) (N : nat).
(** What one column adds to a coefficient: the rounding of its word times the coefficient of the key, and the digits of the word times the noises *)
Definition ep_column (r : Z) (x : column) : Z := - column_noise w b l (- r) x.
Lemma ep_column_eq r a s es : ep_column r (a, (s, es)) = r * (lost w b l a * s) + zsum l (fun j => sdigit w (Dec b l) (l - 1 - j) a * nth j es 0).
Proof. unfold ep_column, column_noise. cbn [fst snd]. ring. Qed.
Definition ep_mask_noise (r : Z) (c : nat) (cols : list column) : Z := zsum N (fun i => zsign c i * ep_column r (nth i cols blank)).
Definition ep_body_noise (r : Z) (c : nat) (cols : list column) : Z := zsum N (fun i => zsign c i * ep_column (if Nat.eqb i c then r else 0) (nth i cols blank)).
Definition ep_noise (r : Z) (c : nat) (o : list column * list (list column)) : Z :=
  ep_body_noise r c (fst o) + fold_right (fun cols z => ep_mask_noise r c cols + z) 0 (snd o).

(** The columns of coefficient c: column i of polynomial u holds the word of index i of polynomial u of the ciphertext, and the coefficients which it meets: of the
    polynomial u of the key, and of the noises of the rows u of the GGSW ciphertext. *)
Definition drawn (k c : nat) (ct key : list (list Z)) (noise : nat -> nat -> list Z) (body : list column) (mask : list (list column)) : Prop :=
  (forall u i, (u < k)%nat -> (i < N)%nat -> let col := nth i (nth u mask []) blank in
     nth i (nth u ct []) 0 = fst col /\ nth (partner N c i) (nth u key []) 0 = fst (snd col) /\
     forall j, (j < l)%nat -> nth (partner N c i) (noise (S j) u) 0 = nth j (snd (snd col)) 0) /\
  (forall i, (i < N)%nat -> let col := nth i body blank in
     nth i (nth k ct []) 0 = fst col /\ forall j, (j < l)%nat -> nth (partner N c i) (noise (S j) k) 0 = nth j (snd (snd col)) 0).

Lemma zsum_fold {A} (f : A -> Z) d (xs : list A) : fold_right (fun x z => f x + z) 0 xs = zsum (length xs) (fun i => f (nth i xs d)).
Proof. induction xs as [|x xs IH]; [reflexivity|]. cbn [fold_right length]. rewrite zsum_S_l, IH. reflexivity. Qed.
Lemma zsum_sub n f g : zsum n (fun i => f i - g i) = zsum n f - zsum n g.
Proof. induction n as [|n IH]; [reflexivity|]. rewrite !zsum_S, IH. ring. Qed.
Lemma nth_word k ct u i : glwe_wf w k N ct -> (u <= k)%nat -> (i < N)%nat -> is_word w (nth i (nth u ct []) 0).
Proof.
  intros [Hl Hf] Hu Hi. rewrite Forall_forall in Hf. destruct (Hf (nth u ct [])) as [H1 H2]; [apply nth_In; lia|]. rewrite Forall_forall in H2. apply H2, nth_In. lia.
Qed.
Lemma ep_coef p B T k c key (bit : Z) noise out G ct body mask : (c < N)%nat -> length key = k -> length mask = k -> Forall (fun x => length x = N) key ->
  glwe_wf w k N out -> glwe_wf w k N ct -> ggsw_wf w k N l G -> ggsw_encrypts w b N key bit noise G -> (forall j u, length (noise j u) = N) ->
  backend_ok w N b T 0 B -> (l * S k <= T)%nat -> drawn k c ct key noise body mask -> (forall i, (i < N)%nat -> fst (snd (nth i body blank)) = -1) ->
  exists out', external_product p w B N b out (fill_with_forward_fourier B G) ct = Ret out' /\ glwe_wf w k N out' /\
    eqm (2 ^ w) (rcoef (gphase N key out') (Z.of_nat c))
      (rcoef (gphase N key out) (Z.of_nat c) + bit * rcoef (gphase N key ct) (Z.of_nat c) + ep_noise bit c (body, mask)).
Proof.
  intros Hc Hk Hlm Hkl Ho Hct HG Henc Hnl HB HT [Hm Hb] Hb1. assert (HN : (0 < N)%nat) by lia. set (d := Dec b l) in *.
  destruct (ep_phase w N d k key bit noise (bk_run B) T 0 out G ct Hd Hk Ho Hct HG Henc HB HT) as [Hwf (err & He & Hr)].
  eexists. split; [apply (external_product_run p w B N k d out G ct); assumption|]. split; [exact Hwf|]. rewrite (Hr (Z.of_nat c)). clear Hr Hwf.
  assert (Eerr : err = repeat (repeat 0 N) (S k)).
  { destruct He as [L1 F]. clear - L1 F. rewrite <- L1. clear L1. induction F as [|x xs [Hx Fx] _ IH]; [reflexivity|]. cbn [length repeat]. f_equal; [|exact IH].
    rewrite <- Hx. clear Hx. induction Fx as [|y ys Hy _ IHy]; [reflexivity|]. cbn [length repeat]. f_equal; [lia|exact IHy]. }
  subst err.
  match goal with |- eqm _ (rcoef (radd (radd (radd ?a (rscal _ ?q)) ?n) ?z) _) _ =>
    change (rcoef (radd (radd (radd a (rscal bit q)) n) z) (Z.of_nat c)) with (rcoef a (Z.of_nat c) + bit * rcoef q (Z.of_nat c) + rcoef n (Z.of_nat c) + rcoef z (Z.of_nat c)) end.
  rewrite (gphase_zero_glwe w N k key Hk (Z.of_nat c)). change (rcoef (rzero N) (Z.of_nat c)) with 0.
  pose proof Hct as [Hcl Hcf].
  rewrite (gphase_rsum N (2 ^ w) k key ct Hk Hcl (Z.of_nat c)).
  rewrite (gphase_rsum N (2 ^ w) k key (map (map (closest_representable w d)) ct) Hk ltac:(rewrite map_length; exact Hcl) (Z.of_nat c)).
  match goal with |- context [rcoef (rsub (NegaRing.R N (nth k ct [])) ?q) (Z.of_nat c)] =>
    change (rcoef (rsub (NegaRing.R N (nth k ct [])) q) (Z.of_nat c)) with (rcoef (NegaRing.R N (nth k ct [])) (Z.of_nat c) - rcoef q (Z.of_nat c)) end.
  match goal with |- context [rcoef (rsub (NegaRing.R N (nth k (map _ ct) [])) ?q) (Z.of_nat c)] =>
    change (rcoef (rsub (NegaRing.R N (nth k (map (map (closest_representable w d)) ct) [])) q) (Z.of_nat c))
      with (rcoef (NegaRing.R N (nth k (map (map (closest_representable w d)) ct) [])) (Z.of_nat c) - rcoef q (Z.of_nat c)) end.
  rewrite !rcoef_R by lia. unfold coef. rewrite Nat2Z.id. rewrite !PackingProofs.rcoef_rsum.
  assert (Hcm : forall u i, (u <= k)%nat -> (i < N)%nat -> nth i (nth u (map (map (closest_representable w d)) ct) []) 0 = closest_representable w d (nth i (nth u ct []) 0)).
  { intros u i Hu Hi. rewrite (map0_nth _ ct u [] []) by lia. rewrite (map0_nth _ _ i 0 0); [reflexivity|].
    rewrite Forall_forall in Hcf. destruct (Hcf (nth u ct [])) as [-> _]; [apply nth_In; lia|assumption]. }
  rewrite (Hcm k c ltac:(lia) Hc).
  rewrite (zsum_ext k (fun i => rcoef (rmul (NegaRing.R N (nth i (map (map (closest_representable w d)) ct) [])) (NegaRing.R N (nth i key []))) (Z.of_nat c))
    (fun u => zsum N (fun i => closest_representable w d (fst (nth i (nth u mask []) blank)) * (zsign c i * fst (snd (nth i (nth u mask []) blank)))))).
  2:{ intros u Hu. rewrite poly_coef by assumption. apply zsum_ext. intros i Hi. rewrite Hcm by lia. destruct (Hm u i Hu Hi) as (-> & -> & _). reflexivity. }
  rewrite (zsum_ext k (fun i => rcoef (rmul (NegaRing.R N (nth i ct [])) (NegaRing.R N (nth i key []))) (Z.of_nat c))
    (fun u => zsum N (fun i => fst (nth i (nth u mask []) blank) * (zsign c i * fst (snd (nth i (nth u mask []) blank)))))).
  2:{ intros u Hu. rewrite poly_coef by assumption. apply zsum_ext. intros i Hi. destruct (Hm u i Hu Hi) as (-> & -> & _). reflexivity. }
  unfold digit_noise. rewrite PackingProofs.rcoef_rsum. change (level_count d) with l.
  set (dig := fun (col : column) => zsum l (fun j => sdigit w d (l - 1 - j) (fst col) * nth j (snd (snd col)) 0)).
  assert (Hdig : zsum l (fun j => rcoef (RingSum.rsum (S k) (fun u => rmul (NegaRing.R N (ct_digit w d ct j u)) (NegaRing.R N (noise (S j) u)))) (Z.of_nat c)) =
    zsum k (fun u => zsum N (fun i => zsign c i * dig (nth i (nth u mask []) blank))) + zsum N (fun i => zsign c i * dig (nth i body blank))).
  { rewrite (zsum_ext l _ (fun j => zsum k (fun u => zsum N (fun i => zsign c i * (sdigit w d (l - 1 - j) (fst (nth i (nth u mask []) blank)) * nth j (snd (snd (nth i (nth u mask []) blank))) 0)))
       + zsum N (fun i => zsign c i * (sdigit w d (l - 1 - j) (fst (nth i body blank)) * nth j (snd (snd (nth i body blank))) 0)))).
    - rewrite zsum_add. f_equal.
      + rewrite zsum_swap. apply zsum_ext. intros u Hu. rewrite zsum_swap. apply zsum_ext. intros i Hi. unfold dig. rewrite <- zsum_mul_l. reflexivity.
      + rewrite zsum_swap. apply zsum_ext. intros i Hi. unfold dig. rewrite <- zsum_mul_l. reflexivity.
    - intros j Hj. rewrite PackingProofs.rcoef_rsum, zsum_S.
      assert (Hcd : forall u i, (u <= k)%nat -> (i < N)%nat -> nth i (ct_digit w d ct j u) 0 = sdigit w d (l - 1 - j) (nth i (nth u ct []) 0)).
      { intros u i Hu Hi. unfold ct_digit. change (level_count d) with l. rewrite (map0_nth _ _ i 0 0); [reflexivity|].
        rewrite Forall_forall in Hcf. destruct (Hcf (nth u ct [])) as [-> _]; [apply nth_In; lia|assumption]. }
      f_equal.
      + apply zsum_ext. intros u Hu. rewrite poly_coef by assumption. apply zsum_ext. intros i Hi. rewrite Hcd by lia. destruct (Hm u i Hu Hi) as (-> & _ & E). rewrite (E j Hj). ring.
      + rewrite poly_coef by assumption. apply zsum_ext. intros i Hi. rewrite Hcd by lia. destruct (Hb i Hi) as (-> & E). rewrite (E j Hj). ring. }
  rewrite Hdig. clear Hdig.
  assert (Hep : forall r col, ep_column r col = r * (lost w b l (fst col) * fst (snd col)) + dig col) by (intros r [a [s es]]; apply ep_column_eq).
  unfold ep_noise. cbn [fst snd]. rewrite (zsum_fold _ []), Hlm.
  assert (Hbody : ep_body_noise bit c body = - (bit * lost w b l (nth c (nth k ct []) 0)) + zsum N (fun i => zsign c i * dig (nth i body blank))).
  { unfold ep_body_noise. rewrite (zsum_ext N _ (fun i => (if Nat.eqb c i then - (bit * lost w b l (nth i (nth k ct []) 0)) else 0) + zsign c i * dig (nth i body blank))).
    - rewrite zsum_add. f_equal. rewrite (PackingTheorems.zsum_pick N (fun i => - (bit * lost w b l (nth i (nth k ct []) 0))) c). destruct (Nat.ltb_spec c N); [reflexivity|lia].
    - intros i Hi. rewrite Hep, (Hb1 i Hi). destruct (Hb i Hi) as [Hw1 _]. cbn zeta in Hw1. rewrite Hw1. rewrite (Nat.eqb_sym c i). destruct (Nat.eqb_spec i c) as [->|].
      + unfold zsign. rewrite Nat.leb_refl. ring.
      + ring. }
  rewrite Hbody. pose proof (lost_spec w b l Hd (nth c (nth k ct []) 0) (nth_word k ct k c Hct (le_n k) Hc)) as Lb. fold d in Lb.
  assert (Hmask : eqm (2 ^ w) (zsum k (fun u => ep_mask_noise bit c (nth u mask [])))
    (bit * (zsum k (fun u => zsum N (fun i => fst (nth i (nth u mask []) blank) * (zsign c i * fst (snd (nth i (nth u mask []) blank)))))
       - zsum k (fun u => zsum N (fun i => closest_representable w d (fst (nth i (nth u mask []) blank)) * (zsign c i * fst (snd (nth i (nth u mask []) blank))))))
     + zsum k (fun u => zsum N (fun i => zsign c i * dig (nth i (nth u mask []) blank))))).
  { rewrite <- zsum_sub, <- zsum_mul_l, <- zsum_add. apply zsum_eqm. intros u Hu. unfold ep_mask_noise. rewrite <- zsum_sub, <- zsum_mul_l, <- zsum_add. apply zsum_eqm. intros i Hi.
    rewrite Hep. destruct (Hm u i Hu Hi) as (Hw1 & _). cbn zeta in Hw1. rewrite <- (lost_spec w b l Hd (fst (nth i (nth u mask []) blank))).
    - fold d. apply eqm_eq. ring.
    - rewrite <- Hw1. apply (nth_word k); [assumption|lia|assumption]. }
  rewrite Hmask, <- Lb. apply eqm_eq. ring.
Qed.
End Code.

Local Open Scope R_scope.
Lemma nsum_S_l n f : nsum (S n) f = f 0%nat + nsum n (fun i => f (S i)).
Proof. unfold nsum. cbn [seq rsum]. rewrite <- seq_shift, rsum_map. reflexivity. Qed.
(** The sum of [n] independent values, each one through a function of its own *)
Lemma samples_idx {A} (D : list A) d n : D <> [] -> forall f : nat -> A -> R,
  mean (samples n D) (fun s => nsum n (fun i => f i (nth i s d))) = nsum n (fun i => mean D (f i)) /\
  variance (samples n D) (fun s => nsum n (fun i => f i (nth i s d))) = nsum n (fun i => variance D (f i)).
Proof.
  intros H. induction n as [|n IH]; intros f.
  - cbn [samples]. unfold variance, mean, nsum. cbn. unfold Rdiv. rewrite Rinv_1. split; ring.
  - destruct (IH (fun i => f (S i))) as [M V]. pose proof (samples_nil n D H) as Hn. cbn [samples]. rewrite mean_map, variance_map.
    rewrite (mean_ext _ _ (fun o => f 0%nat (fst o) + nsum n (fun i => f (S i) (nth i (snd o) d)))) by (intros [a s] _; apply nsum_S_l).
    rewrite (variance_ext _ _ (fun o => f 0%nat (fst o) + nsum n (fun i => f (S i) (nth i (snd o) d)))) by (intros [a s] _; apply nsum_S_l).
    rewrite (mean_indep_add D (samples n D) (f 0%nat) (fun s => nsum n (fun i => f (S i) (nth i s d))) H Hn).
    rewrite (variance_indep D (samples n D) (f 0%nat) (fun s => nsum n (fun i => f (S i) (nth i s d))) H Hn). rewrite M, V, !nsum_S_l. split; reflexivity.
Qed.
(** A random bit decides between two noises. *)
Lemma bit_stats {A B} (D : list A) (Q : list B) (f : Z -> A -> R) (g : Z -> B -> R) : D <> [] -> Q <> [] ->
  let mu r := mean D (f r) + mean Q (g r) in let V r := variance D (f r) + variance Q (g r) in
  let space := list_prod [0; 1]%Z (list_prod D Q) in
  mean space (fun o => f (fst o) (fst (snd o)) + g (fst o) (snd (snd o))) = (mu 0%Z + mu 1%Z) / 2 /\
  variance space (fun o => f (fst o) (fst (snd o)) + g (fst o) (snd (snd o))) = (V 0%Z + V 1%Z) / 2 + (mu 1%Z - mu 0%Z) ^ 2 / 4.
Proof.
  intros HD HQ mu V space. pose proof (list_prod_nil D Q HD HQ) as HP.
  assert (M : mean space (fun o => f (fst o) (fst (snd o)) + g (fst o) (snd (snd o))) = (mu 0%Z + mu 1%Z) / 2).
  { unfold space. rewrite mean_prod. cbn [fst snd]. rewrite (mean_ext [0; 1]%Z _ mu) by (intros r _; apply (mean_indep_add D Q (f r) (g r) HD HQ)). unfold mean at 1. cbn [rsum length INR]. field. }
  split; [exact M|]. rewrite variance_moments by (apply list_prod_nil; [discriminate|assumption]). rewrite M. unfold space. rewrite mean_prod. cbn [fst snd].
  rewrite (mean_ext [0; 1]%Z _ (fun r => V r + mu r ^ 2)).
  2:{ intros r _. pose proof (variance_moments (list_prod D Q) (fun o => f r (fst o) + g r (snd o)) HP) as E.
      rewrite (mean_indep_add D Q (f r) (g r) HD HQ), (variance_indep D Q (f r) (g r) HD HQ) in E. unfold V, mu. lra. }
  unfold mean at 1. cbn [rsum length INR]. field.
Qed.
Lemma IZR_zsign c i : IZR (zsign c i) = NoiseKeyFacts.sign c i.
Proof. unfold zsign, NoiseKeyFacts.sign. destruct (Nat.leb i c); reflexivity. Qed.

Section Stats.
Context (w b : Z) (l : nat) (Hd : dec_wf w (Dec b l)) (N c : nat) (Hc : (c < N)%nat) (Dk Ds : list Z) (HDk : Dk <> []) (HDs : Ds <> []) (H0 : zmean Ds = 0).
Local Notation Delta := (2 ^ (w - b * Z.of_nat l))%Z.
Local Notation q := (variance (columns w l Dk Ds) (fun x => IZR (column_noise w b l 0 x))).
Lemma ep_column_stats D r i : D <> [] ->
  mean (columns w l D Ds) (fun x => IZR (zsign c i * ep_column w b l r x)) = NoiseKeyFacts.sign c i * (- (IZR r / 2) * zmean D) /\
  variance (columns w l D Ds) (fun x => IZR (zsign c i * ep_column w b l r x)) = IZR r ^ 2 * ((IZR Delta ^ 2 - 1) / 12 * (zvariance D + zmean D ^ 2) + zvariance D / 4) + q.
Proof.
  intros HD. destruct (column_stats w b l Hd (- r) D Ds HD HDs H0) as [M V].
  assert (E : forall x, IZR (zsign c i * ep_column w b l r x) = - NoiseKeyFacts.sign c i * IZR (column_noise w b l (- r) x)).
  { intros x. unfold ep_column. rewrite mult_IZR, opp_IZR, IZR_zsign. ring. }
  rewrite (mean_ext _ _ (fun x => - NoiseKeyFacts.sign c i * IZR (column_noise w b l (- r) x))) by (intros x _; apply E).
  rewrite (variance_ext _ _ (fun x => - NoiseKeyFacts.sign c i * IZR (column_noise w b l (- r) x))) by (intros x _; apply E).
  rewrite mean_scal, variance_scal, M, V. rewrite (proj2 (column_stats w b l Hd 0 Dk Ds HDk HDs H0)). rewrite opp_IZR.
  pose proof (NoiseKeyFacts.sign_sq c i) as Hs. pose proof (zvariance_moments D HD) as Hm.
  replace ((- NoiseKeyFacts.sign c i) ^ 2) with 1 by (rewrite <- Hs; ring). replace (moment 2 D) with (zvariance D + zmean D ^ 2) by lra. split; field.
Qed.
Lemma body_stats r :
  mean (samples N (columns w l [-1]%Z Ds)) (fun s => IZR (ep_body_noise w b l N r c s)) = IZR r / 2 /\
  variance (samples N (columns w l [-1]%Z Ds)) (fun s => IZR (ep_body_noise w b l N r c s)) = IZR r ^ 2 * ((IZR Delta ^ 2 - 1) / 12) + INR N * q.
Proof.
  assert (H1 : [-1]%Z <> []) by discriminate. pose proof (columns_nil w b l Hd _ Ds H1 HDs) as Hn.
  set (ri := fun i => if Nat.eqb i c then r else 0%Z). set (f := fun i (x : column) => IZR (zsign c i * ep_column w b l (ri i) x)).
  assert (E : forall s, IZR (ep_body_noise w b l N r c s) = nsum N (fun i => f i (nth i s blank))) by (intros s; unfold ep_body_noise; apply IZR_zsum).
  rewrite (mean_ext _ _ (fun s => nsum N (fun i => f i (nth i s blank)))) by (intros s _; apply E).
  rewrite (variance_ext _ _ (fun s => nsum N (fun i => f i (nth i s blank)))) by (intros s _; apply E).
  destruct (samples_idx _ blank N Hn f) as [-> ->].
  assert (Z1 : zvariance [-1]%Z = 0) by (unfold zvariance, variance, mean; cbn; lra). assert (Z2 : zmean [-1]%Z = -1) by (unfold zmean, mean; cbn; lra).
  assert (G : forall i, mean (columns w l [-1]%Z Ds) (f i) = (if Nat.eqb i c then IZR r / 2 else 0) /\
     variance (columns w l [-1]%Z Ds) (f i) = (if Nat.eqb i c then IZR r ^ 2 * ((IZR Delta ^ 2 - 1) / 12) else 0) + q).
  { intros i. destruct (ep_column_stats [-1]%Z (ri i) i H1) as [M V]. rewrite Z1, Z2 in V. rewrite Z2 in M. unfold f. rewrite M, V. unfold ri. destruct (Nat.eqb_spec i c) as [->|]; [|split; lra].
    unfold NoiseKeyFacts.sign. rewrite Nat.leb_refl. split; field. }
  rewrite (nsum_ext N _ (fun i => if Nat.eqb i c then IZR r / 2 else 0)) by (intros i _; apply G).
  rewrite (nsum_ext N (fun i => variance _ (f i)) (fun i => (if Nat.eqb i c then IZR r ^ 2 * ((IZR Delta ^ 2 - 1) / 12) else 0) + q)) by (intros i _; apply G).
  rewrite nsum_add, nsum_const. rewrite !(nsum_single N _ c Hc) by (intros i _ Hi; apply Nat.eqb_neq in Hi; rewrite Hi; reflexivity). rewrite Nat.eqb_refl. split; reflexivity.
Qed.
Lemma mask_stats r :
  mean (samples N (columns w l Dk Ds)) (fun s => IZR (ep_mask_noise w b l N r c s)) = - (IZR r / 2) * (2 * INR c + 2 - INR N) * zmean Dk /\
  variance (samples N (columns w l Dk Ds)) (fun s => IZR (ep_mask_noise w b l N r c s)) =
    INR N * (IZR r ^ 2 * ((IZR Delta ^ 2 - 1) / 12 * (zvariance Dk + zmean Dk ^ 2) + zvariance Dk / 4) + q).
Proof.
  pose proof (columns_nil w b l Hd _ Ds HDk HDs) as Hn. set (f := fun i (x : column) => IZR (zsign c i * ep_column w b l r x)).
  assert (E : forall s, IZR (ep_mask_noise w b l N r c s) = nsum N (fun i => f i (nth i s blank))) by (intros s; unfold ep_mask_noise; apply IZR_zsum).
  rewrite (mean_ext _ _ (fun s => nsum N (fun i => f i (nth i s blank)))) by (intros s _; apply E).
  rewrite (variance_ext _ _ (fun s => nsum N (fun i => f i (nth i s blank)))) by (intros s _; apply E).
  destruct (samples_idx _ blank N Hn f) as [-> ->].
  rewrite (nsum_ext N _ (fun i => (- (IZR r / 2) * zmean Dk) * NoiseKeyFacts.sign c i)) by (intros i _; unfold f; rewrite (proj1 (ep_column_stats Dk r i HDk)); ring).
  rewrite (nsum_ext N (fun i => variance _ (f i)) (fun _ => IZR r ^ 2 * ((IZR Delta ^ 2 - 1) / 12 * (zvariance Dk + zmean Dk ^ 2) + zvariance Dk / 4) + q)) by (intros i _; apply (ep_column_stats Dk r i HDk)).
  rewrite nsum_const, nsum_scal, nsum_sign by exact Hc. split; ring.
Qed.
Definition ep_columns (k : nat) : list (list column * list (list column)) := list_prod (samples N (columns w l [-1]%Z Ds)) (samples k (samples N (columns w l Dk Ds))).
Lemma ep_columns_nil k : ep_columns k <> [].
Proof.
  apply list_prod_nil; [apply samples_nil, (columns_nil w b l Hd); [discriminate|assumption]|apply samples_nil, samples_nil, (columns_nil w b l Hd); assumption].
Qed.
Lemma ep_stats k r :
  mean (ep_columns k) (fun o => IZR (ep_noise w b l N r c o)) = IZR r / 2 * (1 - INR k * (2 * INR c + 2 - INR N) * zmean Dk) /\
  variance (ep_columns k) (fun o => IZR (ep_noise w b l N r c o)) =
    IZR r ^ 2 * ((IZR Delta ^ 2 - 1) / 12 * (1 + INR k * INR N * (zvariance Dk + zmean Dk ^ 2)) + INR k * INR N * zvariance Dk / 4) + (INR k + 1) * INR N * q.
Proof.
  pose proof (samples_nil N _ (columns_nil w b l Hd [-1]%Z Ds ltac:(discriminate) HDs)) as Hb. pose proof (samples_nil N _ (columns_nil w b l Hd _ Ds HDk HDs)) as Hm1.
  pose proof (samples_nil k _ Hm1) as Hm.
  assert (E : forall o, IZR (ep_noise w b l N r c o) = IZR (ep_body_noise w b l N r c (fst o)) + rsum (snd o) (fun s => IZR (ep_mask_noise w b l N r c s))).
  { intros [body mask]. unfold ep_noise. cbn [fst snd]. rewrite plus_IZR. f_equal. induction mask as [|s mask IH]; [reflexivity|]. cbn [fold_right rsum]. rewrite plus_IZR, IH. reflexivity. }
  rewrite (mean_ext _ _ (fun o => IZR (ep_body_noise w b l N r c (fst o)) + rsum (snd o) (fun s => IZR (ep_mask_noise w b l N r c s)))) by (intros o _; apply E).
  rewrite (variance_ext _ _ (fun o => IZR (ep_body_noise w b l N r c (fst o)) + rsum (snd o) (fun s => IZR (ep_mask_noise w b l N r c s)))) by (intros o _; apply E).
  unfold ep_columns.
  rewrite (mean_indep_add _ _ (fun s => IZR (ep_body_noise w b l N r c s)) (fun m => rsum m (fun s => IZR (ep_mask_noise w b l N r c s))) Hb Hm).
  rewrite (variance_indep _ _ (fun s => IZR (ep_body_noise w b l N r c s)) (fun m => rsum m (fun s => IZR (ep_mask_noise w b l N r c s))) Hb Hm).
  destruct (samples_sum k _ (fun s => IZR (ep_mask_noise w b l N r c s)) Hm1) as [-> ->]. destruct (body_stats r) as [-> ->]. destruct (mask_stats r) as [-> ->]. split; field.
Qed.
Lemma digits_bounds : let digits := INR l * zvariance Ds * ((IZR (2 ^ b) ^ 2 + 2) / 12) in
  digits - INR (l - 1) * zvariance Ds * (IZR (2 ^ b) / 4) <= q <= digits.
Proof. intros digits. destruct (column_variance w b l Hd 0 Dk Ds HDk HDs H0) as [B1 B2]. unfold digits. clear - B1 B2. split; lra. Qed.
End Stats.

Lemma estimate_ep_value w b l (Hd : dec_wf w (Dec b l)) K N k d_glwe d_ggsw : valid d_glwe -> valid d_ggsw ->
  let m := get_modular_variance in
  let var_key := m (variance_key_coefficient K w) w in let mean_key := expectation_key_coefficient K in
  0 <= var_key ->
  m (estimate_external_product_noise_with_binary_ggsw K N k d_glwe d_ggsw b l w) w =
    m d_glwe w / 2 + ((IZR (2 ^ (w - b * Z.of_nat l)) ^ 2 - 1) / 12 * (1 + INR k * INR N * (var_key + mean_key ^ 2)) + INR k * INR N * var_key / 4) / 2 +
    (INR k + 1) * INR N * (INR l * m d_ggsw w * ((IZR (2 ^ b) ^ 2 + 2) / 12)) + (1 - INR k * INR N * mean_key) ^ 2 / 16 /\
  valid (estimate_external_product_noise_with_binary_ggsw K N k d_glwe d_ggsw b l w).
Proof.
  intros V1 V2 m var_key mean_key Hv. unfold estimate_external_product_noise_with_binary_ggsw. cbn zeta. fold m. fold var_key. fold mean_key. unfold square.
  destruct (ks_params w b l Hd) as (Hb & Hl & Hn & EH & Hh & Ew & HP). set (D := IZR (2 ^ (w - b * Z.of_nat l))).
  assert (EB : powi2 b = IZR (2 ^ b)) by (apply powi2_Z; lia).
  assert (ED : powi2 (2 * w) = powi2 (b * 2 * Z.of_nat l) * D ^ 2).
  { replace (2 * w)%Z with (b * 2 * Z.of_nat l + 2 * (w - b * Z.of_nat l))%Z by ring. rewrite powi2_plus. f_equal. rewrite powi2_twice. f_equal. apply powi2_Z. lia. }
  rewrite ED, EB. pose proof (powi2_pos (b * 2 * Z.of_nat l)) as Hp. pose proof (pos_INR N) as Hn0. pose proof (pos_INR l) as Hl0. pose proof (pos_INR k) as Hk0.
  assert (HD1 : 1 <= D) by (apply IZR_le; pose proof (pow2_pos (w - b * Z.of_nat l) ltac:(lia)); lia).
  pose proof (valid_modular_nonneg d_glwe w V1) as N1. pose proof (valid_modular_nonneg d_ggsw w V2) as N2. fold m in N1, N2.
  replace ((powi2 (b * 2 * Z.of_nat l) * D ^ 2 - powi2 (b * 2 * Z.of_nat l)) / (24 * powi2 (b * 2 * Z.of_nat l))) with ((D ^ 2 - 1) / 24) by (field; lra).
  assert (HkN : 0 <= INR k * INR N) by (apply Rmult_le_pos; assumption).
  match goal with |- m (from_modular_variance ?v w) w = _ /\ _ => assert (Hpos : 0 <= v) end.
  { assert (HDD : 0 <= (D ^ 2 - 1) / 24) by nra. pose proof (Rle_0_sqr mean_key) as Hq. pose proof (Rle_0_sqr (1 - INR k * INR N * mean_key)) as Hq1. pose proof (Rle_0_sqr (IZR (2 ^ b))) as Hq2.
    unfold Rsqr in Hq, Hq1, Hq2. repeat apply Rplus_le_le_0_compat.
    - unfold Rdiv. apply Rmult_le_pos; [|lra]. apply Rmult_le_pos; [|lra]. apply Rmult_le_pos; [|assumption]. apply Rmult_le_pos; [|assumption]. apply Rmult_le_pos; lra.
    - lra.
    - apply Rmult_le_pos; [assumption|]. apply Rplus_le_le_0_compat; [lra|]. apply Rmult_le_pos; lra.
    - apply Rmult_le_pos; [lra|assumption].
    - lra. }
  split; [|apply valid_from, Hpos]. unfold m at 1. rewrite modular_from by exact Hpos. unfold m. field.
Qed.

(** An external product with the GGSW ciphertext of a bit, and exact products of polynomials.  An outcome is the bit, the noise e of the coefficient c of the GLWE ciphertext, and
    the columns: those of the body, whose key coefficient is -1, and those of the k polynomials of the mask.  For every outcome, the coefficient c of the result is the one of the
    accumulator plus the bit times the message plus [noise]. *)
Definition ep_outcomes (w : Z) (l N k : nat) (De Dk Ds : list Z) : list (Z * (Z * (list column * list (list column)))) :=
  list_prod [0; 1]%Z (list_prod De (list_prod (samples N (columns w l [-1]%Z Ds)) (samples k (samples N (columns w l Dk Ds))))).
(** Column i of the body and of the polynomials of the mask hold the words, the key coefficients and the noises that meet in coefficient c: see [drawn]. *)
Definition external_product_adds (w b : Z) (l N k c : nat) (outcomes : list (Z * (Z * (list column * list (list column))))) (noise : Z * (Z * (list column * list (list column))) -> Z) : Prop :=
  forall p B T key E out G ct bit e body mask, In (bit, (e, (body, mask))) outcomes ->
    length key = k -> Forall (fun x => length x = N) key -> glwe_wf w k N out -> glwe_wf w k N ct ->
    ggsw_wf w k N l G -> ggsw_encrypts w b N key bit E G -> (forall j u, length (E j u) = N) ->
    backend_ok w N b T 0 B -> (l * S k <= T)%nat -> drawn l N k c ct key E body mask ->
    exists out', external_product p w B N b out (fill_with_forward_fourier B G) ct = Ret out' /\ glwe_wf w k N out' /\
      eqm (2 ^ w) (rcoef (gphase N key out') (Z.of_nat c))
        (rcoef (gphase N key out) (Z.of_nat c) + bit * (rcoef (gphase N key ct) (Z.of_nat c) - e) + noise (bit, (e, (body, mask))))%Z.
(** The variance follows the estimate, except for its last term.  The rounding moves the coefficient by (1 - k*(2c + 2 - N)*E)/2 on average when the bit is 1 (E is the mean of the key),
    and the estimate takes (1 - k*N*E)/2 for every c.  So the estimate is never too low when the key is centred, when k >= 2, or for the last coefficient, but with binary keys and k = 1
    it is too low by (N - 1)/16 at the coefficient 0: see [C67_external_product_refuted]. *)
Definition ep_bias (K : key_kind) (N k c : nat) : R :=
  ((1 - INR k * (2 * INR c + 2 - INR N) * expectation_key_coefficient K) ^ 2 - (1 - INR k * INR N * expectation_key_coefficient K) ^ 2) / 16.
Lemma ep_bias_sign K N k c : (c < N)%nat -> expectation_key_coefficient K = 0 \/ (2 <= k)%nat \/ c = (N - 1)%nat -> ep_bias K N k c <= 0.
Proof.
  intros Hc H. unfold ep_bias. assert (Hc1 : INR c + 1 <= INR N) by (rewrite <- S_INR; apply le_INR; lia). pose proof (pos_INR c) as Hc0.
  assert (HE : expectation_key_coefficient K = 0 \/ expectation_key_coefficient K = 1 / 2) by (destruct K; cbn; auto). destruct H as [-> | [Hk | ->]]; [lra| |].
  - apply le_INR in Hk. cbn in Hk. destruct HE as [-> | ->]; [lra|].
    set (t := 2 * INR c + 2 - INR N). assert (Ht : 2 - INR N <= t <= INR N) by (unfold t; lra). set (n := INR N) in *. set (kk := INR k) in *. clearbody t n kk.
    replace ((1 - kk * t * (1 / 2)) ^ 2 - (1 - kk * n * (1 / 2)) ^ 2) with (- (kk * (n - t) * (kk * (n + t) - 4)) / 4) by field.
    assert (Hkt : 0 <= kk * (n + t) - 4) by nra. assert (0 <= kk * (n - t)) by (apply Rmult_le_pos; lra). nra.
  - replace (INR (N - 1)) with (INR N - 1) by (rewrite minus_INR by lia; reflexivity). replace (2 * (INR N - 1) + 2 - INR N) with (INR N) by ring. lra.
Qed.
Lemma ep_bias_refuted N : ep_bias BinaryKeyKind N 1 0 = (INR N - 1) / 16.
Proof. unfold ep_bias. cbn. field. Qed.
Lemma drawn_body w l N k De Dk Ds r e body mask : In (r, (e, (body, mask))) (ep_outcomes w l N k De Dk Ds) ->
  length mask = k /\ (forall i, (i < N)%nat -> fst (snd (nth i body blank)) = (-1)%Z).
Proof.
  intros H. apply in_prod_iff in H. destruct H as [_ H]. apply in_prod_iff in H. destruct H as [_ H]. apply in_prod_iff in H. destruct H as [Hb Hm].
  split; [apply samples_length in Hm; exact Hm|]. intros i Hi. pose proof (samples_length _ _ _ Hb) as Hlen. apply samples_in in Hb. rewrite Forall_forall in Hb.
  assert (Hx : In (nth i body blank) body) by (apply nth_In; lia). apply Hb in Hx. destruct (nth i body blank) as [x [s es]]. apply in_prod_iff in Hx. destruct Hx as [_ Hx].
  apply in_prod_iff in Hx. destruct Hx as [[<-|[]] _]. reflexivity.
Qed.
(** What the columns add, averaged: the variance of a noise made of the columns and of the input noise [f] *)
Lemma bit_noise_variance {A} w b l (Hd : dec_wf w (Dec b l)) N k c K d_ggsw (De : list A) (f : Z -> A -> R) Dk Ds : (c < N)%nat -> De <> [] -> mean De (f 0%Z) = 0 -> mean De (f 1%Z) = 0 ->
  describes w d_ggsw Ds -> zmean Ds = 0 -> key_distribution K Dk -> forall d_glwe, valid d_glwe -> 
  let V := variance (list_prod [0; 1]%Z (list_prod De (ep_columns w l N Dk Ds k))) (fun o => f (fst o) (fst (snd o)) + IZR (ep_noise w b l N (fst o) c (snd (snd o)))) in
  let estimate := get_modular_variance (estimate_external_product_noise_with_binary_ggsw K N k d_glwe d_ggsw b l w) w
    + ((variance De (f 0%Z) + variance De (f 1%Z)) / 2 - get_modular_variance d_glwe w / 2) in
  estimate + ep_bias K N k c - (INR k + 1) * INR N * (INR (l - 1) * zvariance Ds * (IZR (2 ^ b) / 4)) <= V <= estimate + ep_bias K N k c.
Proof.
  intros Hc H1 Z0 Z1 (H2 & V2 & E2) H0 HK d_glwe V1 V estimate. destruct (key_kind_stats w K Dk HK) as (HDk & Ev & Em).
  pose proof (proj1 (estimate_ep_value w b l Hd K N k d_glwe d_ggsw V1 V2 ltac:(rewrite Ev; apply variance_nonneg))) as Hest. cbn zeta in Hest. rewrite E2, Ev, Em in Hest.
  pose proof (ep_columns_nil w b l Hd N Dk Ds HDk H2 k) as HQ.
  pose proof (proj2 (bit_stats De (ep_columns w l N Dk Ds k) f (fun r o => IZR (ep_noise w b l N r c o)) H1 HQ)) as HV. cbn zeta beta in HV. fold V in HV. rewrite Z0, Z1 in HV.
  destruct (ep_stats w b l Hd N c Hc Dk Ds HDk H2 H0 k 0) as [M0 S0]. destruct (ep_stats w b l Hd N c Hc Dk Ds HDk H2 H0 k 1) as [M1 S1]. rewrite M0, S0, M1, S1 in HV. clear M0 S0 M1 S1.
  destruct (digits_bounds w b l Hd Dk Ds HDk H2 H0) as [Q1 Q2]. unfold estimate, ep_bias. rewrite Em.
  set (q := variance (columns w l Dk Ds) _) in *.
  assert (HkN : 0 <= (INR k + 1) * INR N) by (apply Rmult_le_pos; [pose proof (pos_INR k); lra|apply pos_INR]).
  apply (Rmult_le_compat_l _ _ _ HkN) in Q1, Q2. rewrite HV, Hest. clear - Q1 Q2. split; lra.
Qed.
Theorem C67_external_product : forall w b l N k c K d_glwe d_ggsw De Dk Ds,
  dec_wf w (Dec b l) -> (c < N)%nat -> describes w d_glwe De -> zmean De = 0 -> describes w d_ggsw Ds -> zmean Ds = 0 -> key_distribution K Dk ->
  let estimate := get_modular_variance (estimate_external_product_noise_with_binary_ggsw K N k d_glwe d_ggsw b l w) w in
  let outcomes := ep_outcomes w l N k De Dk Ds in
  exists noise, external_product_adds w b l N k c outcomes noise /\
  let V := variance outcomes (fun o => IZR (noise o)) in
  estimate + ep_bias K N k c - (INR k + 1) * INR N * (INR (l - 1) * zvariance Ds * (IZR (2 ^ b) / 4)) <= V <= estimate + ep_bias K N k c /\
  (l = 1%nat -> V = estimate + ep_bias K N k c) /\
  (expectation_key_coefficient K = 0 \/ (2 <= k)%nat \/ c = (N - 1)%nat -> V <= estimate).
Proof.
  intros w b l N k c K d_glwe d_ggsw De Dk Ds Hd Hc (H1 & V1 & E1) Z1 HS H0 HK estimate outcomes.
  exists (fun o => fst o * fst (snd o) + ep_noise w b l N (fst o) c (snd (snd o)))%Z. split.
  - intros p B T key E out G ct bit e body mask Hin Hk Hkl Ho Hct HG Henc HE HB HT Hdr. destruct (drawn_body _ _ _ _ _ _ _ _ _ _ _ Hin) as [Hlm Hb1].
    destruct (ep_coef w b l Hd N p B T k c key bit E out G ct body mask Hc Hk Hlm Hkl Ho Hct HG Henc HE HB HT Hdr Hb1) as (out' & R1 & W1 & P1).
    exists out'. split; [exact R1|]. split; [exact W1|]. rewrite P1. cbn [fst snd]. apply eqm_eq. ring.
  - assert (M0 : mean De (fun e => IZR 0 * IZR e) = 0) by (rewrite mean_scal; ring).
    assert (M1 : mean De (fun e => IZR 1 * IZR e) = 0) by (rewrite (mean_scal De (IZR 1) IZR); unfold zmean in Z1; rewrite Z1; ring).
    pose proof (bit_noise_variance w b l Hd N k c K d_ggsw De (fun r e => IZR r * IZR e) Dk Ds Hc H1 M0 M1 HS H0 HK d_glwe V1) as [Hlow Hup].
    set (V := variance outcomes _). cbn zeta.
    assert (EV : V = variance (list_prod [0; 1]%Z (list_prod De (ep_columns w l N Dk Ds k))) (fun o => IZR (fst o) * IZR (fst (snd o)) + IZR (ep_noise w b l N (fst o) c (snd (snd o)))))
      by (apply variance_ext; intros o _; rewrite plus_IZR, mult_IZR; reflexivity).
    rewrite <- EV in Hlow, Hup. fold estimate in Hlow, Hup. rewrite (variance_scal De (IZR 0) IZR), (variance_scal De (IZR 1) IZR), E1 in Hlow, Hup. fold (zvariance De) in Hlow, Hup.
    replace (estimate + ((0 ^ 2 * zvariance De + 1 ^ 2 * zvariance De) / 2 - zvariance De / 2)) with estimate in Hlow, Hup by lra.
    split; [split; assumption|]. split.
    + intros ->. cbn [Nat.sub INR] in Hlow. rewrite !Rmult_0_l, Rmult_0_r, Rminus_0_r in Hlow. apply Rle_antisym; assumption.
    + intros Hs. pose proof (ep_bias_sign K N k c Hc Hs). lra.
Qed.
Print Assumptions C67_external_product.
Theorem C67_external_product_refuted : forall w b N d_glwe d_ggsw De Ds,
  dec_wf w (Dec b 1) -> (2 <= N)%nat -> describes w d_glwe De -> zmean De = 0 -> describes w d_ggsw Ds -> zmean Ds = 0 ->
  let estimate := get_modular_variance (estimate_external_product_noise_with_binary_ggsw BinaryKeyKind N 1 d_glwe d_ggsw b 1 w) w in
  let outcomes := ep_outcomes w 1 N 1 De [0; 1]%Z Ds in
  exists noise, external_product_adds w b 1 N 1 0 outcomes noise /\ variance outcomes (fun o => IZR (noise o)) = estimate + (INR N - 1) / 16 /\
    estimate < variance outcomes (fun o => IZR (noise o)).
Proof.
  intros w b N d_glwe d_ggsw De Ds Hd HN H1 Z1 H2 Z2 estimate outcomes.
  destruct (C67_external_product w b 1 N 1 0 BinaryKeyKind d_glwe d_ggsw De [0; 1]%Z Ds Hd ltac:(lia) H1 Z1 H2 Z2 eq_refl) as (noise & Ha & _ & HV & _). cbn zeta in HV. specialize (HV eq_refl).
  fold estimate in HV. fold outcomes in HV, Ha. rewrite ep_bias_refuted in HV. exists noise. split; [exact Ha|]. split; [exact HV|]. rewrite HV. apply le_INR in HN. cbn in HN. lra.
Qed.
Print Assumptions C67_external_product_refuted.

(** The cmux: the external product of the bit with the difference of the two ciphertexts, added to the first one.  The noise of the ciphertext that is not selected goes away with its
    message, so that the estimate counts the noise of the first ciphertext once too often. *)
Definition cmux_outcomes (w : Z) (l N k : nat) (De0 De1 Dk Ds : list Z) : list (Z * ((Z * Z) * (list column * list (list column)))) :=
  list_prod [0; 1]%Z (list_prod (list_prod De0 De1) (list_prod (samples N (columns w l [-1]%Z Ds)) (samples k (samples N (columns w l Dk Ds))))).
Definition cmux_adds (w b : Z) (l N k c : nat) (outcomes : list (Z * ((Z * Z) * (list column * list (list column))))) (noise : Z * ((Z * Z) * (list column * list (list column))) -> Z) : Prop :=
  forall p B T key E ct0 ct1 diff G bit e0 e1 body mask, In (bit, ((e0, e1), (body, mask))) outcomes ->
    length key = k -> Forall (fun x => length x = N) key -> glwe_wf w k N ct0 -> glwe_wf w k N ct1 ->
    ggsw_wf w k N l G -> ggsw_encrypts w b N key bit E G -> (forall j u, length (E j u) = N) ->
    backend_ok w N b T 0 B -> (l * S k <= T)%nat ->
    (forall u i, (u <= k)%nat -> (i < N)%nat -> nth i (nth u diff []) 0 = (nth i (nth u ct1 []) 0 - nth i (nth u ct0 []) 0) mod 2 ^ w)%Z -> drawn l N k c diff key E body mask ->
    exists out rest, cmux p w B N b ct0 ct1 (fill_with_forward_fourier B G) = Ret (out, rest) /\ glwe_wf w k N out /\
      eqm (2 ^ w) (rcoef (gphase N key out) (Z.of_nat c))
        ((if Z.eqb bit 0 then rcoef (gphase N key ct0) (Z.of_nat c) - e0 else rcoef (gphase N key ct1) (Z.of_nat c) - e1) + noise (bit, ((e0, e1), (body, mask))))%Z.
Lemma nth_zip_sub w k N a b u i : glwe_wf w k N a -> glwe_wf w k N b -> (u <= k)%nat -> (i < N)%nat ->
  nth i (nth u (zip_update (zip_update (wsub w)) a b) []) 0%Z = wsub w (nth i (nth u a []) 0%Z) (nth i (nth u b []) 0%Z).
Proof.
  intros [La Fa] [Lb Fb] Hu Hi. rewrite Forall_forall in Fa, Fb. assert (Na : In (nth u a []) a) by (apply nth_In; lia). assert (Nb : In (nth u b []) b) by (apply nth_In; lia).
  apply Fa in Na. apply Fb in Nb. destruct Na as [Na _], Nb as [Nb _].
  assert (G : forall X Y (f : X -> Y -> X) xs ys j dx dy, (j < length xs)%nat -> (j < length ys)%nat -> nth j (zip_update f xs ys) dx = f (nth j xs dx) (nth j ys dy)).
  { intros X Y f. induction xs as [|x xs IH]; intros [|y ys] [|j] dx dy H1 H2; cbn in *; try lia; [reflexivity|]. apply IH; lia. }
  rewrite (G _ _ _ a b u [] []) by lia. apply (G _ _ (wsub w)); lia.
Qed.
Theorem C67_cmux : forall w b l N k c K d0 d1 d_ggsw De0 De1 Dk Ds,
  dec_wf w (Dec b l) -> (c < N)%nat -> describes w d0 De0 -> zmean De0 = 0 -> describes w d1 De1 -> zmean De1 = 0 -> describes w d_ggsw Ds -> zmean Ds = 0 -> key_distribution K Dk ->
  let estimate := get_modular_variance (estimate_cmux_noise_with_binary_ggsw K k N b l d0 d1 d_ggsw w) w in
  let outcomes := cmux_outcomes w l N k De0 De1 Dk Ds in
  exists noise, cmux_adds w b l N k c outcomes noise /\
  let V := variance outcomes (fun o => IZR (noise o)) in
  estimate - zvariance De0 + ep_bias K N k c - (INR k + 1) * INR N * (INR (l - 1) * zvariance Ds * (IZR (2 ^ b) / 4)) <= V <= estimate - zvariance De0 + ep_bias K N k c /\
  (l = 1%nat -> V = estimate - zvariance De0 + ep_bias K N k c) /\
  (expectation_key_coefficient K = 0 \/ (2 <= k)%nat \/ c = (N - 1)%nat -> V <= estimate - zvariance De0).
Proof.
  intros w b l N k c K d0 d1 d_ggsw De0 De1 Dk Ds Hd Hc (H1 & V1 & E1) Z1 (H1' & V1' & E1') Z1' HS H0 HK estimate outcomes.
  exists (fun o => (if Z.eqb (fst o) 0 then fst (fst (snd o)) else snd (fst (snd o))) + ep_noise w b l N (fst o) c (snd (snd o)))%Z. split.
  - intros p B T key E ct0 ct1 diff G bit e0 e1 body mask Hin Hk Hkl Hct0 Hct1 HG Henc HE HB HT Hdiff Hdr.
    assert (Hin' : In (bit, (e0, (body, mask))) (ep_outcomes w l N k De0 Dk Ds)).
    { apply in_prod_iff in Hin. destruct Hin as [I1 Hin]. apply in_prod_iff in Hin. destruct Hin as [I2 I3]. apply in_prod_iff in I2. apply in_prod_iff. split; [exact I1|]. apply in_prod_iff. split; [apply I2|exact I3]. }
    assert (Hbit : bit = 0%Z \/ bit = 1%Z).
    { apply in_prod_iff in Hin. destruct Hin as [[<-|[<-|[]]] _]; auto. }
    destruct (drawn_body _ _ _ _ _ _ _ _ _ _ _ Hin') as [Hlm Hb1].
    assert (Hw : (0 <= w)%Z) by (destruct (ks_params w b l Hd); lia). destruct (zip_sub_wf w k N ct1 ct0 Hw Hct1 Hct0) as [Hwf HR].
    assert (Hdr' : drawn l N k c (zip_update (zip_update (wsub w)) ct1 ct0) key E body mask).
    { destruct Hdr as [Hm Hb]. split.
      - intros u i Hu Hi. destruct (Hm u i Hu Hi) as (A1 & A2 & A3). split; [|split; assumption]. rewrite (nth_zip_sub w k N) by (assumption || lia). rewrite Hdiff in A1 by lia. exact A1.
      - intros i Hi. destruct (Hb i Hi) as (A1 & A2). split; [|assumption]. rewrite (nth_zip_sub w k N) by (assumption || lia). rewrite Hdiff in A1 by lia. exact A1. }
    destruct (ep_coef w b l Hd N p B T k c key bit E ct0 G _ body mask Hc Hk Hlm Hkl Hct0 Hwf HG Henc HE HB HT Hdr' Hb1) as (out' & R1 & W1 & P1).
    exists out', (zip_update (zip_update (wsub w)) ct1 ct0). unfold cmux. rewrite R1. cbn [obind]. split; [reflexivity|]. split; [exact W1|]. rewrite P1.
    rewrite (gphase_sub w k N key _ ct1 ct0 Hk (proj1 Hwf) (proj1 Hct1) (proj1 Hct0) HR (Z.of_nat c)).
    change (rcoef (rsub (gphase N key ct1) (gphase N key ct0)) (Z.of_nat c)) with (rcoef (gphase N key ct1) (Z.of_nat c) - rcoef (gphase N key ct0) (Z.of_nat c))%Z. cbn [fst snd].
    apply eqm_eq. destruct Hbit as [-> | ->]; cbn [Z.eqb]; ring.
  - set (f := fun (r : Z) (e : Z * Z) => IZR (if Z.eqb r 0 then fst e else snd e)).
    assert (HP : list_prod De0 De1 <> []) by (apply list_prod_nil; assumption).
    assert (F0 : mean (list_prod De0 De1) (f 0%Z) = 0 /\ variance (list_prod De0 De1) (f 0%Z) = zvariance De0).
    { pose proof (mean_indep_add De0 De1 IZR (fun _ => 0) H1 H1') as M. pose proof (variance_indep De0 De1 IZR (fun _ => 0) H1 H1') as V. unfold f. cbn [Z.eqb].
      rewrite (mean_ext _ _ (fun o => IZR (fst o) + 0)), (variance_ext _ _ (fun o => IZR (fst o) + 0)) by (intros; ring). rewrite M, V, mean_const by assumption.
      change (mean De0 IZR) with (zmean De0). rewrite Z1. split; [ring|]. unfold variance at 2. rewrite !mean_const by assumption. unfold zvariance. ring. }
    assert (F1 : mean (list_prod De0 De1) (f 1%Z) = 0 /\ variance (list_prod De0 De1) (f 1%Z) = zvariance De1).
    { pose proof (mean_indep_add De0 De1 (fun _ => 0) IZR H1 H1') as M. pose proof (variance_indep De0 De1 (fun _ => 0) IZR H1 H1') as V. unfold f. cbn [Z.eqb].
      rewrite (mean_ext _ _ (fun o => 0 + IZR (snd o))), (variance_ext _ _ (fun o => 0 + IZR (snd o))) by (intros; ring). rewrite M, V, mean_const by assumption.
      change (mean De1 IZR) with (zmean De1). rewrite Z1'. split; [ring|]. unfold variance at 1. rewrite !mean_const by assumption. unfold zvariance. ring. }
    set (d01 := estimate_addition_noise d0 d1 w).
    assert (Hadd : 0 <= get_modular_variance d0 w + get_modular_variance d1 w) by (apply Rplus_le_le_0_compat; apply valid_modular_nonneg; assumption).
    assert (V01 : valid d01) by (apply valid_from, Hadd).
    assert (E01 : get_modular_variance d01 w = zvariance De0 + zvariance De1) by (unfold d01, estimate_addition_noise; rewrite modular_from by exact Hadd; rewrite E1, E1'; reflexivity).
    pose proof (bit_noise_variance w b l Hd N k c K d_ggsw _ f Dk Ds Hc HP (proj1 F0) (proj1 F1) HS H0 HK d01 V01) as [Hlow Hup].
    set (V := variance outcomes _). cbn zeta.
    assert (EV : V = variance (list_prod [0; 1]%Z (list_prod (list_prod De0 De1) (ep_columns w l N Dk Ds k))) (fun o => f (fst o) (fst (snd o)) + IZR (ep_noise w b l N (fst o) c (snd (snd o)))))
      by (apply variance_ext; intros o _; rewrite plus_IZR; reflexivity).
    rewrite <- EV in Hlow, Hup. rewrite (proj2 F0), (proj2 F1), E01 in Hlow, Hup.
    assert (Hest : estimate = get_modular_variance (estimate_external_product_noise_with_binary_ggsw K N k d01 d_ggsw b l w) w + zvariance De0).
    { destruct (key_kind_stats w K Dk HK) as (_ & Ev & _). destruct HS as (H2 & V2 & E2).
      pose proof (proj2 (estimate_ep_value w b l Hd K N k d01 d_ggsw V01 V2 ltac:(rewrite Ev; apply variance_nonneg))) as Hvl.
      unfold estimate, estimate_cmux_noise_with_binary_ggsw. cbn zeta. fold d01. unfold estimate_addition_noise at 1. rewrite modular_from; [rewrite E1; reflexivity|].
      apply Rplus_le_le_0_compat; apply valid_modular_nonneg; assumption. }
    set (ep := get_modular_variance (estimate_external_product_noise_with_binary_ggsw K N k d01 d_ggsw b l w) w) in *.
    replace (ep + ((zvariance De0 + zvariance De1) / 2 - (zvariance De0 + zvariance De1) / 2)) with (estimate - zvariance De0) in Hlow, Hup by (rewrite Hest; lra).
    split; [split; assumption|]. split.
    + intros ->. cbn [Nat.sub INR] in Hlow. rewrite !Rmult_0_l, Rmult_0_r, Rminus_0_r in Hlow. apply Rle_antisym; assumption.
    + intros Hs. pose proof (ep_bias_sign K N k c Hc Hs). lra.
Qed.
Print Assumptions C67_cmux.

(** ** Cases *)
Local Open Scope Z_scope.
Lemma in_samples {A} (D : list A) s : Forall (fun x => In x D) s -> In s (samples (length s) D).
Proof.
  induction 1 as [|x s Hx _ IH]; [left; reflexivity|]. cbn [length samples]. apply in_map_iff. exists (x, s). split; [reflexivity|]. apply in_prod_iff. split; assumption.
Qed.
Lemma in_columns w l D Ds x s es : 0 <= x < 2 ^ w -> In s D -> length es = l -> Forall (fun e => In e Ds) es -> In (x, (s, es)) (columns w l D Ds).
Proof.
  intros Hx Hs <- He. apply in_prod_iff. split; [|apply in_prod_iff; split; [exact Hs|apply in_samples, He]]. unfold words. apply in_map_iff. exists (Z.to_nat x). split; [lia|]. apply in_seq. lia.
Qed.
(** Six-bit words, base 4, one level, two coefficients: an outcome, a GGSW ciphertext of 1 and the two ciphertexts it describes. *)
Example C67_case :
  let key := [[1; 0]] in let E := fun _ _ : nat => [1; -1] in let G := [[[[0; 0]; [49; 63]]; [[5; 9]; [22; 8]]]] in
  let ct := [[13; 20]; [34; 50]] in let ct0 := [[1; 2]; [3; 4]] in let ct1 := [[14; 22]; [37; 54]] in
  let body := [(34, (-1, [1])); (50, (-1, [-1]))] in let mask := [[(13, (1, [1])); (20, (0, [-1]))]] in
  dec_wf 6 (Dec 2 1) /\ In (1, (1, (body, mask))) (ep_outcomes 6 1 2 1 [-1; 1] [0; 1] [-1; 1]) /\
  In (1, ((-1, 1), (body, mask))) (cmux_outcomes 6 1 2 1 [-1; 1] [-1; 1] [0; 1] [-1; 1]) /\
  glwe_wf 6 1 2 ct /\ ggsw_wf 6 1 2 1 G /\ ggsw_encrypts 6 2 2 key 1 E G /\ drawn 1 2 1 0 ct key E body mask /\ backend_ok 6 2 2 2 0 (exact_backend 6) /\
  glwe_wf 6 1 2 ct0 /\ glwe_wf 6 1 2 ct1 /\
  (forall u i, (u <= 1)%nat -> (i < 2)%nat -> nth i (nth u ct []) 0 = (nth i (nth u ct1 []) 0 - nth i (nth u ct0 []) 0) mod 2 ^ 6) /\
  (exists out, external_product Debug 6 (exact_backend 6) 2 2 ct0 (fill_with_forward_fourier (exact_backend 6) G) ct = Ret out /\ rcoef (gphase 2 key out) 0 mod 64 = 21) /\
  (exists out rest, cmux Debug 6 (exact_backend 6) 2 2 ct0 ct1 (fill_with_forward_fourier (exact_backend 6) G) = Ret (out, rest) /\ rcoef (gphase 2 key out) 0 mod 64 = 21).
Proof.
  assert (Hb : Forall (fun x => In x (columns 6 1 [-1] [-1; 1])) [(34, (-1, [1])); (50, (-1, [-1]))]) by (repeat (constructor; [apply in_columns; [lia|cbn; auto|reflexivity|repeat (constructor; [cbn; auto|]); constructor]|]); constructor).
  assert (Hm : Forall (fun x => In x (columns 6 1 [0; 1] [-1; 1])) [(13, (1, [1])); (20, (0, [-1]))]) by (repeat (constructor; [apply in_columns; [lia|cbn; auto|reflexivity|repeat (constructor; [cbn; auto|]); constructor]|]); constructor).
  assert (HQ : In ([(34, (-1, [1])); (50, (-1, [-1]))], [[(13, (1, [1])); (20, (0, [-1]))]])
    (list_prod (samples 2 (columns 6 1 [-1] [-1; 1])) (samples 1 (samples 2 (columns 6 1 [0; 1] [-1; 1]))))).
  { apply in_prod_iff. split; [apply (in_samples _ _ Hb)|]. apply (in_samples _ [_]). constructor; [apply (in_samples _ _ Hm)|constructor]. }
  cbn zeta. split; [unfold dec_wf; cbn; lia|].
  split; [apply in_prod_iff; split; [cbn; auto|]; apply in_prod_iff; split; [cbn; auto|exact HQ]|].
  split; [apply in_prod_iff; split; [cbn; auto|]; apply in_prod_iff; split; [apply in_prod_iff; cbn; auto|exact HQ]|].
  split; [split; [reflexivity|repeat constructor; vm_compute; intuition discriminate]|].
  split; [split; [reflexivity|repeat constructor; vm_compute; intuition discriminate]|].
  split.
  { intros [|[|j]] lev [|[|[|i]]] row H1 H2; cbn in H1; inversion H1; subst lev; cbn in H2; inversion H2; subst row; apply req_two; vm_compute; reflexivity. }
  split.
  { split; [intros [|u] [|[|i]] Hu Hi; try lia|intros [|[|i]] Hi; try lia]; repeat split; intros [|j] Hj; try lia; reflexivity. }
  split; [apply C26_exact_backend_ok; lia|].
  split; [split; [reflexivity|repeat constructor; vm_compute; intuition discriminate]|].
  split; [split; [reflexivity|repeat constructor; vm_compute; intuition discriminate]|].
  split; [intros [|[|u]] [|[|i]] Hu Hi; try lia; reflexivity|].
  split; [eexists; split; vm_compute; reflexivity|]. eexists. eexists. split; vm_compute; reflexivity.
Qed.
