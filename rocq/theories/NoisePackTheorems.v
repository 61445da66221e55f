(** * C66, continued: the noise estimates of the packing keyswitch and of the private functional keyswitch *)
From Verif Require Import Base Word WordFacts NegaRing PolySpec RingSum DecompModel DecompProofs ExtProdProofs LweSpec LweProofs GlweSpec GlweModel KeyswitchModel KeyswitchSpec KeyswitchProofs KeyswitchTheorems
  PackingProofs PackingTheorems NoiseSpec NoiseFacts NoiseDigitFacts NoiseModel NoiseKeyFacts NoiseTheorems NoiseKeyTheorems NoiseKsFacts NoiseKsTheorems.
From Coq Require Import Reals Lra Lia.

Section Code.
Context (w b : Z) (l : nat) (Hd : dec_wf w (Dec b l)).
Local Notation blank := (0, (0, @nil Z)).
Lemma nth_words (cs : list (Z * (Z * list Z))) i : nth i (map fst cs) 0 = fst (nth i cs blank).
Proof. change 0 with (fst blank) at 1. apply map_nth. Qed.
Lemma nth_secrets (cs : list (Z * (Z * list Z))) i : nth i (map (fun c => fst (snd c)) cs) 0 = fst (snd (nth i cs blank)).
Proof. change 0 with ((fun c : Z * (Z * list Z) => fst (snd c)) blank) at 1. rewrite map_nth. reflexivity. Qed.

Lemma packing_phase p N key pksk after before m c (E : nat -> nat -> rp N) (o : Z * list (Z * (Z * list Z))) : (0 < N)%nat -> (c < N)%nat ->
  gksk_encrypts w b l N key (map (fun c => fst (snd c)) (snd o)) (rone N) E pksk ->
  (forall i j, (i < length (snd o))%nat -> (j < l)%nat -> eqm (2 ^ w) (rcoef (E i j) (Z.of_nat c)) (nth j (snd (snd (nth i (snd o) blank))) 0)) ->
  lwe_wf w (length (snd o)) before -> removelast before = map fst (snd o) ->
  phase w (map (fun c => fst (snd c)) (snd o)) before = (m + fst o) mod 2 ^ w -> length after = S (length key) -> Forall (fun a => length a = N) after ->
  exists out, packing_keyswitch_ciphertext p w b l (length key) pksk after before = Ret out /\ glwe_wf w (length key) N out /\
    eqm (2 ^ w) (rcoef (gphase N key out) (Z.of_nat c)) ((if Nat.eqb c 0 then m else 0) + ks_noise w b l (if Nat.eqb c 0 then 1 else 0) o).
Proof.
  destruct o as [e cs]. cbn [fst snd]. intros HN Hc Hk HE Hb Hm Hp Ha Haf. set (s := map (fun c => fst (snd c)) cs) in *.
  assert (Hls : length s = length cs) by (unfold s; apply map_length). rewrite <- Hls in Hb.
  destruct (packing_keyswitch_digits p w b l N key s E pksk after before Hd HN Hk Hb Ha Haf) as (out & Eo & Ho & P). exists out. split; [exact Eo|]. split; [exact Ho|].
  rewrite (P (Z.of_nat c)). clear P Eo. rewrite Hls in *.
  match goal with |- eqm _ (rcoef (rsub ?a ?b) _) _ => change (rcoef (rsub a b) (Z.of_nat c)) with (rcoef a (Z.of_nat c) - rcoef b (Z.of_nat c)) end.
  rewrite rcoef_rconst by lia. rewrite rcoef_rsum.
  destruct Hb as [Hl Hw]. destruct (snoc_dec before _ Hl) as (mask & body & -> & Hml). rewrite removelast_last in Hm. subst mask. rewrite last_last.
  unfold phase in Hp. rewrite last_last, removelast_last in Hp. assert (Hp' : eqm (2 ^ w) (body - dot (map fst cs) s) (m + e)) by exact Hp.
  apply Forall_app in Hw. destruct Hw as [Hw _].
  rewrite (zsum_ext (length cs) (fun i => closest_representable w (Dec b l) (nth i (map fst cs ++ [body]) 0) * nth i s 0)
    (fun i => closest_representable w (Dec b l) (fst (nth i cs blank)) * fst (snd (nth i cs blank)))).
  2:{ intros i Hi. rewrite nth_snoc_lt by (rewrite map_length; assumption). unfold s. rewrite nth_words, nth_secrets. reflexivity. }
  rewrite (zsum_eqm (2 ^ w) (length cs) (fun i => rcoef (RingSum.rsum l (fun j => rscal (sdigit w (Dec b l) (l - 1 - j) (nth i (map fst cs ++ [body]) 0)) (E i j))) (Z.of_nat c)) (fun i => zsum l (fun j => sdigit w (Dec b l) (l - 1 - j) (fst (nth i cs blank)) * nth j (snd (snd (nth i cs blank))) 0))).
  2:{ intros i Hi. rewrite rcoef_rsum. apply zsum_eqm. intros j Hj. rewrite nth_snoc_lt by (rewrite map_length; assumption). rewrite nth_words.
      rewrite <- (HE i j Hi Hj). apply eqm_eq. reflexivity. }
  unfold ks_noise. cbn [fst snd]. rewrite <- (columns_phase w b l Hd _ cs Hw). fold s.
  replace (Z.of_nat c =? 0)%Z with (Nat.eqb c 0) by (destruct (Nat.eqb_spec c 0), (Z.eqb_spec (Z.of_nat c) 0); lia). destruct (Nat.eqb c 0).
  - assert (Eb : eqm (2 ^ w) body (m + e + dot (map fst cs) s)) by (rewrite <- Hp'; apply eqm_eq; ring). rewrite Eb. apply eqm_eq. ring.
  - apply eqm_eq. ring.
Qed.

Definition functional_noise (r : Z) (o : Z * ((Z * (Z * list Z)) * list (Z * (Z * list Z)))) : Z :=
  r * fst o + (column_noise w b l r (fst (snd o)) + fold_right (fun c z => column_noise w b l r c + z) 0 (snd (snd o))).
Lemma fold_snoc (f : Z * (Z * list Z) -> Z) cs c : fold_right (fun c z => f c + z) 0 (cs ++ [c]) = f c + fold_right (fun c z => f c + z) 0 cs.
Proof. induction cs as [|c' cs IH]; cbn [app fold_right]; [lia|rewrite IH; lia]. Qed.
Lemma dot_snoc xs ss x s : length xs = length ss -> dot (xs ++ [x]) (ss ++ [s]) = dot xs ss + x * s.
Proof. revert ss. induction xs as [|y xs IH]; intros [|t ss] H; try discriminate; cbn [app dot]; [ring|]. rewrite IH by (cbn in H; lia). ring. Qed.
Lemma functional_phase p N key pfpksk after f1 (P : rp N) c (E : nat -> nat -> rp N) e body cs : (0 < N)%nat -> (c < N)%nat ->
  fst (snd body) = -1 -> Forall (is_word w) (map fst (cs ++ [body])) ->
  gksk_encrypts w b l N key (map (fun c => fst (snd c)) (cs ++ [body])) (rscal f1 P) E pfpksk ->
  (forall i j, (i <= length cs)%nat -> (j < l)%nat -> eqm (2 ^ w) (rcoef (E i j) (Z.of_nat c)) (nth j (snd (snd (nth i (cs ++ [body]) blank))) 0)) ->
  length after = S (length key) -> Forall (fun a => length a = N) after ->
  exists out, private_functional_keyswitch_ciphertext p w b l (length key) pfpksk after (map fst (cs ++ [body])) = Ret out /\ glwe_wf w (length key) N out /\
    eqm (2 ^ w) (rcoef (gphase N key out) (Z.of_nat c))
      (f1 * rcoef P (Z.of_nat c) * (phase w (map (fun c => fst (snd c)) cs) (map fst (cs ++ [body])) - e) + functional_noise (f1 * rcoef P (Z.of_nat c)) (e, (body, cs))).
Proof.
  intros HN Hc Hbody Hw Hk HE Ha Haf. set (before := map fst (cs ++ [body])) in *. set (s := map (fun c => fst (snd c)) cs) in *.
  assert (Hls : length s = length cs) by (unfold s; apply map_length).
  assert (Hb : lwe_wf w (length s) before) by (split; [unfold before; rewrite map_length, app_length, Hls; cbn; lia|exact Hw]).
  assert (Hk' : gksk_encrypts w b l N key (s ++ [-1]) (rscal f1 P) E pfpksk) by (rewrite map_app in Hk; cbn [map] in Hk; rewrite Hbody in Hk; exact Hk).
  destruct (functional_keyswitch_digits p w b l N key s f1 P E pfpksk after before Hd HN Hk' Hb Ha Haf) as (out & Eo & Ho & Q). exists out. split; [exact Eo|]. split; [exact Ho|].
  rewrite (Q (Z.of_nat c)). clear Q Eo Hk Hk' Hb. rewrite Hls. set (r := f1 * rcoef P (Z.of_nat c)).
  match goal with |- eqm _ (rcoef (rsub (rscal ?x _) ?b) _) _ => change (eqm (2 ^ w) (x * rcoef P (Z.of_nat c) - rcoef b (Z.of_nat c)) (r * (phase w s before - e) + functional_noise r (e, (body, cs)))) end.
  rewrite rcoef_rsum.
  assert (Hnb : forall i, nth i before 0 = fst (nth i (cs ++ [body]) blank)) by (intros; apply nth_words).
  assert (Hn : S (length cs) = length (cs ++ [body])) by (rewrite app_length; cbn; lia).
  rewrite (zsum_eqm (2 ^ w) (S (length cs)) (fun i => rcoef (RingSum.rsum l (fun j => rscal (sdigit w (Dec b l) (l - 1 - j) (nth i before 0)) (E i j))) (Z.of_nat c)) (fun i => zsum l (fun j => sdigit w (Dec b l) (l - 1 - j) (fst (nth i (cs ++ [body]) blank)) * nth j (snd (snd (nth i (cs ++ [body]) blank))) 0))).
  2:{ intros i Hi. rewrite rcoef_rsum. apply zsum_eqm. intros j Hj. rewrite Hnb. rewrite <- (HE i j ltac:(lia) Hj). apply eqm_eq. reflexivity. }
  pose proof (columns_phase w b l Hd r (cs ++ [body]) Hw) as G. rewrite fold_snoc, <- Hn in G. fold before in G.
  unfold functional_noise. cbn [fst snd].
  set (dig := zsum (S (length cs)) (fun i => zsum l _)) in *.
  rewrite (zsum_S (length cs)) in G. rewrite (app_nth2 cs) in G by lia. rewrite Nat.sub_diag in G. cbn [nth] in G. rewrite Hbody in G.
  rewrite (zsum_ext (length cs) (fun i => closest_representable w (Dec b l) (fst (nth i (cs ++ [body]) blank)) * fst (snd (nth i (cs ++ [body]) blank)))
     (fun i => closest_representable w (Dec b l) (nth i before 0) * nth i s 0)) in G.
  2:{ intros i Hi. rewrite Hnb. rewrite (app_nth1 cs) by lia. unfold s. rewrite nth_secrets. reflexivity. }
  assert (Ebefore : before = map fst cs ++ [fst body]) by (unfold before; rewrite map_app; reflexivity).
  assert (Elast : last before 0 = fst body) by (rewrite Ebefore; apply last_last). rewrite Elast.
  assert (Ephase : eqm (2 ^ w) (phase w s before) (fst body - dot (map fst cs) s)).
  { unfold phase. rewrite Elast. rewrite Ebefore, removelast_last. apply eqm_mod. }
  rewrite Ephase.
  assert (Edot : dot before (map (fun c => fst (snd c)) (cs ++ [body])) = dot (map fst cs) s - fst body).
  { rewrite Ebefore, map_app. cbn [map]. rewrite Hbody. fold s. rewrite dot_snoc by (unfold s; rewrite !map_length; reflexivity). ring. }
  rewrite Edot in G. 
  match goal with |- eqm _ _ (?x + (?y + ?z)) => transitivity (x + y + (r * (dot (map fst cs) s - fst body - (zsum (length cs) (fun i => closest_representable w (Dec b l) (nth i before 0) * nth i s 0)
     + closest_representable w (Dec b l) (fst body) * -1)) - dig)) end.
  2:{ rewrite G. apply eqm_eq. ring. }
  apply eqm_eq. unfold r. ring.
Qed.
End Code.

Local Open Scope R_scope.
(** Coefficient [c] of a packing keyswitch.  The columns carry the coefficients of index [c] of the noises of the key. *)
Theorem C66_packing : forall w b l N c K n d_lwe d_ksk De Dk Ds,
  dec_wf w (Dec b l) -> (0 < N)%nat -> (c < N)%nat -> describes w d_lwe De -> describes w d_ksk Ds -> zmean Ds = 0 -> key_distribution K Dk ->
  let estimate := get_modular_variance
    (if Nat.eqb c 0 then estimate_keyswitch_noise_lwe_to_glwe_with_constant_terms K n d_lwe d_ksk b l w
     else estimate_keyswitch_noise_lwe_to_glwe_with_non_constant_terms n d_ksk b l w) w in
  exists noise : Z * list (Z * (Z * list Z)) -> Z,
  (forall p key pksk after before m e columns (E : nat -> nat -> rp N), In (e, columns) (outcomes w l n De Dk Ds) ->
     gksk_encrypts w b l N key (map (fun c => fst (snd c)) columns) (rone N) E pksk ->
     (forall i j, (i < n)%nat -> (j < l)%nat -> eqm (2 ^ w) (rcoef (E i j) (Z.of_nat c)) (nth j (snd (snd (nth i columns (0, (0, []))%Z))) 0%Z)) ->
     lwe_wf w n before -> removelast before = map fst columns ->
     phase w (map (fun c => fst (snd c)) columns) before = ((m + e) mod 2 ^ w)%Z -> length after = S (length key) -> Forall (fun a => length a = N) after ->
     exists out, packing_keyswitch_ciphertext p w b l (length key) pksk after before = Ret out /\ glwe_wf w (length key) N out /\
       eqm (2 ^ w) (rcoef (gphase N key out) (Z.of_nat c)) ((if Nat.eqb c 0 then m else 0) + noise (e, columns))%Z) /\
  variance (outcomes w l n De Dk Ds) (fun o => IZR (noise o)) <= estimate /\
  estimate - INR n * INR (l - 1) * zvariance Ds * (IZR (2 ^ b) / 4) <= variance (outcomes w l n De Dk Ds) (fun o => IZR (noise o)) /\
  (l = 1%nat -> variance (outcomes w l n De Dk Ds) (fun o => IZR (noise o)) = estimate).
Proof.
  intros w b l N c K n d_lwe d_ksk De Dk Ds Hd HN Hc HL HS H0 HK estimate. exists (ks_noise w b l (if Nat.eqb c 0 then 1 else 0)).
  assert (HV : estimate - INR n * INR (l - 1) * zvariance Ds * (IZR (2 ^ b) / 4) <=
    variance (outcomes w l n De Dk Ds) (fun o => IZR (ks_noise w b l (if Nat.eqb c 0 then 1%Z else 0%Z) o)) <= estimate).
  { unfold estimate. destruct (Nat.eqb c 0); [apply (ks_variance w b l Hd K n d_lwe d_ksk De Dk Ds HL HS H0 HK)|].
    destruct HL as (H1 & _), HS as (H2 & V2 & E2). destruct (key_kind_stats w K Dk HK) as (HDk & _).
    assert (HV : variance (outcomes w l n De Dk Ds) (fun o => IZR (ks_noise w b l 0 o)) = 0 ^ 2 * zvariance De + INR n * variance (columns w l Dk Ds) (fun c => IZR (column_noise w b l 0 c)))
      by apply (ks_noise_stats w b l Hd 0 n De Dk Ds H1 HDk H2 H0).
    destruct (column_variance w b l Hd 0 Dk Ds HDk H2 H0) as [B1 B2]. pose proof (pos_INR n) as Hn0. apply (Rmult_le_compat_l (INR n)) in B1, B2; try assumption.
    assert (EB : powi2 (2 * b) = IZR (2 ^ b) ^ 2) by (rewrite powi2_twice; f_equal; apply powi2_Z; destruct Hd as (Hb & _); cbn [base_log] in Hb; lia).
    unfold estimate_keyswitch_noise_lwe_to_glwe_with_non_constant_terms. cbn zeta. rewrite EB, E2. pose proof (variance_nonneg Ds IZR) as Hz. fold (zvariance Ds) in Hz.
    rewrite modular_from.
    - rewrite HV. clear - B1 B2. split; lra.
    - unfold Rdiv. apply Rmult_le_pos; [|lra]. apply Rmult_le_pos; [apply Rmult_le_pos; [apply Rmult_le_pos; [assumption|apply pos_INR]|assumption]|].
      pose proof (pow2_ge_0 (IZR (2 ^ b))). lra. }
  split; [|split; [apply HV|split; [apply HV|]]].
  - intros p key pksk after before m e columns E Hin Hk HE Hb Hm Hp Ha Haf.
    assert (Hlen : length columns = n) by (apply in_prod_iff in Hin; destruct Hin as [_ Hin]; apply samples_length in Hin; exact Hin). subst n.
    apply (packing_phase w b l Hd p N key pksk after before m c E (e, columns)); cbn [fst snd]; assumption.
  - intros ->. cbn [Nat.sub INR] in HV. rewrite Rmult_0_r, !Rmult_0_l, Rminus_0_r in HV. apply Rle_antisym; apply HV.
Qed.
Print Assumptions C66_packing.

(** The private functional keyswitch: the rows of the key encrypt the coefficients of the secret key, and -1, times the polynomial f1*P.  The body, with the noises of the rows for
    it, is one more column, whose coefficient of the key is -1.  [r] is the coefficient of index [c] of f1*P, [R] a bound on it. *)
Definition functional_outcomes (w : Z) (l n : nat) (De Dk Ds : list Z) : list (Z * ((Z * (Z * list Z)) * list (Z * (Z * list Z)))) :=
  list_prod De (list_prod (list_prod (words w) (list_prod [-1]%Z (samples l Ds))) (samples n (list_prod (words w) (list_prod Dk (samples l Ds))))).
Lemma functional_variance w b l r n De Dk Ds : dec_wf w (Dec b l) -> De <> [] -> Dk <> [] -> Ds <> [] -> zmean Ds = 0 ->
  variance (functional_outcomes w l n De Dk Ds) (fun o => IZR (functional_noise w b l r o)) =
  IZR r ^ 2 * zvariance De + (variance (columns w l [-1]%Z Ds) (fun c => IZR (column_noise w b l r c)) + INR n * variance (columns w l Dk Ds) (fun c => IZR (column_noise w b l r c))).
Proof.
  intros Hd H1 H2 H3 H0. pose proof (columns_nil w b l Hd Dk Ds H2 H3) as Hc. pose proof (columns_nil w b l Hd [-1]%Z Ds ltac:(discriminate) H3) as Hc1.
  pose proof (samples_nil n _ Hc) as Hs. pose proof (list_prod_nil _ _ Hc1 Hs) as Hp.
  rewrite (variance_ext _ _ (fun o => IZR r * IZR (fst o) + (IZR (column_noise w b l r (fst (snd o))) + rsum (snd (snd o)) (fun c => IZR (column_noise w b l r c))))).
  2:{ intros [e [c cs]] _. unfold functional_noise. cbn [fst snd]. rewrite !plus_IZR, mult_IZR. f_equal. f_equal.
      induction cs as [|c' cs IH]; [reflexivity|]. cbn [fold_right rsum]. rewrite plus_IZR, IH. reflexivity. }
  unfold functional_outcomes. change (list_prod (words w) (list_prod [-1]%Z (samples l Ds))) with (columns w l [-1]%Z Ds). change (list_prod (words w) (list_prod Dk (samples l Ds))) with (columns w l Dk Ds).
  rewrite (variance_indep De _ (fun e => IZR r * IZR e) (fun o => IZR (column_noise w b l r (fst o)) + rsum (snd o) (fun c => IZR (column_noise w b l r c))) H1 Hp).
  rewrite (variance_indep (columns w l [-1]%Z Ds) _ (fun c => IZR (column_noise w b l r c)) (fun cs => rsum cs (fun c => IZR (column_noise w b l r c))) Hc1 Hs).
  rewrite (proj2 (samples_sum n _ (fun c => IZR (column_noise w b l r c)) Hc)), variance_scal. reflexivity.
Qed.
Theorem C66_private_functional : forall w b l N c K n d_lwe d_ksk De Dk Ds f1 (P : rp N) R,
  dec_wf w (Dec b l) -> (0 < N)%nat -> (c < N)%nat -> describes w d_lwe De -> describes w d_ksk Ds -> zmean Ds = 0 -> key_distribution K Dk ->
  let r := (f1 * rcoef P (Z.of_nat c))%Z in Rabs (IZR r) <= R ->
  let estimate R := get_modular_variance (estimate_private_functional_keyswitch_noise_lwe_to_glwe_with_constant_terms K n d_lwe d_ksk b l R w) w in
  let outcomes := functional_outcomes w l n De Dk Ds in
  exists noise : Z * ((Z * (Z * list Z)) * list (Z * (Z * list Z))) -> Z,
  (forall p key pfpksk after e body columns (E : nat -> nat -> rp N), In (e, (body, columns)) outcomes ->
     let before := map fst (columns ++ [body]) in let message := (phase w (map (fun c => fst (snd c)) columns) before - e)%Z in
     gksk_encrypts w b l N key (map (fun c => fst (snd c)) (columns ++ [body])) (rscal f1 P) E pfpksk ->
     (forall i j, (i <= n)%nat -> (j < l)%nat -> eqm (2 ^ w) (rcoef (E i j) (Z.of_nat c)) (nth j (snd (snd (nth i (columns ++ [body]) (0, (0, []))%Z))) 0%Z)) ->
     length after = S (length key) -> Forall (fun a => length a = N) after ->
     exists out, private_functional_keyswitch_ciphertext p w b l (length key) pfpksk after before = Ret out /\ glwe_wf w (length key) N out /\
       eqm (2 ^ w) (rcoef (gphase N key out) (Z.of_nat c)) (r * message + noise (e, (body, columns)))%Z) /\
  variance outcomes (fun o => IZR (noise o)) <= estimate R /\
  estimate (Rabs (IZR r)) - (INR n + 1) * INR (l - 1) * zvariance Ds * (IZR (2 ^ b) / 4) <= variance outcomes (fun o => IZR (noise o)) /\
  (l = 1%nat -> Rabs (IZR r) = R -> variance outcomes (fun o => IZR (noise o)) = estimate R).
Proof.
  intros w b l N c K n d_lwe d_ksk De Dk Ds f1 P R Hd HN Hc HL HS H0 HK r HR estimate outcomes. exists (functional_noise w b l r).
  destruct HL as (H1 & V1 & E1), HS as (H2 & V2 & E2). destruct (key_kind_stats w K Dk HK) as (HDk & Ev & Em).
  pose proof (functional_variance w b l r n De Dk Ds Hd H1 HDk H2 H0) as HV. fold outcomes in HV.
  destruct (column_variance w b l Hd r Dk Ds HDk H2 H0) as [B1 B2]. destruct (column_variance w b l Hd r [-1]%Z Ds ltac:(discriminate) H2 H0) as [C1 C2].
  pose proof (pos_INR n) as Hn0. apply (Rmult_le_compat_l (INR n)) in B1, B2; try assumption.
  set (D := IZR (2 ^ (w - b * Z.of_nat l))) in *. destruct (ks_params w b l Hd) as (Hb & Hl & Hn & EH & Hh & Ew & HP).
  assert (HD1 : 1 <= D) by (apply IZR_le; pose proof (pow2_pos (w - b * Z.of_nat l) ltac:(lia)); lia).
  assert (Z1 : zvariance [-1]%Z = 0) by (unfold zvariance, variance, mean; cbn; lra). assert (Z2 : zmean [-1]%Z = -1) by (unfold zmean, mean; cbn; lra).
  rewrite Z1, Z2 in C1, C2. pose proof (variance_nonneg Ds IZR) as Hz. fold (zvariance Ds) in Hz. pose proof (variance_nonneg De IZR) as Hze. fold (zvariance De) in Hze.
  pose proof (variance_nonneg Dk IZR) as Hzk. fold (zvariance Dk) in Hzk.
  assert (Hest : forall R, estimate R = R ^ 2 * (zvariance De + INR n * ((D ^ 2 - 1) / 12 * (zvariance Dk + zmean Dk ^ 2) + zvariance Dk / 4) + (D ^ 2 - 1) / 12)
      + (INR n + 1) * INR l * zvariance Ds * ((IZR (2 ^ b) ^ 2 + 2) / 12)).
  { intros R0. unfold estimate, estimate_private_functional_keyswitch_noise_lwe_to_glwe_with_constant_terms. cbn zeta. rewrite E1, E2, Ev, Em. unfold square.
    assert (EB : powi2 b = IZR (2 ^ b)) by (apply powi2_Z; lia).
    assert (ED : powi2 (2 * w) = powi2 (b * 2 * Z.of_nat l) * D ^ 2).
    { replace (2 * w)%Z with (b * 2 * Z.of_nat l + 2 * (w - b * Z.of_nat l))%Z by ring. rewrite powi2_plus. f_equal. rewrite powi2_twice. f_equal. apply powi2_Z. lia. }
    rewrite ED, EB. pose proof (powi2_pos (b * 2 * Z.of_nat l)) as Hp.
    replace (powi2 (b * 2 * Z.of_nat l) * D ^ 2 / (12 * powi2 (b * 2 * Z.of_nat l)) - 1 / 12) with ((D ^ 2 - 1) / 12) by (field; lra).
    rewrite modular_from; [field|]. pose proof (Rle_0_sqr R0) as Hq. unfold Rsqr in Hq. pose proof (Rle_0_sqr (zmean Dk)) as Hqm. unfold Rsqr in Hqm.
    assert (HDD : 0 <= (D ^ 2 - 1) / 12) by nra. pose proof (pos_INR l) as Hl0. pose proof (Rle_0_sqr (IZR (2 ^ b))) as Hqb. unfold Rsqr in Hqb.
    repeat apply Rplus_le_le_0_compat.
    - apply Rmult_le_pos; assumption.
    - apply Rmult_le_pos; [apply Rmult_le_pos; [apply Rmult_le_pos; assumption|assumption]|lra].
    - unfold Rdiv. apply Rmult_le_pos; [apply Rmult_le_pos; [apply Rmult_le_pos; assumption|lra]|assumption].
    - apply Rmult_le_pos; assumption.
    - unfold Rdiv. apply Rmult_le_pos; [|lra]. apply Rmult_le_pos; [apply Rmult_le_pos; [apply Rmult_le_pos; [lra|assumption]|assumption]|lra]. }
  assert (Hup : variance outcomes (fun o => IZR (functional_noise w b l r o)) <= estimate (Rabs (IZR r))).
  { rewrite Hest, HV, pow2_abs. clear - B2 C2. set (rr := IZR r ^ 2) in *. lra. }
  assert (Hlow : estimate (Rabs (IZR r)) - (INR n + 1) * INR (l - 1) * zvariance Ds * (IZR (2 ^ b) / 4) <= variance outcomes (fun o => IZR (functional_noise w b l r o))).
  { rewrite Hest, HV, pow2_abs. clear - B1 C1. set (rr := IZR r ^ 2) in *. lra. }
  split; [|split; [|split; [exact Hlow|]]].
  - intros p key pfpksk after e body columns E Hin before message Hk HE Ha Haf.
    apply in_prod_iff in Hin. destruct Hin as [_ Hin]. apply in_prod_iff in Hin. destruct Hin as [Hbody Hcs].
    pose proof (samples_length _ _ _ Hcs) as Hlen. apply samples_in in Hcs.
    assert (HW : forall x, In x (words w) -> is_word w x).
    { intros x Hx. unfold words in Hx. apply in_map_iff in Hx. destruct Hx as (i & <- & Hi). apply in_seq in Hi. split; lia. }
    assert (Hbb : is_word w (fst body) /\ fst (snd body) = (-1)%Z).
    { destruct body as [x [s es]]. apply in_prod_iff in Hbody. destruct Hbody as [Hx Hs]. apply in_prod_iff in Hs. destruct Hs as [[<-|[]] _]. split; [apply HW, Hx|reflexivity]. }
    subst n. apply (functional_phase w b l Hd p N key pfpksk after f1 P c E e body columns HN Hc (proj2 Hbb)); try assumption.
    rewrite map_app. apply Forall_app. split; [|constructor; [apply Hbb|constructor]]. apply Forall_map. eapply Forall_impl; [|exact Hcs]. intros [x sx] Hx. apply in_prod_iff in Hx. apply HW, Hx.
  - eapply Rle_trans; [exact Hup|]. rewrite !Hest. apply Rplus_le_compat_r. apply Rmult_le_compat_r.
    + assert (HDD : 0 <= (D ^ 2 - 1) / 12) by nra. pose proof (pow2_ge_0 (zmean Dk)).
      assert (0 <= INR n * ((D ^ 2 - 1) / 12 * (zvariance Dk + zmean Dk ^ 2) + zvariance Dk / 4)).
      { apply Rmult_le_pos; [assumption|]. apply Rplus_le_le_0_compat; [apply Rmult_le_pos; lra|lra]. }
      lra.
    + apply pow_incr. split; [apply Rabs_pos|exact HR].
  - intros -> <-. cbn [Nat.sub INR] in Hlow. rewrite Rmult_0_r, !Rmult_0_l, Rminus_0_r in Hlow. apply Rle_antisym; assumption.
Qed.
Print Assumptions C66_private_functional.

(** ** Cases *)
Local Open Scope Z_scope.
Lemma req_two q (x y : rp 2) : rcoef x 0 mod q = rcoef y 0 mod q -> rcoef x 1 mod q = rcoef y 1 mod q -> req q x y.
Proof. intros H0 H1. apply req_coefs. intros c Hc. assert (c = 0 \/ c = 1) as [-> | ->] by lia; assumption. Qed.
(** Coefficient 1 of a packing keyswitch of six-bit words, with one level: the message stays out of it, the noise 1 of the key comes in times the digit 1 of 13. *)
Example C66_packing_case :
  let E := fun _ _ : nat => NegaRing.R 2 [0; 1] in
  dec_wf 6 (Dec 2 1) /\ In (1, [(13, (1, [1]))]) (outcomes 6 1 1 [-1; 1] [0; 1] [-1; 1]) /\
  gksk_encrypts 6 2 1 2 [[1; 0]] [1] (rone 2) E [[[[5; 9]; [21; 10]]]] /\
  (forall i j, (i < 1)%nat -> (j < 1)%nat -> eqm (2 ^ 6) (rcoef (E i j) 1) (nth j [1] 0)) /\
  lwe_wf 6 1 [13; 34] /\ phase 6 [1] [13; 34] = (20 + 1) mod 2 ^ 6 /\
  exists out, packing_keyswitch_ciphertext Debug 6 2 1 1 [[[[5; 9]; [21; 10]]]] [[0; 0]; [0; 0]] [13; 34] = Ret out /\ rcoef (gphase 2 [[1; 0]] out) 1 mod 64 = 63.
Proof.
  split; [unfold dec_wf; cbn; lia|]. split.
  { unfold outcomes. apply in_prod_iff. split; [right; left; reflexivity|]. vm_compute. intuition. }
  split.
  { split; [reflexivity|]. intros [|[|i]] block H; cbn in H; inversion H; subst block. split; [reflexivity|].
    intros [|[|j]] row Hr; cbn in Hr; inversion Hr; subst row. split; [split; [reflexivity|repeat constructor; vm_compute; intuition discriminate]|].
    apply req_two; vm_compute; reflexivity. }
  split; [intros [|i] [|j] Hi Hj; try lia; vm_compute; reflexivity|].
  split; [split; [reflexivity|repeat constructor; vm_compute; intuition discriminate]|]. split; [reflexivity|].
  eexists. split; vm_compute; reflexivity.
Qed.
(** The function x -> 3x, of the message 20 of the same ciphertext: 60 becomes 60 + noise. *)
Example C66_private_functional_case :
  let E := fun _ _ : nat => NegaRing.R 2 [1; 0] in
  In (1, ((34, (-1, [1])), [(13, (1, [1]))])) (functional_outcomes 6 1 1 [-1; 1] [0; 1] [-1; 1]) /\
  gksk_encrypts 6 2 1 2 [[1; 0]] [1; -1] (rscal 3 (rone 2)) E [[[[5; 9]; [54; 9]]]; [[[0; 0]; [17; 0]]]] /\
  (forall i j, (i <= 1)%nat -> (j < 1)%nat -> eqm (2 ^ 6) (rcoef (E i j) 0) (nth j (snd (snd (nth i [(13, (1, [1])); (34, (-1, [1]))] (0, (0, []))))) 0)) /\
  (Rabs (IZR (3 * rcoef (rone 2) 0)) = 3)%R /\
  exists out, private_functional_keyswitch_ciphertext Debug 6 2 1 1 [[[[5; 9]; [54; 9]]]; [[[0; 0]; [17; 0]]]] [[0; 0]; [0; 0]] [13; 34] = Ret out /\
    rcoef (gphase 2 [[1; 0]] out) 0 mod 64 = (60 - 15) mod 64.
Proof.
  split.
  { unfold functional_outcomes. apply in_prod_iff. split; [right; left; reflexivity|]. apply in_prod_iff. split; vm_compute; intuition. }
  split.
  { split; [reflexivity|]. intros [|[|[|i]]] block H; cbn in H; inversion H; subst block; (split; [reflexivity|]);
    intros [|[|j]] row Hr; cbn in Hr; inversion Hr; subst row; (split; [split; [reflexivity|repeat constructor; vm_compute; intuition discriminate]|]);
    apply req_two; vm_compute; reflexivity. }
  split; [intros [|[|i]] [|j] Hi Hj; try lia; vm_compute; reflexivity|].
  split; [replace (3 * rcoef (rone 2) 0) with 3 by (vm_compute; reflexivity); apply Rabs_right; lra|].
  eexists. split; vm_compute; reflexivity.
Qed.
