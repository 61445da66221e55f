(** * Errors of the FFT backend *)
From Coq Require Import QArith Qreals Qabs Reals Lra Lia.
From Verif Require Import Base FloatFacts FourierConvSpec FourierConvModel FourierConvProofs FourierConvTheorems FourierBackendModel FourierBackendMac ComplexSpec ComplexFacts FourierBackendSpec.
Open Scope R_scope.

Definition u : R := / 9007199254740992.
Lemma u_pos : 0 < u. Proof. unfold u. lra. Qed.
Lemma u_small : u <= / 1000000000000. Proof. unfold u. lra. Qed.
Lemma Q2R_u53 : Q2R u53 = u. Proof. unfold Q2R, u53, u. cbn. lra. Qed.
Lemma Q2R_abs q : Q2R (Qabs q) = Rabs (Q2R q).
Proof.
  apply Qabs_case; intros H; apply Qle_Rle in H; rewrite RMicromega.Q2R_0 in H; [rewrite Rabs_pos_eq by assumption; reflexivity|].
  rewrite Q2R_opp, Rabs_left1 by assumption. reflexivity.
Qed.
Lemma Q2R_inject z : Q2R (inject_Z z) = IZR z.
Proof. unfold Q2R. cbn. lra. Qed.
Lemma approx_R x y s : approximates x y s -> Rabs (Q2R x - Q2R y) <= 4 * u * Q2R s.
Proof.
  unfold approximates. fold u53. intros H. apply Qle_Rle in H. rewrite Q2R_abs, Q2R_minus, !Q2R_mult, Q2R_u53 in H.
  replace (Q2R 4) with 4 in H by (unfold Q2R; cbn; lra). exact H.
Qed.
Lemma mag_R a b c d : Q2R (magnitude a b c d) = Rabs (Q2R a * Q2R b) + Rabs (Q2R c * Q2R d).
Proof. unfold magnitude. rewrite Q2R_plus, !Q2R_abs, !Q2R_mult. reflexivity. Qed.
(** Cauchy-Schwarz *)
Lemma mag_le a b : Rabs (fst a * fst b) + Rabs (snd a * snd b) <= cmod a * cmod b.
Proof.
  apply Rsqr_incr_0_var; [|apply Rmult_le_pos; apply cmod_pos]. unfold Rsqr.
  replace (cmod a * cmod b * (cmod a * cmod b)) with ((cmod a * cmod a) * (cmod b * cmod b)) by ring. rewrite !cmod_sq, !Rabs_mult.
  pose proof (Rsqr_abs (fst a)) as A1. pose proof (Rsqr_abs (snd a)) as A2. pose proof (Rsqr_abs (fst b)) as B1. pose proof (Rsqr_abs (snd b)) as B2. unfold Rsqr in *.
  rewrite A1, A2, B1, B2. generalize (Rabs (fst a)) (Rabs (snd a)) (Rabs (fst b)) (Rabs (snd b)). intros x y z t.
  pose proof (Rle_0_sqr (x * t - y * z)) as P. unfold Rsqr in P. lra.
Qed.
Lemma mag_le' a b : Rabs (fst a * snd b) + Rabs (snd a * fst b) <= cmod a * cmod b.
Proof.
  pose proof (mag_le a (snd b, fst b)) as H. cbn [fst snd] in H. replace (cmod b) with (cmod (snd b, fst b)); [exact H|].
  unfold cmod. cbn [fst snd]. f_equal. ring.
Qed.
Lemma parts_le a e : Rabs (fst a) <= e -> Rabs (snd a) <= e -> cmod a <= 2 * e.
Proof. intros. eapply Rle_trans; [apply cmod_parts|]. lra. Qed.
Lemma prod_re_R a b c d : Q2R (product_re a b c d) = fst (ctimes (Q2R a, Q2R b) (Q2R c, Q2R d)).
Proof. unfold product_re. rewrite Q2R_minus, !Q2R_mult. cbn. ring. Qed.
Lemma prod_im_R a b c d : Q2R (product_im a b c d) = snd (ctimes (Q2R a, Q2R b) (Q2R c, Q2R d)).
Proof. unfold product_im. rewrite Q2R_plus, !Q2R_mult. cbn. ring. Qed.
Lemma product_close z re im c d :
  approximates (fst z) (product_re re im c d) (magnitude re c im d) -> approximates (snd z) (product_im re im c d) (magnitude re d im c) ->
  cmod (csub (to_c z) (ctimes (Q2R re, Q2R im) (Q2R c, Q2R d))) <= 8 * u * (cmod (Q2R re, Q2R im) * cmod (Q2R c, Q2R d)).
Proof.
  intros H1 H2. apply approx_R in H1. apply approx_R in H2. rewrite mag_R, prod_re_R in H1. rewrite mag_R, prod_im_R in H2.
  pose proof (mag_le (Q2R re, Q2R im) (Q2R c, Q2R d)) as M1. pose proof (mag_le' (Q2R re, Q2R im) (Q2R c, Q2R d)) as M2. cbn [fst snd] in M1, M2. pose proof u_pos.
  set (m := cmod (Q2R re, Q2R im) * cmod (Q2R c, Q2R d)) in *. replace (8 * u * m) with (2 * (4 * u * m)) by ring.
  apply parts_le; cbn [csub to_c fst snd]; (eapply Rle_trans; [eassumption|]); (apply Rmult_le_compat_l; [lra|assumption]).
Qed.
Lemma mul_close_R r a b : mul_close r a b -> cmod (csub (to_c r) (ctimes (to_c a) (to_c b))) <= 8 * u * (cmod (to_c a) * cmod (to_c b)).
Proof. intros [H1 H2]. exact (product_close _ _ _ _ _ H1 H2). Qed.
Lemma mac_close_R r o a b : mac_close r o a b ->
  cmod (csub (to_c r) (cadd (to_c o) (ctimes (to_c a) (to_c b)))) <= 12 * u * (cmod (to_c o) + cmod (to_c a) * cmod (to_c b)).
Proof.
  intros [H1 H2]. apply Qle_Rle in H1. apply Qle_Rle in H2.
  rewrite Q2R_abs, Q2R_minus, Q2R_plus, prod_re_R, !Q2R_mult, Q2R_plus, Q2R_abs, mag_R, Q2R_u53 in H1. rewrite Q2R_abs, Q2R_minus, Q2R_plus, prod_im_R, !Q2R_mult, Q2R_plus, Q2R_abs, mag_R, Q2R_u53 in H2.
  replace (Q2R 6) with 6 in * by (unfold Q2R; cbn; lra).
  pose proof (mag_le (to_c a) (to_c b)) as M1. pose proof (mag_le' (to_c a) (to_c b)) as M2. pose proof (cmod_fst (to_c o)) as O1. pose proof (cmod_snd (to_c o)) as O2. pose proof u_pos.
  unfold to_c in M1, M2, O1, O2. cbn [fst snd] in M1, M2, O1, O2. fold (to_c a) (to_c b) (to_c o) in *.
  set (m := cmod (to_c o) + cmod (to_c a) * cmod (to_c b)) in *. replace (12 * u * m) with (2 * (6 * u * m)) by ring.
  apply parts_le; cbn [csub cadd to_c fst snd]; (eapply Rle_trans; [eassumption|]); (apply Rmult_le_compat_l; [lra|unfold m; lra]).
Qed.

(** ** One transform *)
Section transform.
Context (n : nat) (Hn : (0 < n)%nat) (order : nat -> nat) (Ho : permutes n order) (pl : plan) (tw : twisties) (phi tau : R).
Context (Hphi : 0 <= phi <= / 32) (Htau : 0 <= tau <= / 32).
Context (Hfwd : forall x, length x = n -> Forall is_c64 x -> length (plan_fwd pl x) = n /\ Forall is_c64 (plan_fwd pl x) /\
       forall k, (k < n)%nat -> cmod (csub (entry (plan_fwd pl x) k) (dft n (entry x) (order k))) <= phi * total n x).
Context (Hinv : forall y, length y = n -> Forall is_c64 y -> length (plan_inv pl y) = n /\ Forall is_c64 (plan_inv pl y) /\
       forall j, (j < n)%nat -> cmod (csub (entry (plan_inv pl y) j) (idft n (entry y) order j)) <= phi * total n y).
Context (Htw : accurate_twisties n tau tw).
Definition factor (j : nat) : complex := (Q2R (nth j (tw_re tw) 0%Q), Q2R (nth j (tw_im tw) 0%Q)).
Lemma factor_close j : (j < n)%nat -> cmod (csub (factor j) (twist n j)) <= 2 * tau.
Proof. intros Hj. destruct Htw as (_ & _ & _ & _ & H). destruct (H j Hj) as [A B]. apply parts_le; assumption. Qed.
Lemma factor_mod j : (j < n)%nat -> cmod (factor j) <= 1 + 2 * tau.
Proof.
  intros Hj. pose proof (factor_close j Hj) as H. replace (factor j) with (cadd (csub (factor j) (twist n j)) (twist n j)) by ring.
  eapply Rle_trans; [apply cmod_add|]. unfold twist at 2. rewrite cmod_cis. lra.
Qed.
Definition eta : R := 8 * u * (1 + 2 * tau) + 2 * tau.
Definition eps : R := phi * (1 + eta) + eta.
Lemma eta_bound : 0 <= eta /\ eta <= 9 * u + 2 * tau /\ eta <= / 8.
Proof. pose proof u_pos. pose proof u_small. unfold eta. assert (0 <= u * tau <= u * / 32) by (split; nra). repeat split; nra. Qed.
Lemma eps_bound : 0 <= eps /\ eps <= 5 / 4 * phi + 9 * u + 2 * tau /\ eps <= / 8.
Proof. pose proof eta_bound as (H1 & H2 & H3). pose proof u_small. unfold eps. assert (0 <= phi * eta <= phi * / 8) by (split; nra). repeat split; nra. Qed.

Definition twisted_close (x : nat -> complex) (zs : list (Q * Q)) : Prop :=
  length zs = n /\ Forall is_c64 zs /\ forall j, (j < n)%nat -> cmod (csub (entry zs j) (ctimes (x j) (factor j))) <= 8 * u * (cmod (x j) * cmod (factor j)).
Lemma fwd_bound x zs : twisted_close x zs -> forall k, (k < n)%nat ->
  cmod (csub (entry (plan_fwd pl zs) k) (dft n (fun j => ctimes (x j) (twist n j)) (order k))) <= eps * rsumr n (fun j => cmod (x j)).
Proof.
  intros (L & F & H) k Hk. destruct (Hfwd zs L F) as (_ & _ & HF). specialize (HF k Hk). pose proof eta_bound as (E1 & E2 & E3).
  assert (D : forall j, (j < n)%nat -> cmod (csub (entry zs j) (ctimes (x j) (twist n j))) <= eta * cmod (x j)).
  { intros j Hj. specialize (H j Hj). pose proof (factor_close j Hj) as C. pose proof (factor_mod j Hj) as M. pose proof (cmod_pos (x j)) as P. pose proof u_pos.
    eapply Rle_trans; [apply (cmod_tri _ (ctimes (x j) (factor j)))|]. replace (csub (ctimes (x j) (factor j)) (ctimes (x j) (twist n j))) with (ctimes (x j) (csub (factor j) (twist n j))) by ring.
    rewrite cmod_times. assert (A : 8 * u * (cmod (x j) * cmod (factor j)) <= 8 * u * (cmod (x j) * (1 + 2 * tau))) by (apply Rmult_le_compat_l; [lra|]; apply Rmult_le_compat_l; lra).
    assert (B : cmod (x j) * cmod (csub (factor j) (twist n j)) <= cmod (x j) * (2 * tau)) by (apply Rmult_le_compat_l; lra). unfold eta. lra. }
  set (S := rsumr n (fun j => cmod (x j))).
  assert (D1 : rsumr n (fun j => cmod (csub (entry zs j) (ctimes (x j) (twist n j)))) <= eta * S) by (unfold S; rewrite <- rsumr_mul; apply rsumr_le; exact D).
  assert (D2 : total n zs <= (1 + eta) * S).
  { unfold total, S. rewrite <- rsumr_mul. apply rsumr_le. intros j Hj. specialize (D j Hj).
    replace (entry zs j) with (cadd (csub (entry zs j) (ctimes (x j) (twist n j))) (ctimes (x j) (twist n j))) by ring. eapply Rle_trans; [apply cmod_add|]. rewrite (cmod_times (x j)). unfold twist at 2. rewrite cmod_cis. lra. }
  eapply Rle_trans; [apply (cmod_tri _ (dft n (entry zs) (order k)))|]. rewrite dft_sub. pose proof (dft_le n (fun j => csub (entry zs j) (ctimes (x j) (twist n j))) (order k)) as D3.
  unfold eps. assert (phi * total n zs <= phi * ((1 + eta) * S)) by (apply Rmult_le_compat_l; lra). lra.
Qed.

(** The transform of the polynomial with coefficients f, of total at most [S] *)
Definition close (a : list (Q * Q)) (A : nat -> complex) (S : R) : Prop :=
  length a = n /\ Forall is_c64 a /\ forall k, (k < n)%nat -> cmod (csub (entry a k) (A k)) <= eps * S /\ cmod (A k) <= S.
Lemma forward_close (f : Z -> R) zs c : (forall k, Rabs (f k) <= c) -> twisted_close (fun j => (f (Z.of_nat j), f (Z.of_nat j + Z.of_nat n)%Z)) zs ->
  close (plan_fwd pl zs) (values n order f) (INR n * (2 * c)).
Proof.
  intros Hc Hz. pose proof eps_bound as (E1 & _ & _).
  assert (S : rsumr n (fun j => cmod (f (Z.of_nat j), f (Z.of_nat j + Z.of_nat n)%Z)) <= INR n * (2 * c)).
  { rewrite <- rsumr_const. apply rsumr_le. intros j _. apply parts_le; apply Hc. }
  destruct (Hfwd zs (proj1 Hz) (proj1 (proj2 Hz))) as (L & F & _). split; [exact L|]. split; [exact F|]. intros k Hk.
  rewrite values_dft by assumption. split.
  - eapply Rle_trans; [apply fwd_bound; assumption|]. apply Rmult_le_compat_l; assumption.
  - eapply Rle_trans; [apply dft_le|]. eapply Rle_trans; [|exact S]. apply rsumr_le. intros j _. rewrite cmod_times. unfold twist. rewrite cmod_cis. lra.
Qed.
Lemma close_mod a A S k : close a A S -> (k < n)%nat -> 0 <= S -> cmod (entry a k) <= (1 + eps) * S.
Proof.
  intros (_ & _ & H) Hk HS. destruct (H k Hk) as [H1 H2]. replace (entry a k) with (cadd (csub (entry a k) (A k)) (A k)) by ring. eapply Rle_trans; [apply cmod_add|]. lra.
Qed.

(** ** Accumulation *)
Lemma product_bound a A S b B S' k M : close a A S -> close b B S' -> (k < n)%nat -> 0 <= S -> 0 <= S' -> S * S' <= M ->
  cmod (csub (ctimes (entry a k) (entry b k)) (ctimes (A k) (B k))) <= 3 * eps * M /\ cmod (entry a k) * cmod (entry b k) <= 2 * M /\ cmod (ctimes (A k) (B k)) <= M.
Proof.
  intros Ha Hb Hk HS HS' HM. pose proof eps_bound as (E1 & _ & E3). pose proof (close_mod a A S k Ha Hk HS) as Ma. pose proof (close_mod b B S' k Hb Hk HS') as Mb.
  destruct Ha as (_ & _ & Ha). destruct Hb as (_ & _ & Hb). destruct (Ha k Hk) as [A1 A2]. destruct (Hb k Hk) as [B1 B2].
  pose proof (cmod_pos (entry a k)). pose proof (cmod_pos (entry b k)). pose proof (cmod_pos (A k)). pose proof (cmod_pos (B k)).
  assert (P0 : 0 <= S * S') by (apply Rmult_le_pos; assumption).
  split; [|split].
  - replace (csub (ctimes (entry a k) (entry b k)) (ctimes (A k) (B k))) with (cadd (ctimes (csub (entry a k) (A k)) (entry b k)) (ctimes (A k) (csub (entry b k) (B k)))) by ring.
    eapply Rle_trans; [apply cmod_add|]. rewrite !cmod_times.
    assert (X1 : cmod (csub (entry a k) (A k)) * cmod (entry b k) <= (eps * S) * ((1 + eps) * S')) by (apply Rmult_le_compat; try apply cmod_pos; assumption).
    assert (X2 : cmod (A k) * cmod (csub (entry b k) (B k)) <= S * (eps * S')) by (apply Rmult_le_compat; try apply cmod_pos; assumption).
    assert (X3 : eps * (S * S') <= eps * M) by (apply Rmult_le_compat_l; assumption). assert (X4 : eps * (eps * (S * S')) <= / 8 * (eps * M)) by (apply Rmult_le_compat; try assumption; nra).
    assert (0 <= eps * M) by nra. lra.
  - assert (X : cmod (entry a k) * cmod (entry b k) <= ((1 + eps) * S) * ((1 + eps) * S')) by (apply Rmult_le_compat; assumption).
    assert (Y : (1 + eps) * (1 + eps) <= 2) by nra. assert (Z : (1 + eps) * (1 + eps) * (S * S') <= 2 * M) by (apply Rmult_le_compat; nra). lra.
  - rewrite cmod_times. eapply Rle_trans; [apply Rmult_le_compat; eassumption|]. exact HM.
Qed.

(** After [t] products, each of total at most [M]: *)
Definition kappa (T : R) : R := 3 * eps + 48 * u * T.
Definition acc_close (t T M : R) (o : list (Q * Q)) (O : nat -> complex) : Prop :=
  length o = n /\ Forall is_c64 o /\ forall k, (k < n)%nat -> cmod (csub (entry o k) (O k)) <= t * (kappa T * M) /\ cmod (O k) <= t * M.
Context (T : R) (HT : 1 <= T) (HK : kappa T <= 1).
Lemma kappa_pos : 0 <= kappa T. Proof. pose proof eps_bound as (E & _). pose proof u_pos. unfold kappa. nra. Qed.
Lemma first_product p ft k0 buffer a A S b B S' M : n = Nat.pow 2 k0 -> (3 <= k0)%nat -> length buffer = n -> close a A S -> close b B S' -> 0 <= S -> 0 <= S' -> S * S' <= M ->
  exists r, update_fourier p ft buffer a b true = Ret r /\ acc_close 1 T M r (fun k => ctimes (A k) (B k)).
Proof.
  intros En Hk0 Lb Ha Hb HS HS' HM. destruct (update_ok p ft k0 n true buffer a b En Hk0 Lb (proj1 Ha) (proj1 Hb)) as (r & E & L & F & H).
  exists r. split; [exact E|]. split; [exact L|]. split; [exact F|]. intros k Hk. specialize (H k Hk). cbn iota in H. apply mul_close_R in H. fold (entry r k) (entry a k) (entry b k) in H.
  destruct (product_bound a A S b B S' k M Ha Hb Hk HS HS' HM) as (P1 & P2 & P3). split; [|lra].
  eapply Rle_trans; [apply (cmod_tri _ (ctimes (entry a k) (entry b k)))|]. pose proof u_pos. assert (0 <= M) by nra.
  assert (X : 8 * u * (cmod (entry a k) * cmod (entry b k)) <= 8 * u * (2 * M)) by (apply Rmult_le_compat_l; lra). unfold kappa.
  assert (UM : 0 <= u * M) by (apply Rmult_le_pos; lra). assert (UT : 1 * (u * M) <= T * (u * M)) by (apply Rmult_le_compat_r; assumption). lra.
Qed.
Lemma next_product p ft k0 t o O a A S b B S' M : n = Nat.pow 2 k0 -> (3 <= k0)%nat -> 0 <= t -> t + 1 <= T -> acc_close t T M o O -> close a A S -> close b B S' -> 0 <= S -> 0 <= S' -> S * S' <= M ->
  exists r, update_fourier p ft o a b false = Ret r /\ acc_close (t + 1) T M r (fun k => cadd (O k) (ctimes (A k) (B k))).
Proof.
  intros En Hk0 Ht HtT HO Ha Hb HS HS' HM. destruct (update_ok p ft k0 n false o a b En Hk0 (proj1 HO) (proj1 Ha) (proj1 Hb)) as (r & E & L & F & H).
  exists r. split; [exact E|]. split; [exact L|]. split; [exact F|]. intros k Hk. specialize (H k Hk). cbn iota in H. apply mac_close_R in H. fold (entry r k) (entry o k) (entry a k) (entry b k) in H.
  destruct (product_bound a A S b B S' k M Ha Hb Hk HS HS' HM) as (P1 & P2 & P3). destruct HO as (_ & _ & HO). destruct (HO k Hk) as [O1 O2].
  pose proof u_pos as Hu. assert (HM0 : 0 <= M) by nra. pose proof kappa_pos as K0. split.
  - assert (Om : cmod (entry o k) <= 2 * (t * M)).
    { replace (entry o k) with (cadd (csub (entry o k) (O k)) (O k)) by ring. eapply Rle_trans; [apply cmod_add|]. assert (t * (kappa T * M) <= t * (1 * M)) by (apply Rmult_le_compat_l; [assumption|]; apply Rmult_le_compat_r; assumption). lra. }
    eapply Rle_trans; [apply (cmod_tri _ (cadd (entry o k) (ctimes (entry a k) (entry b k))))|].
    replace (csub (cadd (entry o k) (ctimes (entry a k) (entry b k))) (cadd (O k) (ctimes (A k) (B k)))) with (cadd (csub (entry o k) (O k)) (csub (ctimes (entry a k) (entry b k)) (ctimes (A k) (B k)))) by ring.
    assert (X : 12 * u * (cmod (entry o k) + cmod (entry a k) * cmod (entry b k)) <= 12 * u * (2 * (T * M))).
    { apply Rmult_le_compat_l; [lra|]. assert ((t + 1) * M <= T * M) by (apply Rmult_le_compat_r; assumption). lra. }
    eapply Rle_trans; [apply Rplus_le_compat; [eassumption|apply cmod_add]|]. unfold kappa in *.
    assert (0 <= u * (T * M)) by (apply Rmult_le_pos; [lra|]; apply Rmult_le_pos; lra). lra.
  - eapply Rle_trans; [apply cmod_add|]. lra.
Qed.

(** ** Coming back *)
Lemma conj_factor_close j : (j < n)%nat -> cmod (csub (conj (factor j)) (conj (twist n j))) <= 2 * tau.
Proof. intros Hj. replace (csub (conj (factor j)) (conj (twist n j))) with (conj (csub (factor j) (twist n j))) by (apply ceq; cbn; ring). unfold cmod, conj. cbn [fst snd]. rewrite Rmult_opp_opp. exact (factor_close j Hj). Qed.
Lemma conj_mod z : cmod (conj z) = cmod z. Proof. unfold cmod, conj. cbn [fst snd]. rewrite Rmult_opp_opp. reflexivity. Qed.
Lemma back_close o O M j : acc_close T T M o O -> 0 <= M -> (j < n)%nat ->
  let tmp := entry (plan_inv pl o) j in
  cmod (csub (ctimes tmp (conj (factor j))) (ctimes (idft n O order j) (conj (twist n j)))) <= INR n * (T * M) * ((2 * phi + kappa T) * (9 / 8) + 2 * tau) /\
  cmod tmp * cmod (factor j) <= INR n * (T * M) * 4.
Proof.
  intros (L & F & HO) HM Hj tmp. destruct (Hinv o L F) as (_ & _ & HI). specialize (HI j Hj). fold tmp in HI. pose proof kappa_pos as K0. pose proof (n_pos n Hn) as Np.
  set (TM := T * M) in *. assert (TM0 : 0 <= TM) by (apply Rmult_le_pos; lra). set (NT := INR n * TM). assert (NT0 : 0 <= NT) by (apply Rmult_le_pos; lra).
  assert (Tot : total n o <= 2 * NT).
  { unfold total. replace (2 * NT) with (INR n * (2 * TM)) by (unfold NT; ring). rewrite <- rsumr_const. apply rsumr_le. intros k Hk. destruct (HO k Hk) as [O1 O2].
    replace (entry o k) with (cadd (csub (entry o k) (O k)) (O k)) by ring. eapply Rle_trans; [apply cmod_add|]. assert (T * (kappa T * M) <= 1 * TM) by (unfold TM; replace (T * (kappa T * M)) with (kappa T * (T * M)) by ring; apply Rmult_le_compat_r; assumption). lra. }
  assert (D1 : cmod (csub (idft n (entry o) order j) (idft n O order j)) <= kappa T * NT).
  { rewrite idft_sub. eapply Rle_trans; [apply idft_le|]. replace (kappa T * NT) with (INR n * (T * (kappa T * M))) by (unfold NT, TM; ring). rewrite <- rsumr_const. apply rsumr_le. intros k Hk. apply (HO k Hk). }
  assert (D2 : cmod (idft n O order j) <= NT).
  { eapply Rle_trans; [apply idft_le|]. unfold NT. rewrite <- rsumr_const. apply rsumr_le. intros k Hk. apply (HO k Hk). }
  assert (D3 : cmod (csub tmp (idft n O order j)) <= (2 * phi + kappa T) * NT).
  { eapply Rle_trans; [apply (cmod_tri _ (idft n (entry o) order j))|]. assert (phi * total n o <= phi * (2 * NT)) by (apply Rmult_le_compat_l; lra). lra. }
  assert (D4 : cmod tmp <= 3 * NT).
  { replace tmp with (cadd (csub tmp (idft n O order j)) (idft n O order j)) by ring. eapply Rle_trans; [apply cmod_add|]. assert ((2 * phi + kappa T) * NT <= 2 * NT) by (apply Rmult_le_compat_r; lra). lra. }
  pose proof (factor_mod j Hj) as FM. pose proof (conj_factor_close j Hj) as FC. replace (INR n * TM) with NT by reflexivity. split.
  - replace (csub (ctimes tmp (conj (factor j))) (ctimes (idft n O order j) (conj (twist n j)))) with (cadd (ctimes (csub tmp (idft n O order j)) (conj (factor j))) (ctimes (idft n O order j) (csub (conj (factor j)) (conj (twist n j))))) by ring.
    eapply Rle_trans; [apply cmod_add|]. rewrite !cmod_times, conj_mod.
    assert (X1 : cmod (csub tmp (idft n O order j)) * cmod (factor j) <= ((2 * phi + kappa T) * NT) * (9 / 8)) by (apply Rmult_le_compat; try apply cmod_pos; lra).
    assert (X2 : cmod (idft n O order j) * cmod (csub (conj (factor j)) (conj (twist n j))) <= NT * (2 * tau)) by (apply Rmult_le_compat; try apply cmod_pos; assumption). lra.
  - assert (cmod tmp * cmod (factor j) <= (3 * NT) * (9 / 8)) by (apply Rmult_le_compat; try apply cmod_pos; lra). lra.
Qed.

(** The exact values come back to the negacyclic products. *)
Lemma idft_exact (O : nat -> complex) j : ctimes (idft n O order j) (conj (twist n j)) = csum n (fun k => ctimes (cis (- (IZR (Z.of_nat j) * angle n order k))) (O k)).
Proof.
  pose proof (n_pos n Hn). unfold idft, twist. rewrite cis_conj, <- csum_mul_r. apply csum_ext. intros k _.
  replace (- (IZR (Z.of_nat j) * angle n order k)) with (2 * PI * INR j * INR (order k) / INR n + - (PI * INR j / (2 * INR n))).
  - rewrite cis_add. ring.
  - unfold angle. rewrite <- INR_IZR_INZ. field. lra.
Qed.
End transform.
