(** * C55: the FFT backend computes negacyclic products up to an explicit error *)
From Coq Require Import QArith Qreals Qabs Lia.
From Verif Require Import Base Word WordFacts NegaRing PolySpec RingSum ExtProdModel ExtProdSpec FloatFacts SeededModel FourierConvSpec FourierConvModel FourierConvProofs FourierConvTheorems FourierBackendModel FourierBackendMac.
From Coq Require Import Reals Lra.
From Verif Require Import ComplexSpec ComplexFacts FourierBackendSpec FourierBackendProofs.
Open Scope R_scope.

Lemma sgn_0 w : (0 < w)%Z -> sgn w 0 = 0%Z.
Proof. intros H. unfold sgn. destruct (Z.ltb_spec 0 (2 ^ (w - 1))) as [A|A]; [reflexivity|]. pose proof (Z.pow_pos_nonneg 2 (w - 1)). lia. Qed.
Lemma sgn_nth w l i : (0 < w)%Z -> nth i (map (sgn w) l) 0%Z = sgn w (nth i l 0%Z).
Proof. intros H. rewrite <- (sgn_0 w H) at 1. apply map_nth. Qed.
Lemma ext_bound N l c k : (0 <= c)%Z -> Forall (fun x => (Z.abs x <= c)%Z) l -> (Z.abs (ext N l k) <= c)%Z.
Proof.
  intros Hc H. unfold ext. destruct N as [|N]; [lia|].
  assert (A : (Z.abs (coef l (k mod Z.of_nat (S N))) <= c)%Z).
  { unfold coef. destruct (Nat.lt_ge_cases (Z.to_nat (k mod Z.of_nat (S N))) (length l)) as [L|L].
    - rewrite Forall_forall in H. apply H, nth_In, L.
    - rewrite nth_overflow by lia. lia. }
  destruct (Z.even (k / Z.of_nat (S N))); lia.
Qed.
Lemma sgn_Forall w l : (0 < w)%Z -> Forall (is_word w) l -> Forall (fun x => (Z.abs x <= 2 ^ (w - 1))%Z) (map (sgn w) l).
Proof. intros Hw H. apply Forall_forall. intros x Hx. apply in_map_iff in Hx. destruct Hx as (y & <- & Hy). rewrite Forall_forall in H. pose proof (sgn_range w y Hw (H y Hy)). lia. Qed.
Lemma finite_choice (P : nat -> Z -> Prop) N : (forall i, (i < N)%nat -> exists e, P i e) -> exists l, length l = N /\ forall i, (i < N)%nat -> P i (nth i l 0%Z).
Proof.
  induction N as [|N IH]; intros H; [exists []; split; [reflexivity|lia]|]. destruct IH as (l & L & Hl); [intros; apply H; lia|]. destruct (H N) as [e He]; [lia|].
  exists (l ++ [e]). split; [rewrite app_length; cbn; lia|]. intros i Hi. destruct (Nat.eq_dec i N) as [->|Hne].
  - rewrite app_nth2, L, Nat.sub_diag by lia. exact He.
  - rewrite app_nth1 by lia. apply Hl. lia.
Qed.
Lemma IZR_sumz N f : IZR (sumz N f) = rsumr N (fun i => IZR (f (Z.of_nat i))).
Proof. induction N as [|N IH]; [reflexivity|]. cbn [sumz rsumr]. rewrite plus_IZR, IH. reflexivity. Qed.
Lemma Q2R_pow2 w : (0 <= w)%Z -> Q2R (2 ^ w) = IZR (2 ^ w).
Proof. intros H. rewrite (Qeq_eqR _ _ (Q2_Z w H)). apply Q2R_inject. Qed.
Lemma pow2_IZR_pos w : (0 <= w)%Z -> 0 < IZR (2 ^ w). Proof. intros H. apply IZR_lt. apply Z.pow_pos_nonneg; lia. Qed.
Lemma Q2R_pow2_opp w : (0 <= w)%Z -> Q2R (2 ^ (- w)) = / IZR (2 ^ w).
Proof.
  intros H. pose proof (pow2_IZR_pos w H) as P. assert (E : Q2R (2 ^ (- w)) * IZR (2 ^ w) = 1).
  { rewrite <- Q2R_pow2, <- Q2R_mult by assumption. rewrite (Qeq_eqR _ _ (Q2_opp w)). unfold Q2R. cbn. lra. }
  apply (Rmult_eq_reg_r (IZR (2 ^ w))); [|lra]. rewrite E, Rinv_l; lra.
Qed.

Lemma halves n (l : list Z) : length l = (2 * n)%nat -> length (firstn n l) = n /\ length (skipn n l) = n /\ (forall i, (i < n)%nat -> nth i (firstn n l) 0%Z = nth i l 0%Z /\ nth i (skipn n l) 0%Z = nth (n + i) l 0%Z).
Proof.
  intros L. rewrite firstn_length, skipn_length, L. split; [lia|]. split; [lia|]. intros i Hi. split.
  - rewrite <- (firstn_skipn n l) at 2. rewrite app_nth1; [reflexivity|]. rewrite firstn_length; lia.
  - rewrite <- (firstn_skipn n l) at 2. rewrite app_nth2; rewrite firstn_length; [|lia]. f_equal. lia.
Qed.
Lemma half_of n : (2 * n / 2 = n)%nat. Proof. rewrite Nat.mul_comm, Nat.div_mul by lia. reflexivity. Qed.
Lemma debug_ok p a c : a = c -> debug_assert p (Nat.eqb a c) = Ret tt. Proof. intros ->. unfold debug_assert. rewrite Nat.eqb_refl. destruct p; reflexivity. Qed.
Lemma Forall_half1 n (P : Z -> Prop) l : Forall P l -> Forall P (firstn n l).
Proof. intros H. rewrite <- (firstn_skipn n l) in H. apply Forall_app in H. apply H. Qed.
Lemma Forall_half2 n (P : Z -> Prop) l : Forall P l -> Forall P (skipn n l).
Proof. intros H. rewrite <- (firstn_skipn n l) in H. apply Forall_app in H. apply H. Qed.


Section backend.
Context (p : profile) (ft : features) (w : Z) (k0 n : nat) (pl : plan) (tw : twisties) (buffer : list (Q * Q)) (phi tau : R) (b : Z) (T : nat).
Context (Hw : w = 32%Z \/ w = 64%Z) (Hft : nightly_avx512 ft = false \/ w = 32%Z) (En : n = Nat.pow 2 k0) (Hk0 : (3 <= k0)%nat) (Lb : length buffer = n).
Context (Hphi : 0 <= phi <= / 32) (Htau : 0 <= tau <= / 32) (Htw : accurate_twisties n tau tw) (HT1 : (1 <= T)%nat) (HT : INR T <= IZR (2 ^ 40)).
Context (order : nat -> nat) (Ho : permutes n order).
Context (Hfwd : forall x, length x = n -> Forall is_c64 x -> length (plan_fwd pl x) = n /\ Forall is_c64 (plan_fwd pl x) /\
       forall k, (k < n)%nat -> cmod (csub (entry (plan_fwd pl x) k) (dft n (entry x) (order k))) <= phi * total n x).
Context (Hinv : forall y, length y = n -> Forall is_c64 y -> length (plan_inv pl y) = n /\ Forall is_c64 (plan_inv pl y) /\
       forall j, (j < n)%nat -> cmod (csub (entry (plan_inv pl y) j) (idft n (entry y) order j)) <= phi * total n y).
Notation N := (2 * n)%nat.
Notation W := (IZR (2 ^ w)).
Notation K := (kappa phi tau (INR T)).

Lemma w_pos : (0 < w)%Z. Proof. lia. Qed.
Lemma n_positive : (0 < n)%nat. Proof. rewrite En. apply Nat.neq_0_lt_0, Nat.pow_nonzero. lia. Qed.
(** The coefficient functions *)
Definition key_fun (g : list Z) (k : Z) : R := IZR (ext N (map (sgn w) g) k) / W.
Definition digit_fun (d : list Z) (k : Z) : R := IZR (ext N (map (sgn w) d) k).
Lemma fun_anti l k : IZR (ext N l (k + 2 * Z.of_nat n)%Z) = - IZR (ext N l k).
Proof. replace (2 * Z.of_nat n)%Z with (Z.of_nat N) by lia. rewrite ext_anti. apply opp_IZR. Qed.
Lemma ext_nat l i : (i < N)%nat -> ext N (map (sgn w) l) (Z.of_nat i) = sgn w (nth i l 0%Z).
Proof. intros Hi. rewrite ext_small by lia. unfold coef. rewrite Nat2Z.id. apply sgn_nth, w_pos. Qed.
Lemma ext_nat2 l i : (i < n)%nat -> ext N (map (sgn w) l) (Z.of_nat i + Z.of_nat n) = sgn w (nth (n + i) l 0%Z).
Proof. intros Hi. replace (Z.of_nat i + Z.of_nat n)%Z with (Z.of_nat (n + i)) by lia. apply ext_nat. lia. Qed.

Lemma key_ok g : poly_wf w N g -> exists a, forward_as_torus p w pl tw buffer g = Ret a /\ close n phi tau a (values n order (key_fun g)) (INR n).
Proof.
  intros [L F]. pose proof w_pos as Wp. pose proof (pow2_IZR_pos w ltac:(lia)) as WR. destruct (halves n g L) as (L1 & L2 & H).
  unfold forward_as_torus, forward_with_conv. rewrite debug_ok by (rewrite L, Lb; reflexivity). cbn [obind]. rewrite L, half_of.
  eexists. split; [reflexivity|]. destruct Htw as (T1 & T2 & _). destruct (C54_forward_torus w n buffer (firstn n g) (skipn n g) tw Wp Lb L1 L2 T1 T2) as (A1 & A2 & A3). cbv zeta in A1, A2, A3.
  replace (INR n) with (INR n * (2 * (/ 2))) by lra. apply (forward_close n n_positive order pl tw phi tau Hphi Htau Hfwd Htw).
  - intros k. unfold key_fun. pose proof (ext_bound N _ (2 ^ (w - 1)) k (Z.pow_nonneg 2 (w - 1) ltac:(lia)) (sgn_Forall w g Wp F)) as B.
    unfold Rdiv. rewrite Rabs_mult, <- abs_IZR, (Rabs_pos_eq (/ W)) by (left; apply Rinv_0_lt_compat; assumption). apply IZR_le in B.
    assert (E : W = 2 * IZR (2 ^ (w - 1))) by (rewrite <- mult_IZR; f_equal; rewrite <- Z.pow_succ_r by lia; f_equal; lia).
    apply (Rmult_le_reg_r W); [assumption|]. rewrite Rmult_assoc, Rinv_l by lra. lra.
  - split; [exact A1|]. split; [exact A2|]. intros j Hj. destruct (A3 j Hj) as [B1 B2]. pose proof (product_close _ _ _ _ _ B1 B2) as C. clear A3 B1 B2.
    destruct (H j Hj) as [H1 H2]. rewrite H1, H2 in C. rewrite !Q2R_mult, !Q2R_inject, Q2R_pow2_opp in C by lia. unfold key_fun. rewrite ext_nat, ext_nat2 by lia. exact C.
Qed.
Lemma digit_ok d : poly_wf w N d -> Forall (fun x => (Z.abs (sgn w x) <= 2 ^ (b - 1))%Z) d ->
  exists a, forward_as_integer p ft w pl tw buffer d = Ret a /\ close n phi tau a (values n order (digit_fun d)) (INR n * (2 * IZR (2 ^ (b - 1)))).
Proof.
  intros [L F] B. pose proof w_pos as Wp. destruct (halves n d L) as (L1 & L2 & H).
  unfold forward_as_integer, forward_with_conv. rewrite debug_ok by (rewrite L, Lb; reflexivity). cbn [obind]. rewrite L, half_of. destruct Htw as (T1 & T2 & _).
  destruct (C54_forward p ft w k0 n buffer (firstn n d) (skipn n d) tw Hw En Hk0 Lb L1 L2 T1 T2 (Forall_half1 n _ _ F) (Forall_half2 n _ _ F)) as (zs & E & A1 & A2 & A3).
  rewrite E. cbn [obind]. eexists. split; [reflexivity|]. apply (forward_close n n_positive order pl tw phi tau Hphi Htau Hfwd Htw).
  - intros k. unfold digit_fun. rewrite <- abs_IZR. apply IZR_le. apply ext_bound; [apply Z.pow_nonneg; lia|]. apply Forall_forall. intros x Hx. apply in_map_iff in Hx. destruct Hx as (y & <- & Hy). rewrite Forall_forall in B. apply B, Hy.
  - split; [exact A1|]. split; [exact A2|]. intros j Hj. destruct (A3 j Hj) as [B1 B2]. pose proof (product_close _ _ _ _ _ B1 B2) as C. clear A3 B1 B2.
    destruct (H j Hj) as [H1 H2]. rewrite H1, H2 in C. rewrite !Q2R_inject in C. unfold digit_fun. rewrite ext_nat, ext_nat2 by lia. exact C.
Qed.

(** ** The accumulated products *)
Definition good_pair (gd : list Z * list Z) : Prop :=
  poly_wf w N (fst gd) /\ poly_wf w N (snd gd) /\ Forall (fun x => (Z.abs (sgn w x) <= 2 ^ (b - 1))%Z) (snd gd).
Definition exact_at (pairs : list (list Z * list Z)) (k : nat) : complex :=
  fold_right (fun gd s => cadd (ctimes (values n order (key_fun (fst gd)) k) (values n order (digit_fun (snd gd)) k)) s) c0 pairs.
Notation M := (INR n * (INR n * (2 * IZR (2 ^ (b - 1))))).
Notation B := (fft_backend p ft w pl tw buffer).
Lemma K_le_1 : K <= 1.
Proof.
  pose proof (eps_bound phi tau Hphi Htau) as (_ & E & _). pose proof u_small as U. unfold kappa. pose proof u_pos.
  assert (u * INR T <= u * IZR (2 ^ 40)) by (apply Rmult_le_compat_l; lra). assert (u * IZR (2 ^ 40) <= / 8192) by (unfold u; cbn; lra). lra.
Qed.
Lemma T_real : 1 <= INR T. Proof. apply (le_INR 1). exact HT1. Qed.
Lemma pow_nonneg : 0 <= IZR (2 ^ (b - 1)). Proof. apply IZR_le. apply Z.pow_nonneg. lia. Qed.
Lemma S2_nonneg : 0 <= INR n * (2 * IZR (2 ^ (b - 1))). Proof. apply Rmult_le_pos; [apply pos_INR|]. pose proof pow_nonneg. lra. Qed.
Lemma M_nonneg : 0 <= M. Proof. apply Rmult_le_pos; [apply pos_INR|apply S2_nonneg]. Qed.
Lemma acc_ext t o O O' : (forall k, O k = O' k) -> acc_close n phi tau t (INR T) M o O -> acc_close n phi tau t (INR T) M o O'.
Proof. intros H (L & F & A). split; [exact L|]. split; [exact F|]. intros k Hk. rewrite <- H. apply A, Hk. Qed.
Lemma acc_weaken t o O : t <= INR T -> acc_close n phi tau t (INR T) M o O -> acc_close n phi tau (INR T) (INR T) M o O.
Proof.
  intros H (L & F & A). split; [exact L|]. split; [exact F|]. intros k Hk. destruct (A k Hk) as [A1 A2]. pose proof M_nonneg. pose proof (kappa_pos phi tau Hphi Htau (INR T) T_real).
  split; (eapply Rle_trans; [eassumption|]); (apply Rmult_le_compat_r; [|assumption]); [apply Rmult_le_pos; assumption|assumption].
Qed.
Lemma fold_close rest : forall o O t, Forall good_pair rest -> 0 <= t -> t + INR (length rest) <= INR T -> acc_close n phi tau t (INR T) M o O ->
  acc_close n phi tau (t + INR (length rest)) (INR T) M (fold_left (fun o '(g, d) => bk_mac B o (bk_key B g) (bk_digit B d)) rest o) (fun k => cadd (O k) (exact_at rest k)).
Proof.
  induction rest as [|[g d] rest IH]; intros o O t HF Ht HtT A.
  - cbn [length fold_left exact_at fold_right INR]. rewrite Rplus_0_r. eapply acc_ext; [|exact A]. intros k. ring.
  - inversion HF as [|? ? [G1 [G2 G3]] HF']. subst. cbn [fst snd] in G1, G2, G3. cbn [fold_left]. change (length ((g, d) :: rest)) with (S (length rest)) in *. rewrite S_INR in *.
    destruct (key_ok g G1) as (a & Ea & Ca). destruct (digit_ok d G2 G3) as (c & Ec & Cc).
    pose proof (pos_INR (length rest)). destruct (next_product n phi tau Hphi Htau (INR T) T_real K_le_1 p ft k0 t o O a _ _ c _ _ M En Hk0 Ht ltac:(lra) A Ca Cc (pos_INR n) S2_nonneg (Rle_refl _)) as (r & Er & Cr).
    replace (bk_mac B o (bk_key B g) (bk_digit B d)) with r by (cbn [fft_backend bk_mac bk_key bk_digit]; rewrite Ea, Ec; cbn [or_else]; rewrite Er; reflexivity).
    replace (t + (INR (length rest) + 1)) with (t + 1 + INR (length rest)) by ring.
    eapply acc_ext; [|apply (IH r (fun k => cadd (O k) (ctimes (values n order (key_fun g) k) (values n order (digit_fun d) k))) (t + 1)); [exact HF'|lra|lra|exact Cr]]. intros k. cbn [exact_at fold_right fst snd]. fold (exact_at rest k). ring.
Qed.

(** ** The exact result *)
Definition exact_int (pairs : list (list Z * list Z)) (m : Z) : Z :=
  rcoef (rsuml pairs (fun '(g, d) => rmul (NegaRing.R N (map (sgn w) g)) (NegaRing.R N (map (sgn w) d)))) m.
Lemma product_int g d m : nega_product n (key_fun g) (digit_fun d) m = IZR (rcoef (rmul (NegaRing.R N (map (sgn w) g)) (NegaRing.R N (map (sgn w) d))) m) / W.
Proof.
  unfold nega_product. cbn [rcoef rmul proj1_sig]. unfold rcoef at 1. cbn [proj1_sig NegaRing.R]. rewrite IZR_sumz. unfold Rdiv. rewrite Rmult_comm, <- rsumr_mul. apply rsumr_ext. intros i _.
  unfold key_fun, digit_fun. cbn [proj1_sig]. rewrite mult_IZR. unfold rcoef, NegaRing.R. cbn [proj1_sig]. unfold Rdiv. ring.
Qed.
Lemma exact_back pairs m : csum n (fun k => ctimes (cis (- (IZR m * angle n order k))) (exact_at pairs k)) =
  ctimes (creal (INR n)) (IZR (exact_int pairs m) / W, IZR (exact_int pairs (m + Z.of_nat n)) / W).
Proof.
  pose proof n_positive as Np. induction pairs as [|[g d] pairs IH].
  - unfold exact_int. cbn [exact_at fold_right rsuml]. rewrite csum_zero by (intros; ring). cbn [rcoef rzero proj1_sig]. apply ceq; cbn; unfold Rdiv; ring.
  - rewrite (csum_ext _ _ (fun k => cadd (ctimes (cis (- (IZR m * angle n order k))) (ctimes (values n order (key_fun g) k) (values n order (digit_fun d) k))) (ctimes (cis (- (IZR m * angle n order k))) (exact_at pairs k)))) by (intros; cbn [exact_at fold_right fst snd]; fold (exact_at pairs k); ring).
    rewrite csum_add, IH, convolution by (try assumption; intros; apply fun_anti). rewrite !product_int. unfold exact_int. cbn [rsuml].
    assert (RA : forall (x y : rp N) k, rcoef (radd x y) k = (rcoef x k + rcoef y k)%Z) by reflexivity. rewrite !RA, !plus_IZR. apply ceq; cbn [cadd ctimes creal fst snd]; unfold Rdiv; ring.
Qed.

(** ** Back to words *)
Lemma back_target_R i inp : length inp = n -> Q2R (fst (back_target n i inp tw)) = / INR n * fst (ctimes (entry inp i) (conj (factor tw i))) /\
  Q2R (snd (back_target n i inp tw)) = / INR n * snd (ctimes (entry inp i) (conj (factor tw i))).
Proof.
  intros L. pose proof (n_pos n n_positive) as Np. unfold back_target. cbn [fst snd]. rewrite !Q2R_mult, prod_re_R, prod_im_R.
  assert (I : Q2R (/ inject_Z (Z.of_nat n)) = / INR n).
  { rewrite Q2R_inv, Q2R_inject, <- INR_IZR_INZ; [reflexivity|]. intros E. apply Qeq_eqR in E. rewrite Q2R_inject, <- INR_IZR_INZ, RMicromega.Q2R_0 in E. lra. }
  rewrite I, Q2R_opp. split; reflexivity.
Qed.
Lemma back_error_R i inp : Q2R (fst (back_error w n i inp tw)) <= 3 / 2 + W * (4 * u * (/ INR n * (cmod (entry inp i) * cmod (factor tw i)))) /\
  Q2R (snd (back_error w n i inp tw)) <= 3 / 2 + W * (4 * u * (/ INR n * (cmod (entry inp i) * cmod (factor tw i)))).
Proof.
  pose proof (n_pos n n_positive) as Np. pose proof u_pos. pose proof (pow2_IZR_pos w ltac:(pose proof w_pos; lia)) as WR. assert (IN : 0 < / INR n) by (apply Rinv_0_lt_compat; exact Np).
  assert (I : Q2R (/ inject_Z (Z.of_nat n)) = / INR n).
  { rewrite Q2R_inv, Q2R_inject, <- INR_IZR_INZ; [reflexivity|]. intros E. apply Qeq_eqR in E. rewrite Q2R_inject, <- INR_IZR_INZ, RMicromega.Q2R_0 in E. lra. }
  unfold back_error. cbn [fst snd]. fold u53. rewrite !Q2R_plus, !Q2R_mult, !mag_R, Q2R_u53, I, Q2R_pow2 by (pose proof w_pos; lia).
  replace (Q2R 4) with 4 by (unfold Q2R; cbn; lra). replace (Q2R (3 # 2)) with (3 / 2) by (unfold Q2R; cbn; lra).
  pose proof (mag_le (entry inp i) (factor tw i)) as M1. pose proof (mag_le' (entry inp i) (factor tw i)) as M2. cbn [entry to_c factor fst snd] in M1, M2.
  split; apply Rplus_le_compat_l; (apply Rmult_le_compat_l; [lra|]); (apply Rmult_le_compat_l; [lra|]); (apply Rmult_le_compat_l; [lra|]); assumption.
Qed.
Lemma adds_R old new t e : adds w old new t e -> exists k, Rabs (IZR (new - old + k * 2 ^ w) - W * Q2R t) <= Q2R e.
Proof.
  intros [_ [k H]]. exists k. apply Qle_Rle in H. rewrite Q2R_abs, Q2R_minus, Q2R_mult, Q2R_inject, Q2R_pow2 in H by (pose proof w_pos; lia). exact H.
Qed.
Lemma fst_tri a c x : Rabs (x - fst a) <= Rabs (x - fst c) + cmod (csub c a).
Proof. replace (x - fst a) with ((x - fst c) + fst (csub c a)) by (cbn; ring). eapply Rle_trans; [apply Rabs_triang|]. pose proof (cmod_fst (csub c a)). lra. Qed.

Lemma final_bound pairs o E j : acc_close n phi tau (INR T) (INR T) M o (exact_at pairs) -> fft_error w n b T phi tau <= IZR E -> (j < n)%nat ->
  forall old new, 
  (adds w old new (fst (back_target n j (plan_inv pl o) tw)) (fst (back_error w n j (plan_inv pl o) tw)) -> exists e, (Z.abs e <= E)%Z /\ eqm (2 ^ w) new (old + exact_int pairs (Z.of_nat j) + e)) /\
  (adds w old new (snd (back_target n j (plan_inv pl o) tw)) (snd (back_error w n j (plan_inv pl o) tw)) -> exists e, (Z.abs e <= E)%Z /\ eqm (2 ^ w) new (old + exact_int pairs (Z.of_nat j + Z.of_nat n) + e)).
Proof.
  intros HA HE Hj old new. pose proof n_positive as Np. pose proof (n_pos n Np) as NR. pose proof w_pos as Wp. pose proof (pow2_IZR_pos w ltac:(lia)) as WR. pose proof u_pos as Up.
  destruct (Hinv o (proj1 HA) (proj1 (proj2 HA))) as (Li & _ & _).
  destruct (back_close n Np order pl tw phi tau Hphi Htau Hinv Htw (INR T) T_real K_le_1 o _ M j HA M_nonneg Hj) as [D1 D2]. cbv zeta in D1, D2.
  rewrite (idft_exact n Np), exact_back in D1. set (tmp := entry (plan_inv pl o) j) in *. set (c := ctimes tmp (conj (factor tw j))) in *.
  destruct (back_target_R j (plan_inv pl o) Li) as [T1 T2]. fold tmp c in T1, T2. destruct (back_error_R j (plan_inv pl o)) as [E1 E2]. fold tmp in E1, E2.
  set (TM := INR T * M) in *. assert (TM0 : 0 <= TM) by (apply Rmult_le_pos; [pose proof T_real; lra|apply M_nonneg]).
  set (i1 := exact_int pairs (Z.of_nat j)) in *. set (i2 := exact_int pairs (Z.of_nat j + Z.of_nat n)) in *.
  set (ex := ctimes (creal (INR n)) (IZR i1 / W, IZR i2 / W)) in *.
  assert (X1 : / INR n * fst ex = IZR i1 / W) by (unfold ex; cbn; field; lra). assert (X2 : / INR n * snd ex = IZR i2 / W) by (unfold ex; cbn; field; lra).
  assert (ErrA : 3 / 2 + W * (4 * u * (/ INR n * (cmod tmp * cmod (factor tw j)))) <= 3 / 2 + W * (16 * u * TM)).
  { apply Rplus_le_compat_l, Rmult_le_compat_l; [lra|]. replace (16 * u * TM) with (4 * u * (4 * TM)) by ring. apply Rmult_le_compat_l; [lra|].
    apply (Rmult_le_reg_l (INR n)); [assumption|]. rewrite <- Rmult_assoc, Rinv_r by lra. lra. }
  assert (Main : W * (/ INR n * (INR n * TM * ((2 * phi + K) * (9 / 8) + 2 * tau))) + (3 / 2 + W * (16 * u * TM)) <= IZR E).
  { eapply Rle_trans; [|exact HE]. unfold fft_error. replace (/ INR n * (INR n * TM * ((2 * phi + K) * (9 / 8) + 2 * tau))) with (TM * ((2 * phi + K) * (9 / 8) + 2 * tau)) by (field; lra).
    replace (INR T * (2 * INR n * INR n * IZR (2 ^ (b - 1)))) with TM by (unfold TM; ring).
    pose proof (eps_bound phi tau Hphi Htau) as (Ee0 & Ee & _). unfold kappa. replace (104 * INR T / IZR (2 ^ 53)) with (104 * (u * INR T)) by (unfold u; cbn; field).
    assert (UT : u <= u * INR T) by (pose proof T_real; rewrite <- (Rmult_1_r u) at 1; apply Rmult_le_compat_l; lra).
    assert (Y : (2 * phi + (3 * eps phi tau + 48 * u * INR T)) * (9 / 8) + 2 * tau + 16 * u <= 7 * phi + 9 * tau + 104 * (u * INR T)) by lra.
    assert (Z : W * TM * ((2 * phi + (3 * eps phi tau + 48 * u * INR T)) * (9 / 8) + 2 * tau + 16 * u) <= W * TM * (7 * phi + 9 * tau + 104 * (u * INR T))) by (apply Rmult_le_compat_l; [apply Rmult_le_pos; lra|exact Y]). lra. }
  assert (Close : forall cp ep, Rabs (cp - ep) <= cmod (csub c ex) -> Rabs (W * (/ INR n * cp) - W * (/ INR n * ep)) <= W * (/ INR n * (INR n * TM * ((2 * phi + K) * (9 / 8) + 2 * tau)))).
  { intros cp ep H. replace (W * (/ INR n * cp) - W * (/ INR n * ep)) with (W * (/ INR n * (cp - ep))) by ring. rewrite Rabs_mult, (Rabs_pos_eq W) by lra. apply Rmult_le_compat_l; [lra|].
    assert (0 < / INR n) by (apply Rinv_0_lt_compat; assumption). rewrite Rabs_mult, (Rabs_pos_eq (/ INR n)) by lra. apply Rmult_le_compat_l; [lra|]. eapply Rle_trans; [exact H|]. exact D1. }
  assert (Fin : forall t e cp ep i, Q2R t = / INR n * cp -> Q2R e <= 3 / 2 + W * (4 * u * (/ INR n * (cmod tmp * cmod (factor tw j)))) -> / INR n * ep = IZR i / W -> Rabs (cp - ep) <= cmod (csub c ex) ->
      adds w old new t e -> exists e', (Z.abs e' <= E)%Z /\ eqm (2 ^ w) new (old + i + e')).
  { intros t e cp ep i Ht He Hep Hc HAdd. apply adds_R in HAdd. destruct HAdd as [k Hk]. exists (new - old + k * 2 ^ w - i)%Z. split.
    - apply le_IZR. rewrite abs_IZR, minus_IZR. specialize (Close cp ep Hc). rewrite <- Ht, Hep in Close. replace (W * (IZR i / W)) with (IZR i) in Close by (field; lra).
      replace (IZR (new - old + k * 2 ^ w) - IZR i) with ((IZR (new - old + k * 2 ^ w) - W * Q2R t) + (W * Q2R t - IZR i)) by ring. eapply Rle_trans; [apply Rabs_triang|]. lra.
    - unfold eqm. replace (old + i + (new - old + k * 2 ^ w - i))%Z with (new + k * 2 ^ w)%Z by ring. rewrite Z_mod_plus_full. reflexivity. }
  split; intros HAdd.
  - eapply (Fin _ _ (fst c) (fst ex)); [exact T1|exact E1|exact X1| |exact HAdd]. apply (cmod_fst (csub c ex)).
  - eapply (Fin _ _ (snd c) (snd ex)); [exact T2|exact E2|exact X2| |exact HAdd]. apply (cmod_snd (csub c ex)).
Qed.
Lemma exact_int_eqm pairs m : eqm (2 ^ w) (exact_int pairs m) (rcoef (rsuml pairs (fun '(g, d) => rmul (NegaRing.R N g) (NegaRing.R N (map (sgn w) d)))) m).
Proof.
  unfold exact_int. revert m. apply (@rsuml_ext N (2 ^ w)). intros [g d] _. assert (E : req (2 ^ w) (NegaRing.R N (map (sgn w) g)) (NegaRing.R N g)).
  { apply req_coefs. intros k Hk. rewrite !rcoef_R by lia. unfold coef. rewrite sgn_nth by apply w_pos. apply sgn_eqm. }
  rewrite E. reflexivity.
Qed.

Theorem backend_bound E : fft_error w n b T phi tau <= IZR E -> backend_ok w N b T E B.
Proof.
  intros HE out pairs [Lo Fo] Lp HF. destruct pairs as [|[g d] rest].
  - cbn [bk_run rsuml]. split; [split; assumption|]. exists (repeat 0%Z N). split; [apply repeat_length|].
    assert (E0 : (0 <= E)%Z).
    { apply le_IZR. eapply Rle_trans; [|exact HE]. unfold fft_error. pose proof (pow2_IZR_pos w ltac:(pose proof w_pos; lia)). pose proof M_nonneg. pose proof T_real. pose proof (pow2_IZR_pos 53 ltac:(lia)) as P53.
      replace (2 * INR n * INR n * IZR (2 ^ (b - 1))) with M by ring. assert (0 <= 104 * INR T / IZR (2 ^ 53)) by (apply Rmult_le_pos; [lra|left; apply Rinv_0_lt_compat; assumption]).
      assert (0 <= W * (INR T * M) * (7 * phi + 9 * tau + 104 * INR T / IZR (2 ^ 53))) by (apply Rmult_le_pos; [apply Rmult_le_pos; [lra|apply Rmult_le_pos; lra]|lra]). lra. }
    split; [apply Forall_forall; intros x Hx; apply repeat_spec in Hx; subst; cbn; lia|].
    apply req_coefs. intros k Hk. assert (RA : forall (x y : rp N) m, rcoef (radd x y) m = (rcoef x m + rcoef y m)%Z) by reflexivity. rewrite !RA, !rcoef_R by lia. cbn [rcoef rzero proj1_sig]. unfold coef.
    replace (nth (Z.to_nat k) (repeat 0%Z N) 0%Z) with 0%Z by (symmetry; apply nth_repeat). rewrite !Z.add_0_r. reflexivity.
  - assert (HF' : Forall good_pair ((g, d) :: rest)) by (eapply Forall_impl; [|exact HF]; intros [? ?] H; exact H). inversion HF' as [|? ? [G1 [G2 G3]] HFr]. subst x l. cbn [fst snd] in G1, G2, G3.
    cbn [length] in Lp. cbn [bk_run]. destruct (key_ok g G1) as (a & Ea & Ca). destruct (digit_ok d G2 G3) as (c & Ec & Cc).
    destruct (first_product n phi tau Hphi Htau (INR T) T_real p ft k0 buffer a _ _ c _ _ M En Hk0 Lb Ca Cc (pos_INR n) S2_nonneg (Rle_refl _)) as (r & Er & Cr).
    assert (LT : 1 + INR (length rest) <= INR T) by (rewrite Rplus_comm, <- S_INR; apply le_INR; exact Lp).
    replace (bk_mul B (bk_key B g) (bk_digit B d)) with r by (cbn [fft_backend bk_mul bk_key bk_digit]; rewrite Ea, Ec; cbn [or_else]; rewrite Er; reflexivity).
    pose proof (fold_close rest r _ 1 HFr ltac:(lra) LT Cr) as Cf. match type of Cf with acc_close _ _ _ _ _ _ ?x _ => set (o := x) in * end.
    apply acc_weaken in Cf; [|exact LT]. apply (acc_ext _ _ _ (exact_at ((g, d) :: rest))) in Cf; [|intros k; reflexivity].
    destruct (Hinv o (proj1 Cf) (proj1 (proj2 Cf))) as (Li & _ & _). destruct (halves n out Lo) as (L1 & L2 & Hh). destruct Htw as (T1 & T2 & T3 & T4 & _).
    destruct (C54_backward_add p ft w k0 n (firstn n out) (skipn n out) (plan_inv pl o) tw Hw Hft En Hk0 L1 L2 Li T1 T2 T3 T4) as ([re im] & Eb & Lre & Lim & Hb). cbn [fst snd] in Lre, Lim, Hb.
    assert (Run : bk_add_back B out o = re ++ im).
    { cbn [fft_backend bk_add_back]. unfold add_backward_as_torus, backward_with_conv. rewrite debug_ok by (rewrite Lo; f_equal; symmetry; apply (proj1 Cf)). cbn [obind]. rewrite Lo, half_of, Eb. reflexivity. }
    rewrite Run. pose proof (final_bound ((g, d) :: rest) o E) as FB.
    assert (W1 : Forall (is_word w) re).
    { apply Forall_forall. intros x Hx. destruct (In_nth _ _ 0%Z Hx) as (i & Hi & <-). rewrite Lre in Hi. destruct (Hb i Hi) as [[A _] _]. exact A. }
    assert (W2 : Forall (is_word w) im).
    { apply Forall_forall. intros x Hx. destruct (In_nth _ _ 0%Z Hx) as (i & Hi & <-). rewrite Lim in Hi. destruct (Hb i Hi) as [_ [A _]]. exact A. }
    split; [split; [rewrite app_length; lia|apply Forall_app; split; assumption]|].
    assert (CH : forall i, (i < N)%nat -> exists e, (Z.abs e <= E)%Z /\ eqm (2 ^ w) (nth i (re ++ im) 0%Z) (nth i out 0%Z + exact_int ((g, d) :: rest) (Z.of_nat i) + e)).
    { intros i Hi. destruct (Nat.lt_ge_cases i n) as [Hin|Hin].
      - rewrite app_nth1 by lia. destruct (Hb i Hin) as [A _]. destruct (Hh i Hin) as [Hh1 _]. rewrite Hh1 in A. exact (proj1 (FB i Cf HE Hin _ _) A).
      - rewrite app_nth2 by lia. rewrite Lre. assert (Hin' : (i - n < n)%nat) by lia. destruct (Hb _ Hin') as [_ A]. destruct (Hh _ Hin') as [_ Hh2]. rewrite Hh2 in A.
        destruct (proj2 (FB _ Cf HE Hin' _ _) A) as (e & He1 & He2). exists e. split; [exact He1|]. replace (Z.of_nat i) with (Z.of_nat (i - n) + Z.of_nat n)%Z by lia. replace i with (n + (i - n))%nat at 2 by lia. exact He2. }
    apply finite_choice in CH. destruct CH as (err & Le & He). exists err. split; [exact Le|]. split.
    + apply Forall_forall. intros x Hx. destruct (In_nth _ _ 0%Z Hx) as (i & Hi & <-). apply He. lia.
    + apply req_coefs. intros k Hk. assert (RA : forall (x y : rp N) m, rcoef (radd x y) m = (rcoef x m + rcoef y m)%Z) by reflexivity. rewrite !RA, !rcoef_R by lia. unfold coef.
      destruct (He (Z.to_nat k) ltac:(lia)) as [_ H]. rewrite Z2Nat.id in H by lia. rewrite H. apply eqm_add; [|reflexivity]. apply eqm_add; [reflexivity|]. apply exact_int_eqm.
Qed.
End backend.

(** ** C55 *)
(** The operations in the order of ggsw.rs:326-475 for one polynomial of the output: the polynomials of the GGSW
    ciphertext and the digits are transformed, the products are accumulated in the Fourier domain, and the result is
    added to [out].  A panic in any of them is a panic of the whole. *)
Definition fft_products (p : profile) (f : features) (w : Z) (pl : plan) (tw : twisties) (buffer : list (Q * Q)) (out : list Z) (pairs : list (list Z * list Z)) : outcome (list Z) :=
  match pairs with
  | [] => Ret out
  | (g, d) :: rest =>
      let! fg := forward_as_torus p w pl tw buffer g in
      let! fd := forward_as_integer p f w pl tw buffer d in
      let! acc := update_fourier p f buffer fg fd true in
      let! acc := fold_left (fun acc '(g, d) =>
            let! acc := acc in
            let! fg := forward_as_torus p w pl tw buffer g in
            let! fd := forward_as_integer p f w pl tw buffer d in
            update_fourier p f acc fg fd false) rest (Ret acc) in
      add_backward_as_torus p f w pl tw out acc
  end.

Lemma fft_error_nonneg w n b T phi tau : (0 <= w)%Z -> 0 <= phi -> 0 <= tau -> 0 <= fft_error w n b T phi tau.
Proof.
  intros Hw Hp Ht. unfold fft_error. pose proof (pow2_IZR_pos w Hw). pose proof (pos_INR n). pose proof (pos_INR T). pose proof (pow2_IZR_pos 53 ltac:(lia)) as P53.
  assert (0 <= IZR (2 ^ (b - 1))) by (apply IZR_le, Z.pow_nonneg; lia).
  assert (0 <= 104 * INR T / IZR (2 ^ 53)) by (apply Rmult_le_pos; [lra|left; apply Rinv_0_lt_compat; assumption]).
  assert (0 <= IZR (2 ^ w) * (INR T * (2 * INR n * INR n * IZR (2 ^ (b - 1)))) * (7 * phi + 9 * tau + 104 * INR T / IZR (2 ^ 53))); [|lra].
  apply Rmult_le_pos; [|lra]. apply Rmult_le_pos; [lra|]. apply Rmult_le_pos; [lra|]. apply Rmult_le_pos; [|assumption]. apply Rmult_le_pos; lra.
Qed.

Theorem C55_backend : forall p f w k n pl tw buffer phi tau b T E,
  w = 32%Z \/ w = 64%Z -> nightly_avx512 f = false \/ w = 32%Z ->
  n = Nat.pow 2 k -> (3 <= k)%nat -> length buffer = n ->
  0 <= phi <= / 32 -> 0 <= tau <= / 32 -> (1 <= T)%nat -> INR T <= IZR (2 ^ 40) ->
  accurate_plan n phi pl -> accurate_twisties n tau tw ->
  fft_error w n b T phi tau <= IZR E ->
  backend_ok w (2 * n) b T E (fft_backend p f w pl tw buffer).
Proof.
  intros p f w k n pl tw buffer phi tau b T E Hw Hf En Hk Lb Hphi Htau HT1 HT (order & Ho & Hfwd & Hinv) Htw HE.
  exact (backend_bound p f w k n pl tw buffer phi tau b T Hw Hf En Hk Lb Hphi Htau Htw HT1 HT order Ho Hfwd Hinv E HE).
Qed.
Print Assumptions C55_backend.

Definition cvec (n : nat) (x : list (Q * Q)) : Prop := length x = n /\ Forall is_c64 x.
Lemma no_panic p f w k n pl tw buffer : w = 32%Z \/ w = 64%Z -> n = Nat.pow 2 k -> (3 <= k)%nat -> length buffer = n ->
  (forall x, cvec n x -> cvec n (plan_fwd pl x)) -> (forall x, cvec n x -> cvec n (plan_inv pl x)) ->
  length (tw_re tw) = n -> length (tw_im tw) = n -> Forall fits53 (tw_re tw) -> Forall fits53 (tw_im tw) ->
  nightly_avx512 f = false \/ w = 32%Z ->
  (forall g, poly_wf w (2 * n) g -> exists x, forward_as_torus p w pl tw buffer g = Ret x /\ cvec n x) /\
  (forall d, poly_wf w (2 * n) d -> exists x, forward_as_integer p f w pl tw buffer d = Ret x /\ cvec n x) /\
  (forall out x y un, length out = n -> cvec n x -> cvec n y -> exists z, update_fourier p f out x y un = Ret z /\ cvec n z) /\
  (forall out x, poly_wf w (2 * n) out -> cvec n x -> exists out', add_backward_as_torus p f w pl tw out x = Ret out').
Proof.
  intros Hw En Hk Lb Hfw Hin T1 T2 F1 F2 Hf. assert (Wp : (0 < w)%Z) by lia.
  split; [|split; [|split]].
  - intros g [L F]. unfold forward_as_torus, forward_with_conv. rewrite debug_ok by (rewrite L, Lb; reflexivity). cbn [obind]. rewrite L, half_of. destruct (halves n g L) as (L1 & L2 & _).
    eexists. split; [reflexivity|]. apply Hfw. destruct (C54_forward_torus w n buffer (firstn n g) (skipn n g) tw Wp Lb L1 L2 T1 T2) as (A1 & A2 & _). split; assumption.
  - intros d [L F]. unfold forward_as_integer, forward_with_conv. rewrite debug_ok by (rewrite L, Lb; reflexivity). cbn [obind]. rewrite L, half_of. destruct (halves n d L) as (L1 & L2 & _).
    destruct (C54_forward p f w k n buffer (firstn n d) (skipn n d) tw Hw En Hk Lb L1 L2 T1 T2 (Forall_half1 n _ _ F) (Forall_half2 n _ _ F)) as (zs & E & A1 & A2 & _). rewrite E. cbn [obind]. eexists. split; [reflexivity|]. apply Hfw. split; assumption.
  - intros out x y un L1 [L2 _] [L3 _]. destruct (update_ok p f k n un out x y En Hk L1 L2 L3) as (r & E & L & C & _). exists r. split; [exact E|]. split; assumption.
  - intros out x [L F] [Lx Cx]. unfold add_backward_as_torus, backward_with_conv. rewrite debug_ok by (rewrite L, Lx; reflexivity). cbn [obind]. rewrite L, half_of. destruct (halves n out L) as (L1 & L2 & _).
    destruct (C54_backward_add p f w k n (firstn n out) (skipn n out) (plan_inv pl x) tw Hw Hf En Hk L1 L2 (proj1 (Hin x (Logic.conj Lx Cx))) T1 T2 F1 F2) as ([re im] & E & _). rewrite E. cbn [obind]. eexists. reflexivity.
Qed.

Lemma products_run p f w k n pl tw buffer out pairs : w = 32%Z \/ w = 64%Z -> n = Nat.pow 2 k -> (3 <= k)%nat -> length buffer = n ->
  (forall x, cvec n x -> cvec n (plan_fwd pl x)) -> (forall x, cvec n x -> cvec n (plan_inv pl x)) ->
  length (tw_re tw) = n -> length (tw_im tw) = n -> Forall fits53 (tw_re tw) -> Forall fits53 (tw_im tw) ->
  nightly_avx512 f = false \/ w = 32%Z -> poly_wf w (2 * n) out -> Forall (fun '(g, d) => poly_wf w (2 * n) g /\ poly_wf w (2 * n) d) pairs ->
  fft_products p f w pl tw buffer out pairs = Ret (bk_run (fft_backend p f w pl tw buffer) out pairs).
Proof.
  intros Hw En Hk Lb Hfw Hin T1 T2 F1 F2 Hf Hout HP.
  destruct (no_panic p f w k n pl tw buffer Hw En Hk Lb Hfw Hin T1 T2 F1 F2 Hf) as (N1 & N2 & N3 & N4).
  destruct pairs as [|[g d] rest]; [reflexivity|]. pose proof (Forall_inv HP) as GD. cbn beta iota in GD. destruct GD as [G D]. pose proof (Forall_inv_tail HP) as HR. subst n. cbn [fft_products bk_run fft_backend bk_dom bk_key bk_digit bk_mul bk_mac bk_add_back].
  destruct (N1 g G) as (a & Ea & La). destruct (N2 d D) as (c & Ec & Lc). rewrite Ea, Ec. cbn [obind or_else]. destruct (N3 buffer a c true Lb La Lc) as (r & Er & Lr). rewrite Er. cbn [obind or_else].
  assert (FOLD : forall r, cvec (Nat.pow 2 k) r -> exists r', cvec (Nat.pow 2 k) r' /\ fold_left (fun acc '(g, d) =>
            let! acc := acc in let! fg := forward_as_torus p w pl tw buffer g in let! fd := forward_as_integer p f w pl tw buffer d in update_fourier p f acc fg fd false) rest (Ret r) = Ret r' /\
        fold_left (fun o '(g, d) => or_else (update_fourier p f o (or_else (forward_as_torus p w pl tw buffer g) buffer) (or_else (forward_as_integer p f w pl tw buffer d) buffer) false) buffer) rest r = r').
  { clear r Er Lr HP. induction HR as [|[g' d'] rest GD HR IH]; intros r Lr; [exists r; split; [exact Lr|split; reflexivity]|]. cbn [fold_left obind]. cbn beta iota in GD. destruct GD as [G' D'].
    destruct (N1 g' G') as (a' & Ea' & La'). destruct (N2 d' D') as (c' & Ec' & Lc'). rewrite Ea', Ec'. cbn [obind or_else]. destruct (N3 r a' c' false (proj1 Lr) La' Lc') as (r' & Er' & Lr'). rewrite Er'. cbn [or_else]. apply IH, Lr'. }
  destruct (FOLD r Lr) as (r' & Lr' & E1 & E2). rewrite E1. cbn [obind]. rewrite E2. destruct (N4 out r' Hout Lr') as (o & Eo). rewrite Eo. reflexivity.
Qed.

(** No operation panics, in debug and in release builds, on any instruction set, and the result is exact up to the bound. *)
Theorem C55_products : forall p f w k n pl tw buffer phi tau b T E out pairs,
  w = 32%Z \/ w = 64%Z -> nightly_avx512 f = false \/ w = 32%Z ->
  n = Nat.pow 2 k -> (3 <= k)%nat -> length buffer = n ->
  0 <= phi <= / 32 -> 0 <= tau <= / 32 -> (1 <= T)%nat -> INR T <= IZR (2 ^ 40) ->
  accurate_plan n phi pl -> accurate_twisties n tau tw ->
  fft_error w n b T phi tau <= IZR E ->
  poly_wf w (2 * n) out -> (length pairs <= T)%nat ->
  Forall (fun '(g, d) => poly_wf w (2 * n) g /\ poly_wf w (2 * n) d /\ Forall (fun x => (Z.abs (sgn w x) <= 2 ^ (b - 1))%Z) d) pairs ->
  exists out' err, fft_products p f w pl tw buffer out pairs = Ret out' /\ poly_wf w (2 * n) out' /\
    length err = (2 * n)%nat /\ Forall (fun e => (Z.abs e <= E)%Z) err /\
    req (2 ^ w) (NegaRing.R (2 * n) out')
      (radd (radd (NegaRing.R (2 * n) out) (rsuml pairs (fun '(g, d) => rmul (NegaRing.R (2 * n) g) (NegaRing.R (2 * n) (map (sgn w) d))))) (NegaRing.R (2 * n) err)).
Proof.
  intros p f w k n pl tw buffer phi tau b T E out pairs Hw Hf En Hk Lb Hphi Htau HT1 HT Hpl Htw HE Hout Lp HP.
  destruct (C55_backend p f w k n pl tw buffer phi tau b T E Hw Hf En Hk Lb Hphi Htau HT1 HT Hpl Htw HE out pairs Hout Lp HP) as (Wf & err & Le & He & Hr).
  exists (bk_run (fft_backend p f w pl tw buffer) out pairs), err. split; [|split; [exact Wf|]; split; [exact Le|]; split; [exact He|exact Hr]].
  destruct Hpl as (order & Ho & Hfwd & Hinv). destruct Htw as (T1 & T2 & F1 & F2 & _).
  assert (HP' : Forall (fun '(g, d) => poly_wf w (2 * n) g /\ poly_wf w (2 * n) d) pairs) by (eapply Forall_impl; [|exact HP]; intros [g d] (A & B & _); split; assumption).
  apply (products_run p f w k n); try assumption.
  - intros x [L C]. destruct (Hfwd x L C) as (A & B & _). split; assumption.
  - intros x [L C]. destruct (Hinv x L C) as (A & B & _). split; assumption.
Qed.
Print Assumptions C55_products.
