(** * The arithmetic of the amortized bootstrap over the real numbers computes negacyclic products up to an explicit error *)
From Coq Require Import Reals Lra.
From Verif Require Import Base Word WordFacts NegaRing PolySpec RingSum ExtProdModel ExtProdSpec FourierBackendTheorems.
From Verif Require Import CudaPbsModel CudaPbsSpec CudaPbsRealModel CudaPbsReal.
From Verif Require CudaFftSpec.
Local Open Scope Z_scope.

Definition real_backend (w : Z) (H : nat) : backend :=
  gpu_backend w 0%R Rplus Rmult Ropp H IZR (key_to_double w) (torus_first w) (torus_second w).
(** The error: [T] products of polynomials of [N] coefficients, the digits at most 2^(b-1) *)
Definition gpu_error (w : Z) (N : nat) (b : Z) (T : nat) : Z := Z.of_nat T * (Z.of_nat N * 2 ^ (b - 1)) * (if w =? 32 then 1 else 512) + 1.

Lemma ext_pos M p k : (0 < M)%nat -> ext M p k = if Z.even (k / Z.of_nat M) then coef p (k mod Z.of_nat M) else - coef p (k mod Z.of_nat M).
Proof. destruct M; [lia|reflexivity]. Qed.

Section Backend.
Context (w : Z) (Hw : w = 32 \/ w = 64) (H : nat) (HH : (0 < H)%nat) (b : Z) (T : nat).
Notation N := (2 * H)%nat.
Notation B := (real_backend w H).
Lemma w_pos : 0 < w. Proof. destruct Hw as [-> | ->]; reflexivity. Qed.
Lemma max_pos : (0 < max_word w)%R.
Proof. unfold max_word. apply IZR_lt. apply (proj1 (modulus_pos w Hw)). Qed.

Lemma real_product a c e : (e < N)%nat ->
  CudaFftSpec.nega_coeff 0%R Rplus Rmult Ropp N (fun i => IZR (nth i a 0%Z)) (fun i => (IZR (nth i c 0%Z) / max_word w)%R) e = (IZR (rcoef (rmul (R N a) (R N c)) (Z.of_nat e)) / max_word w)%R.
Proof.
  intros He. unfold CudaFftSpec.nega_coeff. change (rcoef (rmul (R N a) (R N c)) (Z.of_nat e)) with (sumz N (fun i => ext N a i * ext N c (Z.of_nat e - i))).
  pose proof max_pos as HM. assert (G : forall m, (m <= N)%nat ->
    CudaFftSpec.rsum 0%R Rplus m (fun i => if (i <=? e)%nat then (IZR (nth i a 0%Z) * (IZR (nth (e - i) c 0%Z) / max_word w))%R else (- (IZR (nth i a 0%Z) * (IZR (nth (e + N - i) c 0%Z) / max_word w)))%R) =
    (IZR (sumz m (fun i => ext N a i * ext N c (Z.of_nat e - i))%Z) / max_word w)%R); [|apply G; constructor].
  induction m as [|m IH]; intros Hm; [cbn [CudaFftSpec.rsum sumz]; unfold Rdiv; ring|]. cbn [CudaFftSpec.rsum sumz]. rewrite IH by lia. rewrite plus_IZR, mult_IZR.
  rewrite (ext_small N a (Z.of_nat m)) by lia. unfold coef at 1. rewrite Nat2Z.id. destruct (Nat.leb_spec m e) as [L|L].
  - rewrite ext_small by lia. unfold coef. replace (Z.to_nat (Z.of_nat e - Z.of_nat m)) with (e - m)%nat by lia. field. lra.
  - pose proof (ext_anti N c (Z.of_nat e - Z.of_nat m)) as E. rewrite ext_small in E by lia. unfold coef in E. replace (Z.to_nat (Z.of_nat e - Z.of_nat m + Z.of_nat N)) with (e + N - m)%nat in E by lia. rewrite E, opp_IZR. field. lra.
Qed.

Definition kd (g : list Z) : list Z := map (fun x => signed_to_double (sgn w x)) g.
Definition term (gd : list Z * list Z) : rp N := rmul (R N (map (sgn w) (snd gd))) (R N (kd (fst gd))).
Definition total (pairs : list (list Z * list Z)) (k : Z) : Z := rcoef (rsuml pairs term) k.
Lemma signed_0 : signed_to_double (sgn w 0) = 0. Proof. rewrite sgn_0 by apply w_pos. reflexivity. Qed.
Lemma kd_nth g i : nth i (kd g) 0 = signed_to_double (sgn w (nth i g 0)).
Proof. unfold kd. rewrite <- signed_0 at 1. apply (map_nth (fun x => signed_to_double (sgn w x))). Qed.

Lemma mul_real g d e : (e < N)%nat -> bk_mul B (bk_key B g) (bk_digit B d) e = (IZR (rcoef (term (g, d)) (Z.of_nat e)) / max_word w)%R.
Proof.
  intros He. unfold term. cbn [fst snd]. rewrite <- (real_product (map (sgn w) d) (kd g) e He). cbn [real_backend gpu_backend bk_mul bk_key bk_digit].
  unfold CudaFftSpec.nega_coeff. assert (G : forall m, CudaFftSpec.rsum 0%R Rplus m (fun i => if (i <=? e)%nat then (IZR (sgn w (nth i d 0%Z)) * key_to_double w (sgn w (nth (e - i) g 0%Z)))%R else (- (IZR (sgn w (nth i d 0%Z)) * key_to_double w (sgn w (nth (e + N - i) g 0%Z))))%R) =
    CudaFftSpec.rsum 0%R Rplus m (fun i => if (i <=? e)%nat then (IZR (nth i (map (sgn w) d) 0%Z) * (IZR (nth (e - i) (kd g) 0%Z) / max_word w))%R else (- (IZR (nth i (map (sgn w) d) 0%Z) * (IZR (nth (e + N - i) (kd g) 0%Z) / max_word w)))%R)); [|apply G].
  induction m as [|m IH]; [reflexivity|]. cbn [CudaFftSpec.rsum]. rewrite IH, sgn_nth by apply w_pos. rewrite !kd_nth. reflexivity.
Qed.
Lemma fold_real rest : forall o X, (forall e, (e < N)%nat -> o e = (IZR (X e) / max_word w)%R) -> forall e, (e < N)%nat ->
  fold_left (fun o '(g, d) => bk_mac B o (bk_key B g) (bk_digit B d)) rest o e = (IZR (X e + total rest (Z.of_nat e))%Z / max_word w)%R.
Proof.
  induction rest as [|[g d] rest IH]; intros o X Ho e He.
  - cbn [fold_left]. unfold total. cbn [rsuml rcoef rzero proj1_sig]. rewrite Z.add_0_r. apply Ho, He.
  - cbn [fold_left]. rewrite (IH _ (fun e => X e + rcoef (term (g, d)) (Z.of_nat e))); [|clear e He|exact He].
    + unfold total. cbn [rsuml]. change (rcoef (radd (term (g, d)) (rsuml rest term)) (Z.of_nat e)) with (rcoef (term (g, d)) (Z.of_nat e) + rcoef (rsuml rest term) (Z.of_nat e)). do 2 f_equal. ring.
    + intros e He. change (bk_mac B o (bk_key B g) (bk_digit B d) e) with (o e + bk_mul B (bk_key B g) (bk_digit B d) e)%R. rewrite mul_real, Ho, plus_IZR by exact He. pose proof max_pos. field. lra.
Qed.

(** ** Bounds *)
Lemma mul_abs x y c G k : 0 <= c -> (forall i, Z.abs (ext N x i) <= c) -> (forall i, Z.abs (y i) <= G) -> Z.abs (sumz N (fun i => ext N x i * y (k - i))) <= Z.of_nat N * (c * G).
Proof.
  intros Hc Hx Hy. assert (HG : 0 <= G) by (pose proof (Hy 0); lia).
  assert (G' : forall m, Z.abs (sumz m (fun i => ext N x i * y (k - i))) <= Z.of_nat m * (c * G)); [|apply G'].
  induction m as [|m IH]; [cbn; lia|]. cbn [sumz]. eapply Z.le_trans; [apply Z.abs_triangle|]. rewrite Z.abs_mul.
  assert (Z.abs (ext N x (Z.of_nat m)) * Z.abs (y (k - Z.of_nat m)) <= c * G) by (apply Z.mul_le_mono_nonneg; try apply Z.abs_nonneg; [apply Hx|apply Hy]). rewrite Nat2Z.inj_succ, Z.mul_succ_l. clear - IH H0. lia.
Qed.
Notation A := (Z.of_nat T * (Z.of_nat N * 2 ^ (b - 1))).
Notation good := (fun '(g, d) => poly_wf w N g /\ poly_wf w N d /\ Forall (fun x => Z.abs (sgn w x) <= 2 ^ (b - 1)) d).
Lemma digits_bound d i : Forall (fun x => Z.abs (sgn w x) <= 2 ^ (b - 1)) d -> Z.abs (ext N (map (sgn w) d) i) <= 2 ^ (b - 1).
Proof. intros F. apply ext_bound; [apply Z.pow_nonneg; lia|]. apply Forall_map. exact F. Qed.
Lemma total_bound pairs k G : (length pairs <= T)%nat -> 0 <= G -> Forall (fun gd => good gd /\ forall i, Z.abs (ext N (kd (fst gd)) i) <= G) pairs -> Z.abs (total pairs k) <= A * G.
Proof.
  intros HT HG HF. assert (P : 0 <= 2 ^ (b - 1)) by (apply Z.pow_nonneg; lia).
  assert (G1 : Z.abs (total pairs k) <= Z.of_nat (length pairs) * (Z.of_nat N * (2 ^ (b - 1) * G))).
  { clear HT. induction HF as [|[g d] rest [(_ & _ & Hd) Hg] HF IH]; [cbn; lia|]. unfold total in *. cbn [rsuml length fst] in *.
    change (rcoef (radd (term (g, d)) (rsuml rest term)) k) with (rcoef (term (g, d)) k + rcoef (rsuml rest term) k).
    change (rcoef (term (g, d)) k) with (sumz N (fun i => ext N (map (sgn w) d) i * ext N (kd g) (k - i))).
    pose proof (mul_abs (map (sgn w) d) (ext N (kd g)) (2 ^ (b - 1)) G k P (fun i => digits_bound d i Hd) Hg) as M. eapply Z.le_trans; [apply Z.abs_triangle|]. rewrite Nat2Z.inj_succ, Z.mul_succ_l. clear - IH M. lia. }
  eapply Z.le_trans; [exact G1|]. replace (A * G) with (Z.of_nat T * (Z.of_nat N * (2 ^ (b - 1) * G))) by ring. apply Z.mul_le_mono_nonneg_r; [|lia]. apply Z.mul_nonneg_nonneg; [lia|]. apply Z.mul_nonneg_nonneg; assumption.
Qed.
Definition exact (pairs : list (list Z * list Z)) (k : Z) : Z := rcoef (rsuml pairs (fun '(g, d) => rmul (R N (map (sgn w) d)) (R N (map (sgn w) g)))) k.
Lemma kd_close g i : poly_wf w N g -> Z.abs (ext N (kd g) i - ext N (map (sgn w) g) i) <= key_rounding w.
Proof.
  intros [Lg Fg]. rewrite !ext_pos by (clear - HH; lia).
  assert (C : Z.abs (coef (kd g) (i mod Z.of_nat N) - coef (map (sgn w) g) (i mod Z.of_nat N)) <= key_rounding w).
  { unfold coef. set (j := Z.to_nat (i mod Z.of_nat N)). rewrite kd_nth, sgn_nth by apply w_pos. apply signed_close; [exact Hw|]. destruct (Nat.lt_ge_cases j (length g)) as [L|L].
    - rewrite Forall_forall in Fg. apply Fg, nth_In, L.
    - rewrite nth_overflow by exact L. pose proof (pow2_pos w ltac:(pose proof w_pos; lia)). split; lia. }
  destruct (Z.even (i / Z.of_nat N)); clear - C; lia.
Qed.
Lemma total_close pairs k : (length pairs <= T)%nat -> Forall good pairs -> Z.abs (total pairs k - exact pairs k) <= A * key_rounding w.
Proof.
  intros HT HF. assert (P : 0 <= 2 ^ (b - 1)) by (apply Z.pow_nonneg; lia). assert (HG : 0 <= key_rounding w) by (unfold key_rounding; destruct (w =? 32); lia).
  assert (G1 : Z.abs (total pairs k - exact pairs k) <= Z.of_nat (length pairs) * (Z.of_nat N * (2 ^ (b - 1) * key_rounding w))).
  { clear HT. induction HF as [|[g d] rest (Hg & _ & Hd) HF IH]; [cbn; lia|]. unfold total, exact in *. cbn [rsuml length] in *.
    change (rcoef (radd (term (g, d)) (rsuml rest term)) k) with (rcoef (term (g, d)) k + rcoef (rsuml rest term) k).
    match goal with |- context [rcoef (radd ?x ?y) k] => change (rcoef (radd x y) k) with (rcoef x k + rcoef y k) end.
    change (rcoef (term (g, d)) k) with (sumz N (fun i => ext N (map (sgn w) d) i * ext N (kd g) (k - i))).
    change (rcoef (rmul (R N (map (sgn w) d)) (R N (map (sgn w) g))) k) with (sumz N (fun i => ext N (map (sgn w) d) i * ext N (map (sgn w) g) (k - i))).
    pose proof (mul_abs (map (sgn w) d) (fun i => ext N (kd g) i - ext N (map (sgn w) g) i) (2 ^ (b - 1)) (key_rounding w) k P (fun i => digits_bound d i Hd) (fun i => kd_close g i Hg)) as M.
    rewrite (sumz_ext N _ (fun i => ext N (map (sgn w) d) i * ext N (kd g) (k - i) - ext N (map (sgn w) d) i * ext N (map (sgn w) g) (k - i))) in M by (intros; ring). rewrite sumz_sub in M.
    rewrite Nat2Z.inj_succ, Z.mul_succ_l. match goal with |- Z.abs (?x + ?y - (?z + ?t)) <= _ => replace (x + y - (z + t)) with (x - z + (y - t)) by ring end. eapply Z.le_trans; [apply Z.abs_triangle|]. clear - IH M. lia. }
  eapply Z.le_trans; [exact G1|]. replace (A * key_rounding w) with (Z.of_nat T * (Z.of_nat N * (2 ^ (b - 1) * key_rounding w))) by ring. apply Z.mul_le_mono_nonneg_r; [|lia]. apply Z.mul_nonneg_nonneg; [lia|]. apply Z.mul_nonneg_nonneg; assumption.
Qed.
Lemma quotient_bound pairs k : w = 32 -> (length pairs <= T)%nat -> Forall good pairs -> Z.abs (total pairs k / modulus w) <= A.
Proof.
  intros E HT HF. assert (P : 0 <= 2 ^ (b - 1)) by (apply Z.pow_nonneg; lia).
  assert (B1 : Z.abs (total pairs k) <= A * 2 ^ 31).
  { apply total_bound; [exact HT|lia|]. eapply Forall_impl; [|exact HF]. intros [g d] Hgd. split; [exact Hgd|]. intros i. destruct Hgd as (Hg & _). cbn [fst]. pose proof (kd_close g i Hg) as C. replace (key_rounding w) with 0 in C by (rewrite E; reflexivity).
    assert (Z.abs (ext N (map (sgn w) g) i) <= 2 ^ 31) by (apply ext_bound; [lia|]; replace (2 ^ 31) with (2 ^ (w - 1)) by (rewrite E; reflexivity); apply sgn_Forall; [apply w_pos|apply Hg]). clear - C H0. lia. }
  assert (EM : modulus w = 2 ^ 32 - 1) by (rewrite E; reflexivity). assert (HA : 0 <= A) by (apply Z.mul_nonneg_nonneg; [lia|]; apply Z.mul_nonneg_nonneg; lia). rewrite EM. set (a := A) in *. set (t := total pairs k) in *. clearbody a t. change (2 ^ 31) with 2147483648 in *. change (2 ^ 32 - 1) with 4294967295 in *.
  clear - B1 HA. assert (- a <= t / 4294967295) by (apply Z.div_le_lower_bound; lia). assert (t / 4294967295 <= a) by (apply Z.div_le_upper_bound; lia). lia.
Qed.
Lemma exact_eqm pairs : req (2 ^ w) (rsuml pairs (fun '(g, d) => rmul (R N (map (sgn w) d)) (R N (map (sgn w) g)))) (rsuml pairs (fun '(g, d) => rmul (R N g) (R N (map (sgn w) d)))).
Proof.
  apply rsuml_ext. intros [g d] _. assert (E : req (2 ^ w) (R N (map (sgn w) g)) (R N g)).
  { apply req_coefs. intros k Hk. rewrite !rcoef_R by lia. unfold coef. rewrite sgn_nth by apply w_pos. apply sgn_eqm. }
  rewrite E. apply rmul_comm.
Qed.

Theorem real_backend_ok : backend_ok w N b T (gpu_error w N b T) B.
Proof.
  intros out pairs [Lo Fo] HT HF. assert (P : 0 <= 2 ^ (b - 1)) by (apply Z.pow_nonneg; lia). assert (HA : 0 <= A) by (apply Z.mul_nonneg_nonneg; [lia|]; apply Z.mul_nonneg_nonneg; lia).
  assert (HE : 0 <= gpu_error w N b T) by (unfold gpu_error; destruct (w =? 32); clear - HA; lia).
  assert (W : poly_wf w N (bk_run B out pairs)).
  { destruct pairs as [|[g d] rest]; [split; assumption|]. cbn [bk_run real_backend gpu_backend bk_add_back]. split; [rewrite map_length, seq_length; reflexivity|]. apply Forall_forall. intros x Hx. apply in_map_iff in Hx. destruct Hx as (i & <- & _). apply wadd_word. pose proof w_pos; lia. }
  split; [exact W|].
  assert (CH : forall i, (i < N)%nat -> exists e, Z.abs e <= gpu_error w N b T /\ eqm (2 ^ w) (nth i (bk_run B out pairs) 0) (nth i out 0 + exact pairs (Z.of_nat i) + e)).
  { intros i Hi. destruct pairs as [|[g d] rest]. { exists 0. split; [clear - HE; lia|]. apply eqm_eq. unfold exact. cbn [bk_run rsuml rcoef rzero proj1_sig]. ring. }
    set (ps := (g, d) :: rest) in *. cbn [bk_run ps].
    set (acc := fold_left _ rest _). assert (Ea : acc i = (IZR (total ps (Z.of_nat i)) / max_word w)%R).
    { unfold acc. rewrite (fold_real rest _ (fun e => rcoef (term (g, d)) (Z.of_nat e)) (mul_real g d) i Hi). reflexivity. }
    clearbody acc. change (bk_add_back B out acc) with (map (fun i => wadd w (nth i out 0) ((if (i <? H)%nat then torus_first w else torus_second w) (acc i))) (seq 0 (2 * H))).
    set (ff := fun i => wadd w (nth i out 0) _). rewrite (nth_indep _ 0 (ff 0%nat)) by (rewrite map_length, seq_length; exact Hi). rewrite map_nth, seq_nth, Nat.add_0_l by exact Hi. unfold ff. rewrite Ea.
    assert (TV : torus_value w (total ps (Z.of_nat i)) ((if (i <? H)%nat then torus_first w else torus_second w) (IZR (total ps (Z.of_nat i)) / max_word w)%R)).
    { destruct (i <? H)%nat; [apply first_torus, Hw|apply second_torus, Hw]. }
    destruct TV as (c & Hc & Ev). set (V := (if (i <? H)%nat then _ else _) _) in *. clearbody V.
    pose proof (total_close ps (Z.of_nat i) HT HF) as TC. set (t := total ps (Z.of_nat i)) in *. set (x := exact ps (Z.of_nat i)) in *.
    exists (t - x + (if w =? 32 then t / modulus w else 0) + c). split.
    - unfold gpu_error, key_rounding in *. pose proof (quotient_bound ps (Z.of_nat i)) as QB. fold t in QB. destruct (Z.eqb_spec w 32) as [E32|E32].
      + specialize (QB E32 HT HF). set (q := t / modulus w) in *. clearbody q t x. clear - QB TC Hc HA. lia.
      + clearbody t x. clear - TC Hc HA. lia.
    - rewrite wadd_eqm. rewrite Ev. apply eqm_eq. ring. }
  apply finite_choice in CH. destruct CH as (err & Le & He). exists err. split; [exact Le|]. split.
  - apply Forall_forall. intros x Hx. destruct (In_nth _ _ 0 Hx) as (i & Hi & <-). apply He. lia.
  - apply req_coefs. intros k Hk. assert (RA : forall (x y : rp N) m, rcoef (radd x y) m = rcoef x m + rcoef y m) by reflexivity. rewrite !RA, !rcoef_R by lia. unfold coef.
    destruct (He (Z.to_nat k) ltac:(lia)) as [_ E]. rewrite Z2Nat.id in E by lia. rewrite E. apply eqm_add; [|reflexivity]. apply eqm_add; [reflexivity|]. apply exact_eqm.
Qed.
End Backend.
