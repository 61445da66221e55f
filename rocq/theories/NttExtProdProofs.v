(** * The external product of the NTT backend: what one output polynomial becomes *)
From Verif Require Import Base Word WordFacts DecompModel DecompProofs NegaRing PolySpec PolyProofs RingSum PolyModel LweProofs
  GlweSpec GlweModel GlweProofs GgswSpec GgswModel SeededModel ExtProdModel ExtProdSpec ExtProdProofs ExtProdTheorems
  BootstrapModel NttModel NttSpec NttProofs NttEval NttApi NttTheorems NttSwitchProofs.

Section Run.
Context (w q : Z) (N : nat).
Add Ring rpNtt0 : (rp_ring_theory (N := N) 0) (setoid (req_equiv N 0) (rp_ring_ext (N := N) 0)).

(** Sum of the products of the switched polynomials, modulo q *)
Definition prod_ring (pairs : list (list Z * list Z)) : rp N :=
  rsuml pairs (fun '(g, d) => rmul (R N (map (into w q) g)) (R N (map (into w q) d))).
Definition prod_sum (pairs : list (list Z * list Z)) : list Z := map (fun k => rcoef (prod_ring pairs) k mod q) (zseq 0 N).
Definition ntt_run (out : list Z) (pairs : list (list Z * list Z)) : list Z :=
  map2 (wadd w) out (map (from w q) (prod_sum pairs)).

Lemma eqm_0 a b : eqm 0 a b -> a = b.
Proof. unfold eqm. rewrite !Zmod_0_r. auto. Qed.

Lemma coef_map_zseq (f : Z -> Z) k : 0 <= k < Z.of_nat N -> coef (map f (zseq 0 N)) k = f k.
Proof.
  intros Hk. unfold coef. rewrite (nth_indep _ 0 (f 0)) by (rewrite map_length, zseq_len; lia). rewrite map_nth.
  rewrite nth_zseq by lia. f_equal. lia.
Qed.
Lemma req_map m (f g : Z -> Z) l : length l = N -> (forall x, In x l -> eqm m (f x) (g x)) -> req m (R N (map f l)) (R N (map g l)).
Proof.
  intros Hl H. apply req_coefs. intros k Hk. rewrite !rcoef_R by lia. rewrite !coef_map_in by lia. apply H. apply coef_in. lia.
Qed.

Lemma rbound_rsuml {A} m B (l : list A) (f : A -> rp N) : (forall a, In a l -> rbound m B (f a)) -> rbound m (Z.of_nat (length l) * B) (rsuml l f).
Proof.
  induction l as [|a l IH]; intros H; [apply rbound_zero|]. cbn [rsuml length].
  replace (Z.of_nat (S (length l)) * B) with (B + Z.of_nat (length l) * B) by lia.
  apply rbound_add; [apply H; left; reflexivity|apply IH; intros; apply H; right; assumption].
Qed.

Context (Hw : 0 < w) (Hq : 1 < q < 2 ^ w).

Lemma prod_sum_residues pairs : residues q N (prod_sum pairs).
Proof.
  unfold prod_sum. split; [rewrite map_length; apply zseq_len|]. rewrite Forall_map. apply Forall_forall. intros. apply Z.mod_pos_bound. lia.
Qed.
Lemma prod_sum_R pairs : req q (R N (prod_sum pairs)) (prod_ring pairs).
Proof.
  apply req_coefs. intros k Hk. rewrite rcoef_R by lia. unfold prod_sum. rewrite (coef_map_zseq (fun k => rcoef (prod_ring pairs) k mod q)) by assumption.
  apply eqm_mod.
Qed.

(** Exact products with the digits as signed integers and the key lifted to integers *)
Definition lift_ring (pairs : list (list Z * list Z)) : rp N :=
  rsuml pairs (fun '(g, d) => rmul (R N (map (into0 w q) g)) (R N (map (sgn w) d))).
Definition true_ring (pairs : list (list Z * list Z)) : rp N :=
  rsuml pairs (fun '(g, d) => rmul (R N g) (R N (map (sgn w) d))).

Context (b : Z) (Hb : 0 < b) (Hsmall : 2 * 2 ^ (b - 1) * (2 ^ w - q) < 2 ^ w).
Definition pairs_ok (pairs : list (list Z * list Z)) : Prop :=
  Forall (fun '(g, d) => poly_wf w N g /\ poly_wf w N d /\ Forall (fun x => Z.abs (sgn w x) <= 2 ^ (b - 1)) d) pairs.

Lemma prod_lift pairs : pairs_ok pairs -> req q (prod_ring pairs) (lift_ring pairs).
Proof.
  intros Hp. unfold prod_ring, lift_ring. apply rsuml_ext. intros [g d] Hin. unfold pairs_ok in Hp. rewrite Forall_forall in Hp.
  destruct (Hp _ Hin) as ((Hg & _) & (Hd & Hdw) & Hds). rewrite Forall_forall in Hdw, Hds. apply rmul_proper.
  - apply req_map; [assumption|]. intros x Hx. unfold into. apply eqm_mod.
  - apply req_map; [assumption|]. intros x Hx. rewrite into_small; try assumption; [apply eqm_mod|apply Hdw; assumption|].
    specialize (Hds x Hx). nia.
Qed.

Lemma lift_bound pairs T : (length pairs <= T)%nat -> pairs_ok pairs ->
  rbound 0 (Z.of_nat T * (Z.of_nat N * (2 ^ (b - 1) * 2 ^ (w - 1)))) (rsub (rscal (2 ^ w) (lift_ring pairs)) (rscal q (true_ring pairs))).
Proof.
  intros HT Hp. pose proof (pow2_pos (b - 1) ltac:(lia)) as Hpb. pose proof (pow2_pos (w - 1) ltac:(lia)) as Hpw. pose proof (half2 w Hw) as H2.
  set (B := Z.of_nat N * (2 ^ (b - 1) * 2 ^ (w - 1))).
  apply (rbound_le 0 (Z.of_nat (length pairs) * B)); [apply Z.mul_le_mono_nonneg_r; [unfold B; apply Z.mul_nonneg_nonneg; [lia|nia]|lia]|].
  eapply rbound_req; [|apply (rbound_rsuml 0 B pairs (fun '(g, d) => rmul (R N (map (sgn w) d)) (R N (map (fun x => 2 ^ w * into0 w q x - q * x) g))))].
  - unfold lift_ring, true_ring. clear HT. induction pairs as [|[g d] pairs IH].
    + intros k. apply eqm_eq. cbn. lia.
    + unfold pairs_ok in Hp. destruct (Forall_inv Hp) as ((Hg & _) & _). apply Forall_inv_tail in Hp. cbn [rsuml]. rewrite (IH Hp).
      assert (E : req 0 (R N (map (fun x => 2 ^ w * into0 w q x - q * x) g)) (rsub (rscal (2 ^ w) (R N (map (into0 w q) g))) (rscal q (R N g)))).
      { apply req_coefs. intros k Hk. cbn [rsub rscal rcoef proj1_sig]. change (proj1_sig (R N ?x) k) with (rcoef (R N x) k).
        rewrite !rcoef_R by lia. rewrite !coef_map_in by lia. apply eqm_eq. reflexivity. }
      rewrite E. rewrite <- !rmul_const. ring.
  - intros [g d] Hin. unfold pairs_ok in Hp. rewrite Forall_forall in Hp. destruct (Hp _ Hin) as ((Hg & Hgw) & (Hd & _) & Hds).
    apply rbound_mul; [lia|lia|rewrite map_length; assumption|rewrite Forall_map; exact Hds|].
    apply rbound_R; [rewrite map_length; assumption|]. rewrite Forall_map. eapply Forall_impl; [|exact Hgw]. intros x Hx.
    eexists. split; [reflexivity|]. pose proof (into0_spec w q Hw Hq x). lia.
Qed.

(** Bound on the error of the backend for [T] products *)
Definition ntt_error (T : nat) : Z := (q + Z.of_nat T * (Z.of_nat N * (2 ^ (b - 1) * 2 ^ w))) / (2 * q).

Lemma ntt_run_ok T : mul_add_ok w N b T (ntt_error T) ntt_run.
Proof.
  intros out pairs Ho HT Hp. fold (pairs_ok pairs) in Hp.
  pose proof (prod_sum_residues pairs) as [Hpl Hpr]. pose proof (pow2_pos w ltac:(lia)) as Hpw.
  assert (Hwf : poly_wf w N (map (from w q) (prod_sum pairs))).
  { split; [rewrite map_length; exact Hpl|]. rewrite Forall_map. apply Forall_forall. intros x Hx. apply from_word. exact Hw. }
  split; [apply poly_add_wf; [lia|exact Ho|exact Hwf]|].
  set (z := fun k => from0 w q (rcoef (lift_ring pairs) k mod q) + 2 ^ w * (rcoef (lift_ring pairs) k / q)).
  exists (map (fun k => z k - rcoef (true_ring pairs) k) (zseq 0 N)). split; [rewrite map_length; apply zseq_len|]. split.
  - rewrite Forall_map. apply Forall_forall. intros k Hk.
    assert (Hk' : 0 <= k < Z.of_nat N).
    { apply (In_nth _ _ 0) in Hk. destruct Hk as (i & Hi & <-). rewrite zseq_len in Hi. rewrite nth_zseq by exact Hi. lia. }
    destruct (lift_bound pairs T HT Hp k Hk') as (e & Ee & He). apply eqm_0 in Ee. cbn [rsub rscal rcoef proj1_sig] in Ee.
    change (proj1_sig (lift_ring pairs) k) with (rcoef (lift_ring pairs) k) in Ee. change (proj1_sig (true_ring pairs) k) with (rcoef (true_ring pairs) k) in Ee.
    unfold z. set (X := rcoef (lift_ring pairs) k) in *. set (S := rcoef (true_ring pairs) k) in *.
    pose proof (from0_spec w q Hq (X mod q)) as Hf. set (y := from0 w q (X mod q)) in *.
    rewrite (Z.mod_eq X q) in Hf by lia. pose proof (half2 w Hw) as H2. unfold ntt_error. apply Z.div_le_lower_bound; [lia|].
    replace (Z.of_nat T * (Z.of_nat N * (2 ^ (b - 1) * 2 ^ w))) with (2 * (Z.of_nat T * (Z.of_nat N * (2 ^ (b - 1) * 2 ^ (w - 1))))) by (rewrite H2; ring).
    set (A := Z.of_nat T * _) in *. set (t := X / q) in *. clearbody A t y X S.
    assert (E2 : 2 * q * (y + 2 ^ w * t - S) = 2 * (q * y - (X - q * t) * 2 ^ w) + 2 * e) by (rewrite <- Ee; ring).
    assert (Ha : 2 * q * Z.abs (y + 2 ^ w * t - S) = Z.abs (2 * q * (y + 2 ^ w * t - S))) by (rewrite (Z.abs_mul (2 * q)); f_equal; lia).
    rewrite Ha, E2. lia.
  - unfold ntt_run. change (map2 (wadd w)) with (poly_add w). rewrite R_poly_add by (try lia; destruct Ho, Hwf; congruence).
    assert (E : req (2 ^ w) (R N (map (from w q) (prod_sum pairs))) (radd (true_ring pairs) (R N (map (fun k => z k - rcoef (true_ring pairs) k) (zseq 0 N))))).
    { apply req_coefs. intros k Hk. cbn [radd rcoef proj1_sig]. change (proj1_sig (R N ?x) k) with (rcoef (R N x) k).
      rewrite !rcoef_R by lia. rewrite (coef_map_zseq (fun k => z k - rcoef (true_ring pairs) k)) by exact Hk.
      rewrite coef_map_in by lia. unfold prod_sum at 1. rewrite (coef_map_zseq (fun k => rcoef (prod_ring pairs) k mod q)) by exact Hk.
      assert (Em : rcoef (prod_ring pairs) k mod q = rcoef (lift_ring pairs) k mod q) by apply (prod_lift pairs Hp k).
      rewrite Em. unfold from, z. rewrite eqm_mod.
      change (proj1_sig (true_ring pairs) k) with (rcoef (true_ring pairs) k).
      apply (eqm_k _ _ _ (- (rcoef (lift_ring pairs) k / q))). ring. }
    rewrite E. intros k. apply eqm_eq. unfold true_ring. cbn. ring.
Qed.
End Run.

(** ** Execution *)
Section Exec.
Context (p : profile) (w q : Z) (L : nat) (psi : Z) (Hw : 0 < w) (Hq : 1 < q < 2 ^ w) (Hs : size_ok p L).
Local Notation N := (2 ^ L)%nat.
Local Notation W := (2 * w).

Lemma double_modulus_ok : modulus_ok W q.
Proof.
  clear - Hw Hq. split; [lia|]. replace W with (w + w) by lia. rewrite Z.pow_add_r by lia. nia.
Qed.
Local Notation HW := double_modulus_ok.

Lemma into_residues poly : length poly = N -> residues q N (map (into w q) poly).
Proof. intros H. split; [rewrite map_length; exact H|]. rewrite Forall_map. apply Forall_forall. intros. apply into_residue. exact Hq. Qed.

(** Transform of a switched polynomial *)
Definition fsw (nt : ntt) (poly : list Z) : list Z := fwd q (nt_roots nt) L 1 (map (into w q) poly).

Lemma forward_sw_ok nt out poly : ntt_ok q L psi nt -> length out = N -> poly_wf w N poly ->
  forward_w_mod_switch p W q w nt out poly = Ret (fsw nt poly, with_buffer nt (fsw nt poly)).
Proof.
  intros Hnt Ho [Hl Hp]. unfold forward_w_mod_switch. rewrite (size_ok_assert p L) by assumption. cbn [obind].
  rewrite assert_eqb by congruence. cbn [obind].
  rewrite (ozip_update_ok _ (fun _ x => into w q x)).
  2:{ intros x y _ Hy. rewrite Forall_forall in Hp. apply into_ok; auto. }
  cbn [obind]. rewrite (zip_map (into w q)) by (destruct Hnt as (_ & -> & _); symmetry; exact Hl).
  apply (forward_from_buffer_ok p W q L psi HW (with_buffer nt (map (into w q) poly)) out).
  - apply ntt_ok_buffer; [exact Hnt|rewrite map_length; exact Hl].
  - apply into_residues. exact Hl.
  - exact Ho.
Qed.

Lemma fsw_residues nt poly : length poly = N -> residues q N (fsw nt poly).
Proof. intros H. apply fwd_residues; [lia|]. apply into_residues. exact H. Qed.

Lemma add_backward_ok nt out c : ntt_ok q L psi nt -> length out = N -> residues q N c ->
  exists b, length b = N /\ add_backward_w_mod_switch p W q w nt out (fwd q (nt_roots nt) L 1 c)
    = Ret (map2 (wadd w) out (map (from w q) c), with_buffer nt b).
Proof.
  intros Hnt Ho Hc. assert (Hq1 : 1 < q) by lia. destruct HW as [_ HqW]. set (poly := fwd q (nt_roots nt) L 1 c).
  pose proof (fwd_residues q Hq1 (nt_roots nt) L 1 c Hc) as Hp. fold poly in Hp.
  exists (bwd q (nt_roots_inv nt) L 1 poly). pose proof (bwd_residues q Hq1 (nt_roots_inv nt) L 1 poly Hp) as [Hb1 Hb2].
  split; [exact Hb1|]. unfold add_backward_w_mod_switch. rewrite assert_eqb by (rewrite Ho; symmetry; apply Hp). cbn [obind].
  rewrite (backwards_ok p W q L psi HW) by assumption. cbn [obind with_buffer nt_n_inv nt_buffer].
  rewrite (ozip_update_ok _ (fun o b => wadd w o (from w q (mulc q (nt_n_inv nt) b)))).
  - cbn [obind]. do 2 f_equal. rewrite zip_update_map2 by congruence.
    rewrite <- (map2_map_r (fun o x => wadd w o x) (fun b => from w q (mulc q (nt_n_inv nt) b))). f_equal.
    rewrite <- (map_map (mulc q (nt_n_inv nt)) (from w q)). f_equal.
    exact (inv_fwd W q L psi HW nt c Hnt Hc).
  - intros x y _ Hy. rewrite Forall_forall in Hb2. specialize (Hb2 y Hy).
    rewrite (mq_mul_ok p W q ltac:(lia) HqW) by (try exact Hb2; apply (n_inv_residue q L psi); exact Hnt). cbn [obind].
    assert (E : (y * nt_n_inv nt) mod q = mulc q (nt_n_inv nt) y) by (unfold mulc; f_equal; ring).
    rewrite E. rewrite from_ok; [reflexivity|assumption|assumption|]. unfold mulc. apply residue_mod. lia.
Qed.

Lemma with_self nt : with_buffer nt (nt_buffer nt) = nt.
Proof. destruct nt. reflexivity. Qed.

Lemma forward_polys_ok : forall polys outs nt, ntt_ok q L psi nt -> length outs = length polys -> Forall (fun o => length o = N) outs -> Forall (poly_wf w N) polys ->
  exists b, length b = N /\ forward_polys p W q w nt outs polys = Ret (map (fsw nt) polys, with_buffer nt b).
Proof.
  induction polys as [|x polys IH]; intros [|o outs] nt Hnt Hl Ho Hp; try discriminate.
  - exists (nt_buffer nt). split; [apply Hnt|]. cbn. rewrite with_self. reflexivity.
  - cbn [forward_polys]. pose proof (Forall_inv Ho) as Ho1. pose proof (Forall_inv Hp) as Hx. cbv beta in Ho1.
    rewrite forward_sw_ok by assumption. cbn [obind].
    destruct (IH outs (with_buffer nt (fsw nt x))) as (b & Hb & E).
    + apply ntt_ok_buffer; [exact Hnt|]. apply fsw_residues. apply Hx.
    + cbn in Hl. lia.
    + apply (Forall_inv_tail Ho).
    + apply (Forall_inv_tail Hp).
    + rewrite E. cbn [obind]. exists b. split; [exact Hb|]. reflexivity.
Qed.

Lemma forward_rows_ok n : forall rows outs nt, ntt_ok q L psi nt -> length outs = length rows ->
  Forall (fun o => length o = n /\ Forall (fun o => length o = N) o) outs -> Forall (fun r => length r = n /\ Forall (poly_wf w N) r) rows ->
  exists b, length b = N /\ forward_rows p W q w nt outs rows = Ret (map (map (fsw nt)) rows, with_buffer nt b).
Proof.
  induction rows as [|x rows IH]; intros [|o outs] nt Hnt Hl Ho Hp; try discriminate.
  - exists (nt_buffer nt). split; [apply Hnt|]. cbn. rewrite with_self. reflexivity.
  - cbn [forward_rows]. destruct (Forall_inv Ho) as [Ho1 Ho2]. destruct (Forall_inv Hp) as [Hx1 Hx2].
    destruct (forward_polys_ok x o nt Hnt ltac:(congruence) Ho2 Hx2) as (b1 & Hb1 & E1). rewrite E1. cbn [obind].
    destruct (IH outs (with_buffer nt b1)) as (b & Hb & E).
    + apply ntt_ok_buffer; assumption.
    + cbn in Hl. lia.
    + apply (Forall_inv_tail Ho).
    + apply (Forall_inv_tail Hp).
    + rewrite E. cbn [obind]. exists b. split; [exact Hb|]. reflexivity.
Qed.

(** The shape of a GGSW ciphertext in the transformed domain *)
Definition ntt_shape (k l : nat) (outs : list (list (list (list Z)))) : Prop :=
  length outs = l /\ Forall (fun rows => length rows = S k /\ Forall (fun row => length row = S k /\ Forall (fun x => length x = N) row) rows) outs.

Lemma fill_ok k l : forall levels outs nt, ntt_ok q L psi nt -> ntt_shape k l outs -> ggsw_wf w k N l levels ->
  exists b, length b = N /\ fill_with_forward_ntt p W q w nt outs levels = Ret (map (map (map (fsw nt))) levels, with_buffer nt b).
Proof.
  revert l. intros l levels. revert l. induction levels as [|x levels IH]; intros l [|o outs] nt Hnt [Hl1 Ho] [Hl2 Hp]; cbn [length] in *; try lia.
  - exists (nt_buffer nt). split; [apply Hnt|]. cbn. rewrite with_self. reflexivity.
  - cbn [fill_with_forward_ntt]. destruct (Forall_inv Ho) as [Ho1 Ho2]. destruct (Forall_inv Hp) as [Hx1 Hx2].
    destruct (forward_rows_ok (S k) x o nt Hnt ltac:(congruence) Ho2) as (b1 & Hb1 & E1).
    { eapply Forall_impl; [|exact Hx2]. intros r Hr. exact Hr. }
    rewrite E1. cbn [obind].
    destruct (IH (pred l) outs (with_buffer nt b1)) as (b & Hb & E).
    + apply ntt_ok_buffer; assumption.
    + split; [lia|apply (Forall_inv_tail Ho)].
    + split; [lia|apply (Forall_inv_tail Hp)].
    + rewrite E. cbn [obind]. exists b. split; [exact Hb|]. reflexivity.
Qed.

Lemma bsk_forward_ok k l : forall bsk outs nt, ntt_ok q L psi nt -> length outs = length bsk ->
  Forall (ntt_shape k l) outs -> Forall (ggsw_wf w k N l) bsk ->
  exists b, length b = N /\ bsk_forward_ntt p W q w nt outs bsk = Ret (map (map (map (map (fsw nt)))) bsk, with_buffer nt b).
Proof.
  induction bsk as [|x bsk IH]; intros [|o outs] nt Hnt Hl Ho Hp; try discriminate.
  - exists (nt_buffer nt). split; [apply Hnt|]. cbn. rewrite with_self. reflexivity.
  - cbn [bsk_forward_ntt].
    destruct (fill_ok k l x o nt Hnt (Forall_inv Ho) (Forall_inv Hp)) as (b1 & Hb1 & E1). rewrite E1. cbn [obind].
    destruct (IH outs (with_buffer nt b1)) as (b & Hb & E).
    + apply ntt_ok_buffer; assumption.
    + cbn in Hl. lia.
    + apply (Forall_inv_tail Ho).
    + apply (Forall_inv_tail Hp).
    + rewrite E. cbn [obind]. exists b. split; [exact Hb|]. reflexivity.
Qed.

(** The accumulators after the pairs [done] *)
Definition acc_of (nt : ntt) (n : nat) (done : list (list (list Z) * list Z)) : list (list Z) :=
  map (fun u => fwd q (nt_roots nt) L 1 (prod_sum w q N (pairs_of done u))) (seq 0 n).

Lemma acc_nil nt n : acc_of nt n [] = repeat (repeat 0 N) n.
Proof.
  unfold acc_of, pairs_of. cbn [map].
  assert (E : prod_sum w q N [] = repeat 0 N).
  { unfold prod_sum, prod_ring. cbn [rsuml]. rewrite (map_ext _ (fun _ => 0)) by (intros z; apply Z.mod_0_l; lia).
    generalize 0 at 2. generalize N. clear. induction n as [|n IH]; intros z; [reflexivity|]. cbn [zseq map repeat]. f_equal. apply IH. }
  rewrite E, fwd_zero by lia. generalize (repeat 0 N). clear. intros z. generalize 0%nat. induction n as [|n IH]; intros s; [reflexivity|]. cbn. f_equal. apply IH.
Qed.

Lemma prod_sum_snoc pairs g d : length g = N -> length d = N ->
  req q (R N (prod_sum w q N (pairs ++ [(g, d)]))) (radd (R N (prod_sum w q N pairs)) (rmul (R N (map (into w q) g)) (R N (map (into w q) d)))).
Proof.
  intros Hg Hd. rewrite !prod_sum_R by assumption. unfold prod_ring. rewrite rsuml_app. cbn [rsuml]. intros k. apply eqm_eq. cbn. lia.
Qed.

Lemma ep_row_step nt n done row x : ntt_ok q L psi nt -> length row = n -> Forall (poly_wf w N) row -> length x = N ->
  ozip_update (fun o g => multiply_accumulate p W q o g (fsw nt x)) (acc_of nt n done) (map (fsw nt) row) = Ret (acc_of nt n (done ++ [(row, x)])).
Proof.
  intros Hnt Hn Hrow Hx. assert (Hq1 : 1 < q) by lia.
  rewrite (ozip_update_ok _ (fun r a => map2 (fun r ab => (r + fst ab * snd ab) mod q) r (combine a (fsw nt x)))).
  - f_equal. apply (nth_ext _ _ [] []); [unfold acc_of; rewrite zip_update_length, !map_length; reflexivity|].
    unfold acc_of. rewrite zip_update_length, map_length, seq_length. intros u Hu.
    rewrite (nth_zip_update _ _ _ u [] []) by (rewrite ?map_length, ?seq_length; lia).
    rewrite !nth_map_seq by exact Hu. rewrite (map0_nth _ row u [] []) by lia.
    assert (Hg : poly_wf w N (nth u row [])) by (rewrite Forall_forall in Hrow; apply Hrow, nth_In; lia).
    unfold pairs_of. rewrite map_app. cbn [map].
    apply (fwd_product W q L psi HW nt); try assumption; try (apply prod_sum_residues; assumption); try (apply into_residues; [exact Hx || apply Hg]).
    apply prod_sum_snoc; [apply Hg|exact Hx].
  - intros r a Hr Ha. apply (multiply_accumulate_ok p W q L HW).
    + unfold acc_of in Hr. apply in_map_iff in Hr. destruct Hr as (u & <- & _). apply fwd_residues; [exact Hq1|]. apply prod_sum_residues; assumption.
    + apply in_map_iff in Ha. destruct Ha as (g & <- & Hg). apply fsw_residues. rewrite Forall_forall in Hrow. apply Hrow. exact Hg.
    + apply fsw_residues. exact Hx.
Qed.

Lemma ntt_ep_rows_ok n : forall rows polys nt fft done, ntt_ok q L psi nt -> length fft = N ->
  Forall (fun r => length r = n /\ Forall (poly_wf w N) r) rows -> Forall (poly_wf w N) polys ->
  exists b fft', length b = N /\ length fft' = N /\
    ntt_ep_rows p W q w (map (map (fsw nt)) rows) polys nt fft (acc_of nt n done)
    = Ret (with_buffer nt b, fft', acc_of nt n (done ++ combine rows polys)).
Proof.
  induction rows as [|row rows IH]; intros polys nt fft done Hnt Hf Hr Hp.
  - exists (nt_buffer nt), fft. split; [apply Hnt|]. split; [exact Hf|]. cbn. rewrite with_self, app_nil_r. reflexivity.
  - destruct polys as [|x polys].
    { exists (nt_buffer nt), fft. split; [apply Hnt|]. split; [exact Hf|]. cbn. rewrite with_self, app_nil_r. reflexivity. }
    cbn [map ntt_ep_rows combine]. destruct (Forall_inv Hr) as [Hr1 Hr2]. pose proof (Forall_inv Hp) as Hx.
    rewrite forward_sw_ok by assumption. cbn [obind].
    rewrite (ep_row_step nt n done row x Hnt Hr1 Hr2 (proj1 Hx)). cbn [obind].
    destruct (IH polys (with_buffer nt (fsw nt x)) (fsw nt x) (done ++ [(row, x)])) as (b & fft' & Hb & Hf' & E).
    + apply ntt_ok_buffer; [exact Hnt|]. apply fsw_residues. apply Hx.
    + apply fsw_residues. apply Hx.
    + apply (Forall_inv_tail Hr).
    + apply (Forall_inv_tail Hp).
    + exists b, fft'. split; [exact Hb|]. split; [exact Hf'|]. rewrite <- app_assoc in E. exact E.
Qed.

Lemma ntt_ep_levels_ok d n : dec_wf w d -> forall lvs it sts nt fft done, ntt_ok q L psi nt -> length fft = N ->
  tinv w d it -> ti_current_level it = length lvs -> ti_states it = concat sts -> Forall (fun s => length s = N) sts ->
  Forall (Forall (fun r => length r = n /\ Forall (poly_wf w N) r)) lvs ->
  (forall t, (t < length lvs)%nat -> Forall (fun x => is_word w (dgt w (base_log d) (length lvs) t x)) (concat sts)) ->
  exists b fft', length b = N /\ length fft' = N /\
    ntt_ep_levels p W q w N (map (map (map (fsw nt))) lvs) it nt fft (acc_of nt n done)
    = Ret (with_buffer nt b, fft', acc_of nt n (done ++
        flat_map (fun t => combine (nth t lvs []) (map (map (dgt w (base_log d) (length lvs) t)) sts)) (seq 0 (length lvs)))).
Proof.
  intros Hd. assert (HN : (0 < N)%nat) by (pose proof (Nat.pow_nonzero 2 L); lia).
  induction lvs as [|rows lvs IH]; intros it sts nt fft done Hnt Hf Hi El Est Hsl Hlv Hdg.
  - exists (nt_buffer nt), fft. split; [apply Hnt|]. split; [exact Hf|]. cbn. rewrite with_self, app_nil_r. reflexivity.
  - cbn [map ntt_ep_levels length] in *.
    destruct (tsdi_next_ok p w d it (length lvs) Hd Hi El) as (it' & E1 & Hi' & El' & _ & Est'). rewrite E1. cbn [obind tt_level tt_values].
    rewrite !map_length. unfold debug_assert at 1. rewrite Nat.eqb_refl.
    assert (Ed : (match p with Debug => if true then Ret tt else Panic | Release => Ret tt end) = Ret tt) by (destruct p; reflexivity).
    cbn [assert_] in *. match goal with |- context [obind ?x _] => replace x with (Ret tt) by (destruct p; reflexivity) end. cbn [obind].
    rewrite Est. rewrite chunks_map by assumption.
    set (f0 := fun s => fst (decompose_one_level w (base_log d) s)).
    assert (Hp : Forall (poly_wf w N) (map (map f0) sts)).
    { rewrite Forall_map. apply Forall_forall. intros s Hs'. rewrite Forall_forall in Hsl. split; [rewrite map_length; auto|].
      rewrite Forall_map. apply Forall_forall. intros x Hx. specialize (Hdg O ltac:(lia)). rewrite Forall_forall in Hdg.
      specialize (Hdg x). rewrite dgt_0 in Hdg. apply Hdg. apply in_concat. eauto. }
    destruct (ntt_ep_rows_ok n rows (map (map f0) sts) nt fft done Hnt Hf (Forall_inv Hlv) Hp) as (b1 & fft1 & Hb1 & Hf1 & E2).
    rewrite E2. cbn [obind].
    set (f1 := fun s => snd (decompose_one_level w (base_log d) s)).
    destruct (IH it' (map (map f1) sts) (with_buffer nt b1) fft1 (done ++ combine rows (map (map f0) sts))) as (b & fft' & Hb & Hf' & E3).
    + apply ntt_ok_buffer; assumption.
    + exact Hf1.
    + exact Hi'.
    + exact El'.
    + rewrite Est', Est, concat_map. reflexivity.
    + rewrite Forall_map. eapply Forall_impl; [|exact Hsl]. intros s Hs'. rewrite map_length. exact Hs'.
    + apply (Forall_inv_tail Hlv).
    + intros t Ht. rewrite <- concat_map, Forall_map. specialize (Hdg (S t) ltac:(lia)). eapply Forall_impl; [|exact Hdg].
      intros x Hx. cbv beta in Hx. rewrite dgt_S in Hx. exact Hx.
    + exists b, fft'. split; [exact Hb|]. split; [exact Hf'|].
      change (map (map (map (fsw (with_buffer nt b1)))) lvs) with (map (map (map (fsw nt))) lvs) in E3.
      change (acc_of (with_buffer nt b1)) with (acc_of nt) in E3. change (with_buffer (with_buffer nt b1) b) with (with_buffer nt b) in E3.
      rewrite E3. rewrite <- app_assoc.
      assert (Efl : combine rows (map (map f0) sts) ++ flat_map (fun t => combine (nth t lvs []) (map (map (dgt w (base_log d) (length lvs) t)) (map (map f1) sts))) (seq 0 (length lvs))
        = flat_map (fun t => combine (nth t (rows :: lvs) []) (map (map (dgt w (base_log d) (S (length lvs)) t)) sts)) (seq 0 (S (length lvs)))).
      { change (seq 0 (S (length lvs))) with (0%nat :: seq 1 (length lvs)). rewrite <- seq_shift.
        rewrite !flat_map_concat_map. cbn [map concat]. rewrite map_map.
        assert (A : map (map f0) sts = map (map (dgt w (base_log d) (S (length lvs)) 0)) sts).
        { apply map_ext. intros s. apply map_ext. intros x. unfold f0. rewrite dgt_0. reflexivity. }
        rewrite A. cbn [nth]. f_equal. f_equal. apply map_ext. intros t. f_equal.
        rewrite map_map. apply map_ext. intros s. rewrite map_map. apply map_ext. intros x. rewrite dgt_S. reflexivity. }
      rewrite Efl. reflexivity.
Qed.

Lemma add_backward_polys_ok : forall outs cs nt, ntt_ok q L psi nt -> length outs = length cs -> Forall (poly_wf w N) outs -> Forall (residues q N) cs ->
  exists b, length b = N /\ add_backward_polys p W q w nt outs (map (fwd q (nt_roots nt) L 1) cs)
    = Ret (map2 (fun o c => map2 (wadd w) o (map (from w q) c)) outs cs, with_buffer nt b).
Proof.
  induction outs as [|o outs IH]; intros [|c cs] nt Hnt Hl Ho Hc; try discriminate.
  - exists (nt_buffer nt). split; [apply Hnt|]. cbn. rewrite with_self. reflexivity.
  - cbn [map add_backward_polys map2].
    destruct (add_backward_ok nt o c Hnt (proj1 (Forall_inv Ho)) (Forall_inv Hc)) as (b1 & Hb1 & E1). rewrite E1. cbn [obind].
    destruct (IH cs (with_buffer nt b1)) as (b & Hb & E).
    + apply ntt_ok_buffer; assumption.
    + cbn in Hl. lia.
    + apply (Forall_inv_tail Ho).
    + apply (Forall_inv_tail Hc).
    + exists b. split; [exact Hb|]. change (nt_roots (with_buffer nt b1)) with (nt_roots nt) in E. rewrite E. reflexivity.
Qed.

Lemma ntt_external_product_run k d out G c bufs :
  dec_wf w d -> glwe_wf w k N out -> glwe_wf w k N c -> ggsw_wf w k N (level_count d) G ->
  ntt_ok q L psi (nb_ntt bufs) -> length (nb_rounded bufs) = (S k * N)%nat ->
  exists b, length b = N /\
  ntt_external_product p W q w N (S k) (base_log d) out (map (map (map (fsw (nb_ntt bufs)))) G) c bufs
  = Ret (map (fun u => ntt_run w q N (nth u out []) (pairs_of (ep_flat w d G c) u)) (seq 0 (S k)),
         NB (with_buffer (nb_ntt bufs) b) (map (closest_representable w d) (concat c))).
Proof.
  intros Hd [Hol How] [Hcl Hcw] HG Hnt Hr. pose proof Hd as (H1 & H2 & H3 & H4). pose proof HG as [HGl HGf].
  set (nt := nb_ntt bufs) in *.
  unfold ntt_external_product. rewrite !ck_dim_eq_ok by congruence. cbn [obind].
  rewrite map_length, HGl. rewrite dec_new_ok by nia. cbn [obind].
  replace (Dec (base_log d) (level_count d)) with d by (destruct d; reflexivity).
  assert (Hcn : Forall (fun s => length s = N) c) by (apply (wf_lengths w); assumption).
  assert (Hxs : Forall (is_word w) (concat c)).
  { apply Forall_concat. eapply Forall_impl; [|exact Hcw]. intros a [_ Ha]. exact Ha. }
  assert (Hcc : length (concat c) = (S k * N)%nat).
  { rewrite <- Hcl. clear - Hcn. induction Hcn as [|s c Hs Hc IH]; [reflexivity|]. cbn [concat length]. rewrite app_length, IH, Hs. lia. }
  rewrite ck_dim_eq_ok by congruence. cbn [obind].
  rewrite (ozip_update_ok _ (fun _ x => closest_representable w d x)).
  2:{ intros x y _ Hy. rewrite Forall_forall in Hxs. apply closest_representable_ok; auto. }
  cbn [obind]. rewrite (zip_map (closest_representable w d)) by congruence.
  destruct (decompose_tensor_ok p w d (map (closest_representable w d) (concat c)) Hd) as (it & E & Hi & _ & El & Est).
  { rewrite Forall_map. apply Forall_forall. intros. apply closest_word. exact Hd. }
  rewrite E. cbn [obind].
  set (st := fun x => shr (closest_representable w d x) (w - base_log d * Z.of_nat (level_count d))).
  assert (Est' : ti_states it = concat (map (map st) c)).
  { rewrite Est, map_map, <- concat_map. apply map_ext_in. intros x Hx. rewrite Forall_forall in Hxs. unfold st. f_equal.
    apply closest_fixpoint; [assumption|apply closest_word; assumption|]. apply closest_multiple; auto. }
  fold nt. rewrite <- map_rev. rewrite <- (acc_nil nt (S k)).
  destruct (ntt_ep_levels_ok d (S k) Hd (rev G) it (map (map st) c) nt (repeat 0 N) []) as (b1 & fft1 & Hb1 & _ & E2).
  - exact Hnt.
  - apply repeat_length.
  - exact Hi.
  - rewrite rev_length. congruence.
  - exact Est'.
  - rewrite Forall_map. eapply Forall_impl; [|exact Hcn]. intros s Hs'. rewrite map_length. exact Hs'.
  - apply Forall_rev. eapply Forall_impl; [|exact HGf]. intros lev [_ Hlev]. exact Hlev.
  - intros t Ht. rewrite rev_length, HGl in *. rewrite <- concat_map, Forall_map. eapply Forall_impl; [|exact Hxs].
    intros x Hx. cbv beta. change (dgt w (base_log d) (level_count d) t (st x)) with (xdigit w d t x). apply xdigit_spec; assumption.
  - rewrite E2. cbn [obind app]. rewrite rev_length.
    assert (Efl : flat_map (fun t => combine (nth t (rev G) []) (map (map (dgt w (base_log d) (length G) t)) (map (map st) c))) (seq 0 (length G)) = ep_flat w d G c).
    { unfold ep_flat. rewrite !flat_map_concat_map. f_equal. apply map_ext. intros t. f_equal. rewrite map_map. apply map_ext. intros s. rewrite map_map.
      apply map_ext. intros x. rewrite HGl. reflexivity. }
    rewrite Efl. unfold acc_of.
    rewrite <- (map_map (fun u => prod_sum w q N (pairs_of (ep_flat w d G c) u)) (fwd q (nt_roots nt) L 1)).
    destruct (add_backward_polys_ok out (map (fun u => prod_sum w q N (pairs_of (ep_flat w d G c) u)) (seq 0 (S k))) (with_buffer nt b1)) as (b & Hb & E3).
    + apply ntt_ok_buffer; assumption.
    + rewrite map_length, seq_length. exact Hol.
    + exact How.
    + rewrite Forall_map. apply Forall_forall. intros. apply prod_sum_residues; assumption.
    + change (nt_roots (with_buffer nt b1)) with (nt_roots nt) in E3. rewrite E3. cbn [obind].
      exists b. split; [exact Hb|]. do 2 f_equal.
      apply (nth_ext _ _ [] []); [rewrite map2_length, !map_length, seq_length; lia|].
      rewrite map2_length, map_length, seq_length. intros u Hu. replace (Nat.min (length out) (S k)) with (S k) in Hu by lia.
      rewrite nth_map_seq by exact Hu. unfold ntt_run.
      rewrite <- zip_update_map2 by (rewrite map_length, seq_length; exact Hol).
      rewrite (nth_zip_update _ _ _ u [] []) by (rewrite ?map_length, ?seq_length; lia). rewrite nth_map_seq by exact Hu. reflexivity.
Qed.
End Exec.
