(** * The operations of a transform in terms of the recursive transforms *)
From Verif Require Import Base Word WordFacts NegaRing PolySpec PolyProofs DecompModel PolyModel GlweModel SeededModel BootstrapModel NttModel NttSpec NttProofs NttEval.

Lemma size_ok_assert p L (out : list Z) : size_ok p L -> length out = (2 ^ L)%nat -> debug_assert p (existsb (Nat.eqb (length out)) ALLOWED_POLY_SIZE) = Ret tt.
Proof.
  intros Hs Hl. destruct p; [|reflexivity]. destruct Hs as [Hs|Hs]; [discriminate|].
  assert (L = 7 \/ L = 8 \/ L = 9 \/ L = 10 \/ L = 11 \/ L = 12)%nat as HL by lia. rewrite Hl. clear Hl Hs. unfold debug_assert.
  destruct HL as [-> | [-> | [-> | [-> | [-> | ->]]]]]; vm_compute; reflexivity.
Qed.
Lemma assert_eqb a b : a = b -> assert_ (Nat.eqb a b) = Ret tt.
Proof. intros ->. rewrite Nat.eqb_refl. reflexivity. Qed.
Lemma zip_take {A} (s y : list A) : length s = length y -> zip_update (fun _ x => x) s y = y.
Proof. revert y. induction s as [|a s IH]; intros [|b y] H; try discriminate; [reflexivity|]. cbn in *. rewrite IH by lia. reflexivity. Qed.

(** A transform for size 2^L, whatever its buffer contains. *)
Definition ntt_ok (q : Z) (L : nat) (psi : Z) (nt : ntt) : Prop :=
  nt_log nt = L /\ length (nt_buffer nt) = (2 ^ L)%nat /\ table_ok q L psi (nt_roots nt) (nt_roots_inv nt) (nt_n_inv nt).
Lemma ntt_ok_buffer q L psi nt b : ntt_ok q L psi nt -> length b = (2 ^ L)%nat -> ntt_ok q L psi (with_buffer nt b).
Proof. intros (H1 & _ & H3) Hb. split; [exact H1|]. split; [exact Hb|exact H3]. Qed.

Lemma table_inverse q L psi roots roots_inv n_inv : table_ok q L psi roots roots_inv n_inv -> inverse_below q roots roots_inv (2 ^ L).
Proof.
  intros (_ & _ & _ & _ & H & _) k Hk. assert (Hz : 0 <= Z.of_nat k < 2 ^ Z.of_nat L) by (rewrite <- (Nat2Z.inj_pow 2); lia).
  destruct (H _ Hz) as [_ E]. unfold coef in E. rewrite Nat2Z.id in E. exact E.
Qed.

Section Api.
Context (p : profile) (W q : Z) (L : nat) (psi : Z).
Hypothesis (HW : modulus_ok W q).
Local Lemma Hq : 1 < q. Proof. apply HW. Qed.
Local Notation N := (2 ^ L)%nat.

Lemma forward_from_buffer_ok nt out : ntt_ok q L psi nt -> residues q N (nt_buffer nt) -> length out = N ->
  forward_from_buffer p W q nt out = Ret (fwd q (nt_roots nt) L 1 (nt_buffer nt), with_buffer nt (fwd q (nt_roots nt) L 1 (nt_buffer nt))).
Proof.
  intros (HL & _ & HT) Hb Ho. destruct HW as [Hq1 HqW]. destruct HT as ((Hr1 & Hr2) & _).
  unfold forward_from_buffer. rewrite HL.
  pose proof (forward_loop p W q Hq1 HqW (nt_roots nt) L Hr1 Hr2 L 0 [nt_buffer nt] ltac:(lia) eq_refl) as HF.
  cbn [concat mapi Nat.pow] in HF. rewrite !app_nil_r in HF. rewrite HF by (constructor; [exact Hb|constructor]). cbn [obind].
  rewrite zip_take; [reflexivity|]. rewrite Ho. symmetry. apply fwd_residues; assumption.
Qed.

Lemma forward_ok nt out poly : ntt_ok q L psi nt -> size_ok p L -> length out = N -> residues q N poly ->
  forward p W q nt out poly = Ret (fwd q (nt_roots nt) L 1 poly, with_buffer nt (fwd q (nt_roots nt) L 1 poly)).
Proof.
  intros Hnt Hs Ho Hp. unfold forward. rewrite (size_ok_assert p L) by assumption. cbn [obind].
  rewrite assert_eqb by (rewrite Ho; symmetry; apply Hp). cbn [obind].
  rewrite zip_take by (destruct Hnt as (_ & -> & _); symmetry; apply Hp).
  apply (forward_from_buffer_ok (with_buffer nt poly) out); [apply ntt_ok_buffer; [assumption|apply Hp]|exact Hp|exact Ho].
Qed.

Lemma backwards_ok nt poly : ntt_ok q L psi nt -> residues q N poly ->
  backwards_into_buffer p W q nt poly = Ret (with_buffer nt (bwd q (nt_roots_inv nt) L 1 poly)).
Proof.
  intros (HL & Hbuf & HT) Hp. destruct HW as [Hq1 HqW]. destruct HT as (_ & (Hr1 & Hr2) & _).
  unfold backwards_into_buffer. rewrite zip_take by (rewrite Hbuf; symmetry; apply Hp). rewrite HL.
  assert (HB := backward_loop p W q Hq1 HqW (nt_roots_inv nt) L Hr1 Hr2 L [poly] (le_n L)).
  rewrite Nat.sub_diag in HB. cbn [concat mapi Nat.pow] in HB. rewrite !app_nil_r in HB.
  rewrite HB by first [reflexivity | constructor; [exact Hp|constructor]]. reflexivity.
Qed.

Lemma zip_map {A B} (f : B -> A) (s : list A) (y : list B) : length s = length y -> zip_update (fun _ b => f b) s y = map f y.
Proof. revert y. induction s as [|a s IH]; intros [|b y] H; try discriminate; [reflexivity|]. cbn in *. rewrite IH by lia. reflexivity. Qed.

Definition inv_list (nt : ntt) (poly : list Z) : list Z := map (mulc q (nt_n_inv nt)) (bwd q (nt_roots_inv nt) L 1 poly).

Lemma n_inv_residue nt : ntt_ok q L psi nt -> residue q (nt_n_inv nt).
Proof. intros (_ & _ & _ & _ & H & _). exact H. Qed.

Lemma backward_ok nt out poly : ntt_ok q L psi nt -> length out = N -> residues q N poly ->
  backward p W q nt out poly = Ret (inv_list nt poly, with_buffer nt (bwd q (nt_roots_inv nt) L 1 poly)).
Proof.
  intros Hnt Ho Hp. destruct HW as [Hq1 HqW]. unfold backward. rewrite assert_eqb by (rewrite Ho; symmetry; apply Hp). cbn [obind].
  rewrite backwards_ok by assumption. cbn [obind with_buffer nt_n_inv nt_buffer].
  pose proof (bwd_residues q Hq1 (nt_roots_inv nt) L 1 poly Hp) as [Hb1 Hb2].
  rewrite (ozip_update_ok _ (fun _ b => mulc q (nt_n_inv nt) b)).
  - cbn [obind]. rewrite zip_map by lia. reflexivity.
  - intros a b _ Hin. rewrite Forall_forall in Hb2. rewrite mq_mul_ok by (try assumption; auto; apply (n_inv_residue nt Hnt)).
    unfold mulc. do 2 f_equal. ring.
Qed.

Lemma inv_list_residues nt poly : residues q N poly -> residues q N (inv_list nt poly).
Proof. intros H. apply map_mulc_residues; [apply Hq|]. apply bwd_residues; [apply Hq|exact H]. Qed.

Lemma mulc_inv nt l : ntt_ok q L psi nt -> Forall (residue q) l -> map (mulc q (nt_n_inv nt * 2 ^ Z.of_nat L)) l = l.
Proof.
  intros (_ & _ & _ & _ & _ & _ & _ & Hn) Hl. rewrite <- (map_mulc_1 q l Hl) at 2. apply map_ext. intros x. unfold mulc.
  apply eqm_mod_eq2. rewrite Hn. reflexivity.
Qed.

Lemma inv_fwd nt poly : ntt_ok q L psi nt -> residues q N poly -> inv_list nt (fwd q (nt_roots nt) L 1 poly) = poly.
Proof.
  intros Hnt Hp. unfold inv_list. rewrite (bwd_fwd q Hq _ _ N (table_inverse _ _ _ _ _ _ (proj2 (proj2 Hnt)))) by (try exact Hp; lia).
  rewrite map_mulc_mulc. apply mulc_inv; [exact Hnt|apply Hp].
Qed.
Lemma fwd_inv nt poly : ntt_ok q L psi nt -> residues q N poly -> fwd q (nt_roots nt) L 1 (inv_list nt poly) = poly.
Proof.
  intros Hnt Hp. unfold inv_list. rewrite fwd_mulc by first [apply Hq | apply bwd_residues; [apply Hq|exact Hp]].
  rewrite (fwd_bwd q Hq _ _ N (table_inverse _ _ _ _ _ _ (proj2 (proj2 Hnt)))) by (try exact Hp; lia).
  rewrite map_mulc_mulc. apply mulc_inv; [exact Hnt|apply Hp].
Qed.

Lemma nth_zseq a n i d : (i < n)%nat -> nth i (zseq a n) d = a + Z.of_nat i.
Proof.
  clear. revert a i. induction n as [|n IH]; intros a [|i] Hi; try lia; cbn [zseq nth]; [lia|]. rewrite IH by lia. lia.
Qed.

(** Values of the transform *)
Lemma fwd_list nt poly : ntt_ok q L psi nt -> residues q N poly ->
  fwd q (nt_roots nt) L 1 poly = map (fun i => peval poly (leaf L psi i) mod q) (zseq 0 N).
Proof.
  intros Hnt Hp. pose proof (fwd_residues q Hq (nt_roots nt) L 1 poly Hp) as [Hl _].
  apply (nth_ext _ _ 0 0); [rewrite map_length, zseq_len; exact Hl|].
  intros i Hi. rewrite Hl in Hi. rewrite (fwd_values q Hq L psi _ _ _ poly i (proj2 (proj2 Hnt))) by assumption.
  symmetry. rewrite (nth_indep _ 0 ((fun i => peval poly (leaf L psi i) mod q) 0)) by (rewrite map_length, zseq_len; exact Hi).
  rewrite (map_nth (fun i => peval poly (leaf L psi i) mod q)). rewrite nth_zseq by exact Hi. reflexivity.
Qed.

(** Accumulation of products of transformed polynomials *)
Lemma multiply_accumulate_ok r a b : residues q N r -> residues q N a -> residues q N b ->
  multiply_accumulate p W q r a b = Ret (map2 (fun r ab => (r + fst ab * snd ab) mod q) r (combine a b)).
Proof.
  intros [Hr1 Hr2] [Ha1 Ha2] [Hb1 Hb2]. destruct HW as [Hq1 HqW]. unfold multiply_accumulate. rewrite !ck_dim_eq_ok by lia. cbn [obind].
  rewrite (ozip_update_ok _ (fun r ab => (r + fst ab * snd ab) mod q)).
  - rewrite zip_update_map2 by (rewrite combine_length; lia). reflexivity.
  - rewrite Forall_forall in *. intros x [y z] Hx Hyz. pose proof (in_combine_l _ _ _ _ Hyz). pose proof (in_combine_r _ _ _ _ Hyz).
    rewrite mq_mul_ok by auto. cbn [obind]. rewrite mq_add_ok by (try assumption; auto; apply residue_mod; assumption).
    cbn [fst snd]. rewrite Zplus_mod_idemp_r. reflexivity.
Qed.

Lemma ring_of_list (x : rp N) : exists c, residues q N c /\ req q (R N c) x.
Proof.
  exists (map (fun k => rcoef x k mod q) (zseq 0 N)).
  assert (Hl : length (map (fun k => rcoef x k mod q) (zseq 0 N)) = N) by (rewrite map_length; apply zseq_len).
  split; [split; [exact Hl|]|].
  - rewrite Forall_map. apply Forall_forall. intros. apply residue_mod, Hq.
  - apply req_coefs. intros k Hk. rewrite rcoef_R by lia. unfold coef.
    rewrite (nth_indep _ 0 ((fun k => rcoef x k mod q) 0)) by (rewrite Hl; lia). rewrite (map_nth (fun k => rcoef x k mod q)).
    rewrite nth_zseq by lia. rewrite eqm_mod. apply eqm_eq. f_equal. lia.
Qed.

(** The transform of r plus a product, pointwise. *)
Lemma fwd_product nt r a b c : ntt_ok q L psi nt -> residues q N r -> residues q N a -> residues q N b -> residues q N c ->
  req q (R N c) (radd (R N r) (rmul (R N a) (R N b))) ->
  map2 (fun r ab => (r + fst ab * snd ab) mod q) (fwd q (nt_roots nt) L 1 r) (combine (fwd q (nt_roots nt) L 1 a) (fwd q (nt_roots nt) L 1 b))
  = fwd q (nt_roots nt) L 1 c.
Proof.
  intros Hnt Hr Ha Hb Hc E.
  pose proof (fwd_residues q Hq (nt_roots nt) L 1) as HF.
  destruct (HF r Hr) as [Lr _], (HF a Ha) as [La _], (HF b Hb) as [Lb _], (HF c Hc) as [Lc _].
  apply (nth_ext _ _ 0 0); [rewrite map2_length, combine_length; lia|].
  rewrite map2_length, combine_length, Lr, La, Lb. intros i Hi. replace (Nat.min N (Nat.min N N)) with N in Hi by lia.
  assert (Hm : forall (f : Z -> Z * Z -> Z) l m, (i < length l)%nat -> (i < length m)%nat -> nth i (map2 f l m) 0 = f (nth i l 0) (nth i m (0, 0))).
  { clear. intros f l m. revert i m. induction l as [|x l IH]; intros [|i] [|y m] H1 H2; cbn in *; try lia. apply IH; lia. }
  rewrite Hm by (rewrite ?combine_length; lia). rewrite combine_nth by lia. cbn [fst snd].
  rewrite !(fwd_values q Hq L psi _ _ _ _ i (proj2 (proj2 Hnt))) by assumption.
  set (v := leaf L psi (Z.of_nat i)). apply eqm_mod_eq2. rewrite !eqm_mod.
  assert (HN : (0 < N)%nat) by (pose proof (Nat.pow_nonzero 2 L); lia).
  assert (Hv : eqm q (v ^ Z.of_nat N) (-1)).
  { rewrite Nat2Z.inj_pow. apply leaf_pow. destruct Hnt as (_ & _ & _ & _ & _ & H & _). exact H. }
  rewrite !(peval_R q N v HN) by first [apply Hr | apply Ha | apply Hb | apply Hc].
  rewrite (reval_proper q N v _ _ E), reval_add, (reval_mul q Hq N v HN Hv). reflexivity.
Qed.
End Api.
