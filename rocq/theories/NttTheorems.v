(** * Theorems about the number theoretic transform: C35, C36 *)
From Verif Require Import Base Word WordFacts NegaRing PolySpec PolyProofs DecompModel PolyModel GlweModel SeededModel BootstrapModel NttModel NttSpec NttProofs NttEval NttApi.

(** The transform object [nt] serves size 2^L modulo q with the root [psi]: nothing is said about what is
    in its buffer, so the theorems hold after any history of uses. *)
Definition transform_for (q : Z) (L : nat) (psi : Z) (nt : ntt) : Prop :=
  nt_log nt = L /\ length (nt_buffer nt) = (2 ^ L)%nat /\ table_ok q L psi (nt_roots nt) (nt_roots_inv nt) (nt_n_inv nt).
Lemma transform_for_ok q L psi nt : transform_for q L psi nt -> ntt_ok q L psi nt.
Proof. exact (fun H => H). Qed.

(** ** C35: inversion.  [out1], [out2] and the buffers [b1], [b2] are arbitrary: they are whatever earlier
    calls left there. *)
Theorem C35_backward_undoes_forward p W q L psi nt b1 b2 out1 out2 x :
  modulus_ok W q -> size_ok p L -> transform_for q L psi nt -> length b1 = (2 ^ L)%nat -> length b2 = (2 ^ L)%nat ->
  length out1 = (2 ^ L)%nat -> length out2 = (2 ^ L)%nat -> residues q (2 ^ L) x ->
  exists y nt1 nt2,
    forward p W q (with_buffer nt b1) out1 x = Ret (y, nt1) /\ residues q (2 ^ L) y /\
    backward p W q (with_buffer nt b2) out2 y = Ret (x, nt2) /\
    transform_for q L psi nt1 /\ transform_for q L psi nt2.
Proof.
  intros HW Hs Hnt Hb1 Hb2 Ho1 Ho2 Hx. pose proof (ntt_ok_buffer _ _ _ _ _ Hnt Hb1) as H1. pose proof (ntt_ok_buffer _ _ _ _ _ Hnt Hb2) as H2.
  assert (Hq : 1 < q) by apply HW. pose proof (fwd_residues q Hq (nt_roots nt) L 1 x Hx) as Hy.
  pose proof (bwd_residues q Hq (nt_roots_inv nt) L 1 _ Hy) as Hz.
  do 3 eexists. split; [apply (forward_ok p W q L psi HW); assumption|]. split; [exact Hy|]. split.
  - rewrite (backward_ok p W q L psi HW) by assumption. do 2 f_equal.
    pose proof (inv_fwd W q L psi HW (with_buffer nt b2) x H2 Hx) as E. cbn [with_buffer nt_roots] in E |- *. exact E.
  - split; apply ntt_ok_buffer; try assumption; [apply Hy|apply Hz].
Qed.

Theorem C35_forward_undoes_backward p W q L psi nt b1 b2 out1 out2 x :
  modulus_ok W q -> size_ok p L -> transform_for q L psi nt -> length b1 = (2 ^ L)%nat -> length b2 = (2 ^ L)%nat ->
  length out1 = (2 ^ L)%nat -> length out2 = (2 ^ L)%nat -> residues q (2 ^ L) x ->
  exists y nt1 nt2,
    backward p W q (with_buffer nt b1) out1 x = Ret (y, nt1) /\ residues q (2 ^ L) y /\
    forward p W q (with_buffer nt b2) out2 y = Ret (x, nt2) /\
    transform_for q L psi nt1 /\ transform_for q L psi nt2.
Proof.
  intros HW Hs Hnt Hb1 Hb2 Ho1 Ho2 Hx. pose proof (ntt_ok_buffer _ _ _ _ _ Hnt Hb1) as H1. pose proof (ntt_ok_buffer _ _ _ _ _ Hnt Hb2) as H2.
  assert (Hq : 1 < q) by apply HW. pose proof (inv_list_residues W q L HW (with_buffer nt b1) x Hx) as Hy.
  pose proof (bwd_residues q Hq (nt_roots_inv nt) L 1 _ Hx) as Hz.
  do 3 eexists. split; [apply (backward_ok p W q L psi HW); assumption|]. split; [exact Hy|]. split.
  - rewrite (forward_ok p W q L psi HW) by assumption. do 2 f_equal.
    pose proof (fwd_inv W q L psi HW (with_buffer nt b1) x H1 Hx) as E. cbn [with_buffer nt_roots] in E |- *. exact E.
  - split; apply ntt_ok_buffer; try assumption; [apply Hz|]. apply fwd_residues; assumption.
Qed.

(** The result does not depend on the previous contents of the output and of the buffer. *)
Theorem C35_history_independent p W q L psi nt b1 b2 out1 out2 x :
  modulus_ok W q -> size_ok p L -> transform_for q L psi nt -> length b1 = (2 ^ L)%nat -> length b2 = (2 ^ L)%nat ->
  length out1 = (2 ^ L)%nat -> length out2 = (2 ^ L)%nat -> residues q (2 ^ L) x ->
  forward p W q (with_buffer nt b1) out1 x = forward p W q (with_buffer nt b2) out2 x /\
  backward p W q (with_buffer nt b1) out1 x = backward p W q (with_buffer nt b2) out2 x.
Proof.
  intros HW Hs Hnt Hb1 Hb2 Ho1 Ho2 Hx. pose proof (ntt_ok_buffer _ _ _ _ _ Hnt Hb1) as H1. pose proof (ntt_ok_buffer _ _ _ _ _ Hnt Hb2) as H2.
  rewrite !(forward_ok p W q L psi HW), !(backward_ok p W q L psi HW) by assumption. split; reflexivity.
Qed.

(** ** C36: the forward transform evaluates at the odd powers of psi, which are the roots of X^N + 1. *)
Theorem C36_forward_evaluates p W q L psi nt out x :
  modulus_ok W q -> size_ok p L -> transform_for q L psi nt -> length out = (2 ^ L)%nat -> residues q (2 ^ L) x ->
  exists nt', forward p W q nt out x = Ret (map (fun i => peval x (psi ^ (2 * bitrev L i + 1)) mod q) (zseq 0 (2 ^ L)), nt') /\
    (forall i, eqm q ((psi ^ (2 * bitrev L i + 1)) ^ 2 ^ Z.of_nat L) (-1)).
Proof.
  intros HW Hs Hnt Ho Hx. eexists. split.
  - rewrite (forward_ok p W q L psi HW) by assumption. do 2 f_equal. apply (fwd_list W q L psi HW nt x Hnt Hx).
  - intros i. apply (leaf_pow q L psi i). destruct Hnt as (_ & _ & _ & _ & _ & H & _). exact H.
Qed.

(** Products of polynomials through the transform: forward both factors, multiply into the accumulator;
    once for each pair. *)
Fixpoint ntt_sum_of_products (p : profile) (W q : Z) (nt : ntt) (out1 out2 acc : list Z) (pairs : list (list Z * list Z)) : outcome (list Z * ntt) :=
  match pairs with
  | [] => Ret (acc, nt)
  | (a, b) :: pairs' =>
      let! (fa, nt) := forward p W q nt out1 a in
      let! (fb, nt) := forward p W q nt out2 b in
      let! acc := multiply_accumulate p W q acc fa fb in
      ntt_sum_of_products p W q nt fa fb acc pairs'
  end.

Lemma fwd_zero q roots : 1 < q -> forall d k, fwd q roots d k (repeat 0 (2 ^ d)) = repeat 0 (2 ^ d).
Proof.
  intros Hq. induction d as [|d IH]; intros k; [reflexivity|].
  change (2 ^ S d)%nat with (2 * 2 ^ d)%nat. replace (2 * 2 ^ d)%nat with (2 ^ d + 2 ^ d)%nat by lia. rewrite repeat_app. cbn [fwd].
  rewrite blk_app by apply repeat_length.
  assert (E : forall f : Z -> Z -> Z, f 0 0 = 0 -> map2 f (repeat 0 (2 ^ d)) (repeat 0 (2 ^ d)) = repeat 0 (2 ^ d)).
  { intros f Hf. generalize (2 ^ d)%nat. induction n as [|n IHn]; [reflexivity|]. cbn. rewrite Hf, IHn. reflexivity. }
  rewrite !E by (unfold ff, fg; cbn; reflexivity).
  rewrite firstn_app_exact, skipn_app_exact by apply repeat_length. rewrite !IH. reflexivity.
Qed.

Lemma sum_of_products_ok p W q L psi (HW : modulus_ok W q) (Hs : size_ok p L) : forall pairs nt out1 out2 r,
  transform_for q L psi nt -> length out1 = (2 ^ L)%nat -> length out2 = (2 ^ L)%nat -> residues q (2 ^ L) r ->
  Forall (fun ab => residues q (2 ^ L) (fst ab) /\ residues q (2 ^ L) (snd ab)) pairs ->
  exists c b, ntt_sum_of_products p W q nt out1 out2 (fwd q (nt_roots nt) L 1 r) pairs = Ret (fwd q (nt_roots nt) L 1 c, with_buffer nt b) /\
    length b = (2 ^ L)%nat /\ residues q (2 ^ L) c /\
    req q (R (2 ^ L) c) (radd (R (2 ^ L) r) (rdot (2 ^ L) (map fst pairs) (map snd pairs))).
Proof.
  assert (Hq : 1 < q) by apply HW.
  induction pairs as [|[a b] pairs IH]; intros nt out1 out2 r Hnt Ho1 Ho2 Hr HP.
  - exists r, (nt_buffer nt). cbn [ntt_sum_of_products map rdot]. split; [destruct nt; reflexivity|]. split; [apply Hnt|]. split; [exact Hr|].
    intros k. apply eqm_eq. cbn. lia.
  - destruct (Forall_inv HP) as [Ha Hb]. cbn [fst snd] in Ha, Hb. cbn [ntt_sum_of_products].
    pose proof (fwd_residues q Hq (nt_roots nt) L 1 _ Ha) as Fa. pose proof (fwd_residues q Hq (nt_roots nt) L 1 _ Hb) as Fb.
    pose proof (fwd_residues q Hq (nt_roots nt) L 1 _ Hr) as Fr.
    rewrite (forward_ok p W q L psi HW) by assumption. cbn [obind].
    rewrite (forward_ok p W q L psi HW) by first [assumption | apply ntt_ok_buffer; [exact Hnt|apply Fa]]. cbn [obind].
    change (nt_roots (with_buffer nt (fwd q (nt_roots nt) L 1 a))) with (nt_roots nt). change (with_buffer (with_buffer nt (fwd q (nt_roots nt) L 1 a)) (fwd q (nt_roots nt) L 1 b)) with (with_buffer nt (fwd q (nt_roots nt) L 1 b)).
    rewrite (multiply_accumulate_ok p W q L HW) by assumption. cbn [obind].
    destruct (ring_of_list W q L HW (radd (R (2 ^ L) r) (rmul (R (2 ^ L) a) (R (2 ^ L) b)))) as (c1 & Hc1 & E1).
    rewrite (fwd_product W q L psi HW nt r a b c1) by assumption.
    set (nt2 := with_buffer nt (fwd q (nt_roots nt) L 1 b)).
    assert (Hnt2 : transform_for q L psi nt2) by (apply (ntt_ok_buffer q L psi nt); [exact Hnt|apply Fb]).
    destruct (IH nt2 (fwd q (nt_roots nt) L 1 a) (fwd q (nt_roots nt) L 1 b) c1 Hnt2) as (c & bb & E & Hbb & Hc & EE).
    + apply Fa.
    + apply Fb.
    + exact Hc1.
    + apply (Forall_inv_tail HP).
    + exists c, bb. split; [exact E|]. split; [exact Hbb|]. split; [exact Hc|].
      cbn [map rdot fst snd]. intros k. rewrite (EE k). cbn [radd rcoef proj1_sig]. rewrite (E1 k). apply eqm_eq. cbn. ring.
Qed.

(** Inverse transform of the sum of the products of the transforms: the sum of the negacyclic products. *)
Theorem C36_sum_of_products p W q L psi nt out1 out2 out3 pairs :
  modulus_ok W q -> size_ok p L -> transform_for q L psi nt ->
  length out1 = (2 ^ L)%nat -> length out2 = (2 ^ L)%nat -> length out3 = (2 ^ L)%nat ->
  Forall (fun ab => residues q (2 ^ L) (fst ab) /\ residues q (2 ^ L) (snd ab)) pairs ->
  exists c nt',
    (let! (acc, nt) := ntt_sum_of_products p W q nt out1 out2 (repeat 0 (2 ^ L)) pairs in backward p W q nt out3 acc) = Ret (c, nt') /\
    residues q (2 ^ L) c /\ req q (R (2 ^ L) c) (rdot (2 ^ L) (map fst pairs) (map snd pairs)).
Proof.
  intros HW Hs Hnt Ho1 Ho2 Ho3 HP. assert (Hq : 1 < q) by apply HW.
  assert (H0 : residues q (2 ^ L) (repeat 0 (2 ^ L))).
  { split; [apply repeat_length|]. apply Forall_forall. intros x Hx. apply repeat_spec in Hx. subst. unfold residue. lia. }
  destruct (sum_of_products_ok p W q L psi HW Hs pairs nt out1 out2 _ Hnt Ho1 Ho2 H0 HP) as (c & b & E & Hb & Hc & EE).
  rewrite fwd_zero in E by exact Hq. rewrite E. cbn [obind].
  pose proof (ntt_ok_buffer q L psi nt b Hnt Hb) as Hnt'.
  rewrite (backward_ok p W q L psi HW) by first [assumption | apply fwd_residues; assumption].
  pose proof (inv_fwd W q L psi HW (with_buffer nt b) c Hnt' Hc) as EI. change (nt_roots (with_buffer nt b)) with (nt_roots nt) in EI. rewrite EI.
  do 2 eexists. split; [reflexivity|]. split; [exact Hc|].
  intros k. rewrite (EE k). cbn [radd rcoef proj1_sig]. pose proof (R_zero (2 ^ L) q (2 ^ L) k) as HZ. unfold rcoef in HZ. rewrite HZ. apply eqm_eq. cbn. lia.
Qed.

(** A case: modulo 17, four coefficients, psi = 2. *)
Definition case_ntt : ntt := Ntt 2 [1; 4; 2; 8] [1; 13; 9; 15] 13 [5; 5; 5; 5].
Example C35_C36_case : modulus_ok 64 17 /\ size_ok Release 2 /\ transform_for 17 2 2 case_ntt /\
  residues 17 4 [3; 16; 0; 7] /\ residues 17 4 [1; 2; 5; 9] /\
  (let! (acc, nt) := ntt_sum_of_products Release 64 17 case_ntt [1;1;1;1] [2;2;2;2] (repeat 0 4) [([3; 16; 0; 7], [1; 2; 5; 9])] in backward Release 64 17 nt [0;0;0;0] acc)
    = Ret (map (fun k => nega_coef 4 [3; 16; 0; 7] [1; 2; 5; 9] k mod 17) (zseq 0 4), Ntt 2 [1; 4; 2; 8] [1; 13; 9; 15] 13 (map (fun k => 4 * nega_coef 4 [3; 16; 0; 7] [1; 2; 5; 9] k mod 17) (zseq 0 4))).
Proof.
  split; [split; vm_compute; congruence|]. split; [left; reflexivity|]. split.
  { split; [reflexivity|]. split; [reflexivity|]. split; [split; [reflexivity|repeat constructor; unfold residue; lia]|].
    split; [split; [reflexivity|repeat constructor; unfold residue; lia]|]. split; [unfold residue; cbn; lia|]. split; [reflexivity|].
    split; [|reflexivity]. intros k Hk. change (2 ^ Z.of_nat 2) with 4 in Hk. assert (k = 0 \/ k = 1 \/ k = 2 \/ k = 3) as [-> | [-> | [-> | ->]]] by lia; split; reflexivity. }
  split; [split; [reflexivity|repeat constructor; unfold residue; lia]|]. split; [split; [reflexivity|repeat constructor; unfold residue; lia]|].
  vm_compute. reflexivity.
Qed.
Print Assumptions C35_backward_undoes_forward.
Print Assumptions C35_forward_undoes_backward.
Print Assumptions C35_history_independent.
Print Assumptions C36_forward_evaluates.
Print Assumptions C36_sum_of_products.
