(** * Products accumulated in the Fourier domain: values and rounding errors *)
From Coq Require Import QArith Qpower Qabs Lqa.
From Verif Require Import Base Word WordFacts FloatModel FloatFacts SeededModel FourierConvSpec FourierConvModel FourierConvProofs FourierConvBounds FourierConvTheorems ExtProdModel FourierBackendModel.
Open Scope Z_scope.

Definition fma_step (u : bool) (x : (Q * Q) * (Q * Q) * (Q * Q) * (Q * Q)) : Q * Q :=
  let '(o, a, b, _) := x in
  if u then (fmsub (fst a) (fst b) (fmul (snd a) (snd b)), fmadd (fst a) (snd b) (fmul (snd a) (fst b)))
  else (fmsub (fst a) (fst b) (fmsub (snd a) (snd b) (fst o)), fmadd (fst a) (snd b) (fmadd (snd a) (fst b) (snd o))).
Definition scalar_step (u : bool) (x : (Q * Q) * (Q * Q) * (Q * Q) * (Q * Q)) : Q * Q :=
  let '(o, a, b, _) := x in if u then cmul a b else cplus o (cmul a b).

(** ** The loops *)
Lemma flat_firstn k l : firstn (2 * k) (flat l) = flat (firstn k l).
Proof.
  revert l. induction k as [|k IH]; intros l; [reflexivity|]. destruct l as [|z l]; [rewrite firstn_nil; reflexivity|].
  replace (2 * S k)%nat with (S (S (2 * k))) by lia. cbn [firstn]. change (flat (z :: l)) with (fst z :: snd z :: flat l). cbn [firstn]. rewrite IH. reflexivity.
Qed.
Lemma flat_skipn k l : skipn (2 * k) (flat l) = flat (skipn k l).
Proof.
  revert l. induction k as [|k IH]; intros l; [reflexivity|]. destruct l as [|z l]; [rewrite skipn_nil; reflexivity|].
  replace (2 * S k)%nat with (S (S (2 * k))) by lia. cbn [skipn]. change (flat (z :: l)) with (fst z :: snd z :: flat l). cbn [skipn]. apply IH.
Qed.
Lemma flat_load i k l : load_at (2 * i) (2 * k) (flat l) = flat (load_at i k l).
Proof. unfold load_at. rewrite flat_skipn, flat_firstn. reflexivity. Qed.

Definition fmadd_block (imm : Z) (u : bool) (out ab xy : list Q) : list Q :=
  let aa := vunpacklo ab ab in
  let bb := vunpackhi ab ab in
  let yx := permute_pd imm xy in
  if u then fmaddsub aa xy (map2 fmul bb yx) else fmaddsub aa xy (fmaddsub bb yx out).
Definition block_good (per : nat) (imm : Z) : Prop := forall u o a b, length o = per -> length a = per -> length b = per ->
  fmadd_block imm u (flat o) (flat a) (flat b) = flat (map (fma_step u) (zip4 o a b b)).
Lemma block_2_good : block_good 2 5.
Proof.
  intros u o a b Ho Ha Hb. destruct o as [|[? ?] [|[? ?] [|? ?]]]; try discriminate. destruct a as [|[? ?] [|[? ?] [|? ?]]]; try discriminate.
  destruct b as [|[? ?] [|[? ?] [|? ?]]]; try discriminate. destruct u; reflexivity.
Qed.
Lemma block_4_good : block_good 4 85.
Proof.
  intros u o a b Ho Ha Hb. destruct o as [|[? ?] [|[? ?] [|[? ?] [|[? ?] [|? ?]]]]]; try discriminate. destruct a as [|[? ?] [|[? ?] [|[? ?] [|[? ?] [|? ?]]]]]; try discriminate.
  destruct b as [|[? ?] [|[? ?] [|[? ?] [|[? ?] [|? ?]]]]]; try discriminate. destruct u; reflexivity.
Qed.

Lemma fmadd_loop_ok per imm n u out lhs rhs : (0 < per)%nat -> block_good per imm -> (n / per * per <= n)%nat ->
  length out = n -> length lhs = n -> length rhs = n ->
  let m := (n / per * per)%nat in
  fmadd_loop per imm n (flat out) (flat lhs) (flat rhs) u =
    flat (map (fma_step u) (zip4 (firstn m out) (firstn m lhs) (firstn m rhs) (firstn m rhs)) ++ skipn m out).
Proof.
  intros Hp Hb Hq Ho Hl Hr m. unfold fmadd_loop, m. clear m. revert Hq. generalize (n / per)%nat. induction n0 as [|q IH]; intros Hq; [reflexivity|].
  rewrite seq_S, fold_left_app, IH by lia. cbn [fold_left Nat.add]. rewrite (Nat.mul_comm per q).
  set (P := map (fma_step u) (zip4 (firstn (q * per) out) (firstn (q * per) lhs) (firstn (q * per) rhs) (firstn (q * per) rhs))).
  assert (LP : length P = (q * per)%nat) by (unfold P; rewrite map_length, zip4_length; rewrite !firstn_length; lia).
  assert (La : forall A (l : list A), length l = n -> length (load_at (q * per) per l) = per) by (intros; apply load_at_length; lia).
  rewrite !flat_load. assert (Eo : load_at (q * per) per (P ++ skipn (q * per) out) = load_at (q * per) per out).
  { unfold load_at. rewrite skipn_app, LP, Nat.sub_diag, skipn_all2 by lia. reflexivity. }
  rewrite Eo. pose proof (Hb u _ _ _ (La _ _ Ho) (La _ _ Hl) (La _ _ Hr)) as E. unfold fmadd_block in E. cbv zeta. rewrite E.
  rewrite flat_app at 1. replace (2 * (q * per))%nat with (length (flat P)) by (rewrite flat_length, LP; reflexivity).
  rewrite store_at_app. rewrite flat_length, map_length, zip4_length, (La _ _ Ho) by (rewrite ?(La _ _ Ho), ?(La _ _ Hl), ?(La _ _ Hr); reflexivity).
  rewrite flat_skipn, <- !flat_app. f_equal. replace (S q * per)%nat with (q * per + per)%nat by lia. rewrite !firstn_load.
  rewrite zip4_app by (rewrite !firstn_length; lia). rewrite map_app, <- app_assoc. fold P. rewrite skipn_skipn'. reflexivity.
Qed.
Lemma fmadd_loop_all per imm n u out lhs rhs : (0 < per)%nat -> block_good per imm -> (n mod per = 0)%nat ->
  length out = n -> length lhs = n -> length rhs = n ->
  pair_up (fmadd_loop per imm n (flat out) (flat lhs) (flat rhs) u) = map (fma_step u) (zip4 out lhs rhs rhs).
Proof.
  intros Hp Hb Hm Ho Hl Hr. pose proof (div_mul_exact n per ltac:(lia) Hm) as E. rewrite fmadd_loop_ok by (assumption || lia). cbv zeta. rewrite pair_up_flat, E.
  rewrite skipn_all2, app_nil_r by lia. rewrite !firstn_all2 by lia. reflexivity.
Qed.
Lemma scalar_all n u out lhs rhs : length out = n -> length lhs = n -> length rhs = n ->
  update_with_fmadd_scalar out lhs rhs u = map (scalar_step u) (zip4 out lhs rhs rhs).
Proof.
  intros Ho Hl Hr. unfold update_with_fmadd_scalar. destruct u.
  - rewrite overwrite_all.
    + revert lhs rhs n Ho Hl Hr. induction out as [|o out IH]; intros [|a lhs] [|b rhs] n Ho Hl Hr; try (cbn in *; congruence).
      cbn [map2 zip4 map scalar_step]. f_equal. apply (IH lhs rhs (length out)); cbn in *; congruence.
    + revert lhs rhs n Ho Hl Hr. induction out as [|o out IH]; intros [|a lhs] [|b rhs] n Ho Hl Hr; try (cbn in *; congruence).
      cbn [map2 length]. f_equal. apply (IH lhs rhs (length out)); cbn in *; congruence.
  - revert lhs rhs n Ho Hl Hr. induction out as [|o out IH]; intros [|a lhs] [|b rhs] n Ho Hl Hr; try (cbn in *; congruence).
    cbn [map2 zip4 map scalar_step zip_update]. f_equal. apply (IH lhs rhs (length out)); cbn in *; congruence.
Qed.

(** ** Errors *)
(** [r] is [a * b] up to four units of the last place of the sums of the absolute values of the terms. *)
Definition mul_close (r a b : Q * Q) : Prop :=
  approximates (fst r) (product_re (fst a) (snd a) (fst b) (snd b)) (magnitude (fst a) (fst b) (snd a) (snd b)) /\
  approximates (snd r) (product_im (fst a) (snd a) (fst b) (snd b)) (magnitude (fst a) (snd b) (snd a) (fst b)).
Definition mac_close (r o a b : Q * Q) : Prop :=
  (Qabs (fst r - (fst o + product_re (fst a) (snd a) (fst b) (snd b))) <= 6 * u53 * (Qabs (fst o) + magnitude (fst a) (fst b) (snd a) (snd b)))%Q /\
  (Qabs (snd r - (snd o + product_im (fst a) (snd a) (fst b) (snd b))) <= 6 * u53 * (Qabs (snd o) + magnitude (fst a) (snd b) (snd a) (fst b)))%Q.
Lemma cmul_close a b : mul_close (cmul a b) a b.
Proof.
  unfold mul_close, cmul, fsub, fadd, fmul, product_re, product_im. cbn [fst snd]. split.
  - apply (two_products false false true _ _ _ _ (fst b) (snd b) _ (zero_err _) (zero_err _)). reflexivity.
  - apply (two_products false false false _ _ _ _ (snd b) (fst b) _ (zero_err _) (zero_err _)). reflexivity.
Qed.
Lemma fma_mul_close o a b c : mul_close (fma_step true (o, a, b, c)) a b.
Proof.
  unfold mul_close, fma_step, fmsub, fmadd, fmul, product_re, product_im. cbn [fst snd]. split.
  - apply (two_products true false true _ _ _ _ (fst b) (snd b) _ (zero_err _) (zero_err _)). reflexivity.
  - apply (two_products true false false _ _ _ _ (snd b) (fst b) _ (zero_err _) (zero_err _)). reflexivity.
Qed.
Open Scope Q_scope.
Lemma add_close o m X s : Qabs X <= s -> Qabs (m - X) <= 4 * u53 * s -> Qabs (rnd (o + m) - (o + X)) <= 6 * u53 * (Qabs o + s).
Proof.
  intros Hs H. pose proof (rnd_err' (o + m)) as R. setoid_replace (rnd (o + m) - (o + X)) with ((rnd (o + m) - (o + m)) + (m - X)) by ring.
  eapply Qle_trans; [apply Qabs_triangle|]. assert (A : Qabs (o + m) <= Qabs o + (1 + 4 * u53) * s).
  { setoid_replace (o + m) with (o + ((m - X) + X)) by ring. eapply Qle_trans; [apply Qabs_triangle|]. pose proof (Qabs_triangle (m - X) X). lra. }
  pose proof (Qabs_nonneg o). pose proof (Qabs_nonneg X). assert (u53 * (1 + 4 * u53) <= 2 * u53) by (vm_compute; discriminate).
  pose proof u53_pos. nra.
Qed.
Lemma fma2_close o x y (b1 b2 : bool) : let t := signed b1 y + o in
  Qabs (rnd (x + signed b2 (rnd (signed b2 t))) - (o + (x + signed b1 y))) <= 6 * u53 * (Qabs o + (Qabs x + Qabs y)).
Proof.
  intros t. pose proof (rnd_err' (signed b2 t)) as R1. rewrite signed_abs in R1. set (r := rnd (signed b2 t)) in *.
  assert (E1 : Qabs (signed b2 r - t) <= u53 * Qabs t).
  { setoid_replace (signed b2 r - t) with (signed b2 (r - signed b2 t)) by (destruct b2; cbn [signed]; ring). rewrite signed_abs. exact R1. }
  set (s := x + signed b2 r). pose proof (rnd_err' s) as R2.
  setoid_replace (rnd s - (o + (x + signed b1 y))) with ((rnd s - s) + (signed b2 r - t)) by (unfold s, t; ring).
  eapply Qle_trans; [apply Qabs_triangle|]. assert (T : Qabs t <= Qabs y + Qabs o) by (unfold t; eapply Qle_trans; [apply Qabs_triangle|]; rewrite signed_abs; lra).
  assert (S : Qabs s <= Qabs x + (1 + u53) * (Qabs y + Qabs o)).
  { unfold s. eapply Qle_trans; [apply Qabs_triangle|]. setoid_replace (signed b2 r) with ((signed b2 r - t) + t) by ring. pose proof (Qabs_triangle (signed b2 r - t) t). pose proof u53_pos. nra. }
  pose proof (Qabs_nonneg x). pose proof (Qabs_nonneg y). pose proof (Qabs_nonneg o). assert (u53 * (1 + u53) <= 2 * u53) by (vm_compute; discriminate).
  pose proof u53_pos. nra.
Qed.
Lemma fma_mac_close o a b c : mac_close (fma_step false (o, a, b, c)) o a b.
Proof.
  unfold mac_close, fma_step, fmsub, fmadd, product_re, product_im, magnitude. cbn [fst snd]. split.
  - pose proof (fma2_close (fst o) (fst a * fst b) (snd a * snd b) true true) as H. cbn [signed] in H. cbv zeta in H.
    rewrite (rnd_compat (fst a * fst b - rnd (snd a * snd b - fst o)) (fst a * fst b + - rnd (- (- (snd a * snd b) + fst o)))).
    + setoid_replace (fst o + (fst a * fst b - snd a * snd b)) with (fst o + (fst a * fst b + - (snd a * snd b))) by ring. exact H.
    + rewrite (rnd_compat (snd a * snd b - fst o) (- (- (snd a * snd b) + fst o))) by ring. ring.
  - pose proof (fma2_close (snd o) (fst a * snd b) (snd a * fst b) false false) as H. cbn [signed] in H. cbv zeta in H. exact H.
Qed.
Lemma scalar_mac_close o a b c : mac_close (scalar_step false (o, a, b, c)) o a b.
Proof.
  destruct (cmul_close a b) as [H1 H2]. unfold mac_close, scalar_step, cplus, fadd. cbn [fst snd].
  split; apply add_close; try assumption; unfold product_re, product_im, magnitude.
  - unfold Qminus. eapply Qle_trans; [apply Qabs_triangle|]. rewrite Qabs_opp. apply Qle_refl.
  - apply Qabs_triangle.
Qed.
Open Scope Z_scope.

(** What the update does to every coefficient, whatever the processor offers *)
Lemma fmadd_lengths_ok p n lhs rhs : length lhs = n -> length rhs = n -> (n mod 4 = 0)%nat -> fmadd_lengths p n lhs rhs = Ret tt.
Proof. intros H1 H2 H3. unfold fmadd_lengths. rewrite H1, H2, H3, Nat.eqb_refl. destruct p; reflexivity. Qed.
Lemma update_ok p f k n u out lhs rhs : n = Nat.pow 2 k -> (3 <= k)%nat -> length out = n -> length lhs = n -> length rhs = n ->
  exists r, update_fourier p f out lhs rhs u = Ret r /\ length r = n /\ Forall is_c64 r /\
    forall i, (i < n)%nat -> if u then mul_close (nth i r (0, 0)%Q) (nth i lhs (0, 0)%Q) (nth i rhs (0, 0)%Q)
                             else mac_close (nth i r (0, 0)%Q) (nth i out (0, 0)%Q) (nth i lhs (0, 0)%Q) (nth i rhs (0, 0)%Q).
Proof.
  intros Hn Hk Ho Hl Hr. pose proof (mod4 k n Hn Hk) as M4. assert (M2 : (n mod 2 = 0)%nat) by (rewrite Hn; apply (pow2_mod k 1); lia).
  assert (G : forall g : (Q * Q) * (Q * Q) * (Q * Q) * (Q * Q) -> Q * Q, (forall x, is_c64 (g x)) ->
      (forall o a b c, if u then mul_close (g (o, a, b, c)) a b else mac_close (g (o, a, b, c)) o a b) ->
      length (map g (zip4 out lhs rhs rhs)) = n /\ Forall is_c64 (map g (zip4 out lhs rhs rhs)) /\
      forall i, (i < n)%nat -> if u then mul_close (nth i (map g (zip4 out lhs rhs rhs)) (0, 0)%Q) (nth i lhs (0, 0)%Q) (nth i rhs (0, 0)%Q)
        else mac_close (nth i (map g (zip4 out lhs rhs rhs)) (0, 0)%Q) (nth i out (0, 0)%Q) (nth i lhs (0, 0)%Q) (nth i rhs (0, 0)%Q)).
  { intros g Hg Hc. split; [rewrite map_length, zip4_length; lia|]. split; [apply map_c64, Hg|]. intros i Hi.
    rewrite (nth_map_zip4 _ _ _ _ _ (0, 0)%Q (0, 0)%Q (0, 0)%Q (0, 0)%Q) by lia. apply Hc. }
  unfold update_fourier, update_with_fmadd_avx512, update_with_fmadd_fma. rewrite Ho, !fmadd_lengths_ok by assumption. cbn [obind].
  destruct (nightly_avx512 f && has_avx512f f)%bool; [|destruct (has_fma f)].
  - rewrite fmadd_loop_all by (assumption || apply block_4_good || lia). eexists. split; [reflexivity|]. apply G.
    + intros [[[o a] b] c]. destruct u; split; apply rnd_fits.
    + intros o a b c. destruct u; [apply fma_mul_close|apply fma_mac_close].
  - rewrite fmadd_loop_all by (assumption || apply block_2_good || lia). eexists. split; [reflexivity|]. apply G.
    + intros [[[o a] b] c]. destruct u; split; apply rnd_fits.
    + intros o a b c. destruct u; [apply fma_mul_close|apply fma_mac_close].
  - rewrite (scalar_all n) by assumption. eexists. split; [reflexivity|]. apply G.
    + intros [[[o a] b] c]. destruct u; split; apply rnd_fits.
    + intros o a b c. destruct u; [apply cmul_close|apply scalar_mac_close].
Qed.
