(** * From the levels of the transforms to products of polynomials *)
From Verif Require Import Base CudaBlockModel CudaBlockProofs CudaFftModel CudaFftSpec CudaFftAlgebra CudaFftProofs.
From Coq Require Import Ring.
Local Open Scope nat_scope.

Section Facts.
Context {R : Type} (rO rI : R) (radd rmul rsub : R -> R -> R) (ropp : R -> R).
Hypothesis R_ring : ring_theory rO rI radd rmul rsub ropp (@eq R).
Add Ring RRing : R_ring.
Notation cadd := (cadd radd). Notation cmul := (cmul radd rmul rsub). Notation csub := (csub rsub). Notation copp := (copp ropp).
Notation cO := (cO rO). Notation cI := (cI rO rI). Notation conj := (conj ropp).
Notation C := (@C R).
Notation rsum := (rsum rO radd). Notation times := (times radd rmul ropp). Notation neg := (neg ropp).
Notation mem := (mem addr (val R)).

Lemma times_cmul (x y : C) : times x y = cmul x y.
Proof. unfold CudaFftSpec.times, CudaFftProofs.cmul. f_equal; ring. Qed.
Lemma table_squares H w : twiddle_table rO rI radd rmul ropp H w -> forall k, 1 <= k < H -> cmul (w k) (w k) = r copp w (rO, rI) k.
Proof.
  intros (T1 & T2 & T3 & _) k Hk. rewrite <- times_cmul. destruct (Nat.eq_dec k 1) as [->|H1]; [exact T1|]. destruct (Nat.Even_or_Odd k) as [[j ->]|[j ->]].
  - assert (Hj : 1 <= j) by lia. rewrite r_even by exact Hj. apply T2; lia.
  - assert (Hj : 1 <= j) by lia. rewrite r_odd by exact Hj. apply T3; lia.
Qed.
Lemma table_inverse H w : twiddle_table rO rI radd rmul ropp H w -> forall k, 1 <= k < H -> cmul (w k) (conj (w k)) = cI.
Proof. intros (_ & _ & _ & T4) k Hk. specialize (T4 k Hk). unfold CudaFftProofs.cmul, CudaFftProofs.conj, CudaFftProofs.cI. cbn [fst snd]. f_equal; [rewrite <- T4; ring|ring]. Qed.
Lemma rsum_ext n f g : (forall i, i < n -> f i = g i) -> rsum n f = rsum n g.
Proof. induction n as [|n IH]; intros E; [reflexivity|]. cbn. rewrite IH, E by (intros; try apply E; lia). reflexivity. Qed.
Lemma rsum_app n m f : rsum (n + m) f = radd (rsum n f) (rsum m (fun i => f (n + i))).
Proof. induction m as [|m IH]; [rewrite Nat.add_0_r; cbn; ring|]. rewrite Nat.add_succ_r. cbn. rewrite IH. ring. Qed.
Lemma rsum_add n f g : rsum n (fun i => radd (f i) (g i)) = radd (rsum n f) (rsum n g).
Proof. induction n as [|n IH]; cbn; [ring|]. rewrite IH. ring. Qed.
Lemma csum_parts n (f : nat -> C) : csum cO cadd n f = (rsum n (fun i => fst (f i)), rsum n (fun i => snd (f i))).
Proof. induction n as [|n IH]; [reflexivity|]. cbn. rewrite IH. reflexivity. Qed.
Lemma ite_fst (b : bool) (x y : C) : fst (if b then x else y) = if b then fst x else fst y.
Proof. destruct b; reflexivity. Qed.
Lemma ite_snd (b : bool) (x y : C) : snd (if b then x else y) = if b then snd x else snd y.
Proof. destruct b; reflexivity. Qed.

(** Products modulo X^H - i of complex polynomials are products modulo X^2H + 1 of real ones *)
Lemma packed_product H a b e : e < H -> conv cO cadd cmul (rO, rI) H (packed H a) (packed H b) e = packed H (nega_coeff rO radd rmul ropp (2 * H) a b) e.
Proof.
  intros He. unfold conv. rewrite csum_parts. change (packed H (nega_coeff rO radd rmul ropp (2 * H) a b) e) with (nega_coeff rO radd rmul ropp (2 * H) a b e, nega_coeff rO radd rmul ropp (2 * H) a b (e + H)). unfold nega_coeff. replace (2 * H) with (H + H) by lia. f_equal; rewrite rsum_app, <- rsum_add; apply rsum_ext; intros x Hx.
  - rewrite ite_fst. destruct (Nat.leb_spec (H + x) e); [lia|]. destruct (Nat.leb_spec x e).
    + unfold packed, CudaFftProofs.cmul. cbn [fst snd]. replace (e + (H + H) - (H + x)) with (e - x + H) by lia. rewrite (Nat.add_comm x H). ring.
    + unfold packed, CudaFftProofs.cmul. cbn [fst snd]. replace (e + (H + H) - (H + x)) with (e + H - x) by lia. replace (e + (H + H) - x) with (e + H - x + H) by lia. rewrite (Nat.add_comm x H). ring.
  - rewrite ite_snd. destruct (Nat.leb_spec x (e + H)); [|lia]. destruct (Nat.leb_spec x e); destruct (Nat.leb_spec (H + x) (e + H)); try lia.
    + unfold packed, CudaFftProofs.cmul. cbn [fst snd]. replace (e + H - (H + x)) with (e - x) by lia. replace (e + H - x) with (e - x + H) by lia. rewrite (Nat.add_comm x H). ring.
    + unfold packed, CudaFftProofs.cmul. cbn [fst snd]. replace (e + H + (H + H) - (H + x)) with (e + H - x + H) by lia. rewrite (Nat.add_comm x H). ring.
Qed.
Lemma polyval_ev n A x : polyval rO rI radd rmul ropp n A x = ev cO cI cadd cmul n A x.
Proof.
  assert (E : forall k, power rO rI radd rmul ropp x k = cpow cI cmul x k).
  { induction k as [|k IH]; [reflexivity|]. cbn [power cpow]. rewrite times_cmul, IH. reflexivity. }
  unfold ev. induction n as [|n IH]; [reflexivity|]. cbn [polyval csum]. rewrite IH, times_cmul, E. reflexivity.
Qed.
Lemma copies_nat H h : copies rO radd H h = rI -> cmul (h, rO) (nat_in cO cI cadd H) = cI.
Proof.
  intros E. assert (G : forall k, cmul (h, rO) (nat_in cO cI cadd k) = (copies rO radd k h, rO)).
  { induction k as [|k IH].
    - unfold CudaFftProofs.cmul. cbn. f_equal; ring.
    - cbn [nat_in copies]. transitivity (cadd (cmul (h, rO) (nat_in cO cI cadd k)) (cmul (h, rO) cI)).
      + unfold CudaFftProofs.cmul, CudaFftProofs.cadd. cbn [fst snd]. f_equal; ring.
      + rewrite IH. unfold CudaFftProofs.cmul, CudaFftProofs.cadd, CudaFftProofs.cI. cbn [fst snd]. f_equal; ring. }
  rewrite G, E. reflexivity.
Qed.
(** The points at which the direct transform evaluates *)
Definition point (H : nat) (w : nat -> C) (i : nat) : C := if Nat.even i then w ((H + i) / 2) else neg (w ((H + i) / 2)).
Lemma point_r n w i : 1 <= n -> point (2 ^ n) w i = r copp w (rO, rI) (2 ^ n + i).
Proof.
  intros Hn. assert (E : exists k, 2 ^ n = 2 * k /\ 1 <= k). { exists (2 ^ (n - 1)). split; [rewrite <- Nat.pow_succ_r'; f_equal; lia|]. pose proof (Nat.pow_nonzero 2 (n - 1)). lia. }
  destruct E as (k & E & Hk). rewrite E. unfold point. destruct (Nat.Even_or_Odd i) as [[j ->]|[j ->]].
  - rewrite Nat.even_mul. cbn [Nat.even orb]. replace (2 * k + 2 * j) with (2 * (k + j)) by lia. rewrite r_even by lia. f_equal. rewrite Nat.mul_comm. apply Nat.div_mul. lia.
  - replace (Nat.even (2 * j + 1)) with false by (rewrite Nat.even_add, Nat.even_mul; reflexivity). replace (2 * k + (2 * j + 1)) with (2 * (k + j) + 1) by lia. rewrite r_odd by lia.
    replace ((2 * (k + j) + 1) / 2) with (k + j); [reflexivity|]. apply Nat.div_unique with 1; lia.
Qed.

(** ** Launches *)
Section Launch.
Context (ok : addr -> bool) (H T n opt : nat) (w : nat -> C) (q h : R).
Hypothesis (HT : 0 < T) (Hn : H = 2 ^ n) (Hn1 : 1 <= n) (Hopt : opt * T = H) (Heven : Nat.even opt = true)
  (Htab : twiddle_table rO rI radd rmul ropp H w) (Hq : w 1 = (q, q)) (Hh : copies rO radd H h = rI) (Hloc : forall t r, ok (Loc t r) = true).
Definition allocated (buf off : nat) : Prop := forall i im, i < H -> ok (Dbl buf (off + i) im) = true.
(** Nothing else changes, but the variables of the threads *)
Definition only (buf off : nat) (m m' : mem) : Prop := forall c, is_local c = false -> (forall i im, i < H -> c <> Dbl buf (off + i) im) -> m' c = m c.
Lemma changed_only_only buf off m m' : changed_only buf off H m m' -> only buf off m m'.
Proof.
  intros Hc c Hl Hi. apply Hc; [exact Hl|]. destruct c as [b i|b i im|t u]; try reflexivity. cbn [item_of]. destruct (in_buffer buf off H b i) eqn:E; [|reflexivity]. exfalso.
  destruct (in_buffer_inv buf off H b i E) as [-> (k & Hk & -> & _)]. exact (Hi k im Hk eq_refl).
Qed.
Notation view := (view rO).
Lemma only_view buf off b o m m' : only buf off m m' -> b <> buf -> forall i, view b o m' i = view b o m i.
Proof. intros Ho Hb i. unfold CudaFftProofs.view. rewrite !Ho; try reflexivity; intros j im _; unfold X, Y; intros E; injection E; intros; apply Hb; assumption. Qed.
Lemma direct_launch buf off choices m : allocated buf off ->
  exists m', launch addr_eqb ok T (NSMFFT_direct rO radd rmul rsub w q buf off H opt) choices m = Ret m' /\ only buf off m m' /\
    forall i, i < H -> view buf off m' i = dir cadd cmul csub w n n (view buf off m) i.
Proof.
  intros Ha. destruct (direct_ok rO rI radd rmul rsub ropp R_ring buf off ok H T HT Ha Hloc w q n opt Hn Hn1 Hopt Heven Hq) as [D M].
  destruct (launch_ok addr_eqb ok addr_eqb_eq T _ choices m HT D) as (m' & E & Hm). destruct (M m) as [C1 H1]. rewrite (erase_direct rO radd rmul rsub buf off ok H T HT Ha Hloc w q n opt Hn Hn1 Hopt Heven) in E.
  exists m'. split; [exact E|]. split.
  - apply changed_only_only. intros c Hl Hc. rewrite Hm. apply C1; assumption.
  - intros i Hi. destruct (H1 i Hi) as [F1 F2]. unfold CudaFftProofs.view at 1. rewrite !Hm, F1, F2. cbn [db]. symmetry. apply surjective_pairing.
Qed.
Lemma inverse_launch buf off choices m : allocated buf off ->
  exists m', launch addr_eqb ok T (NSMFFT_inverse rO radd rmul rsub w h buf off H opt) choices m = Ret m' /\ only buf off m m' /\
    forall i, i < H -> view buf off m' i = inv cadd cmul csub (fun k => conj (w k)) n n (fun i => cmul (h, rO) (view buf off m i)) i.
Proof.
  intros Ha. destruct (inverse_ok rO rI radd rmul rsub ropp R_ring buf off ok H T HT Ha Hloc w h n opt Hn Hn1 Hopt Heven) as [D M].
  destruct (launch_ok addr_eqb ok addr_eqb_eq T _ choices m HT D) as (m' & E & Hm). destruct (M m) as [C1 H1]. rewrite (erase_inverse rO radd rmul rsub buf off H T w h n opt Hn Hopt Heven) in E.
  exists m'. split; [exact E|]. split.
  - apply changed_only_only. intros c Hl Hc. rewrite Hm. apply C1; assumption.
  - intros i Hi. destruct (H1 i Hi) as [F1 F2]. unfold CudaFftProofs.view at 1. rewrite !Hm, F1, F2. cbn [db]. symmetry. apply surjective_pairing.
Qed.
Lemma full_threads : (2 * H) / (2 * opt) = T /\ 2 * opt / 2 = opt.
Proof.
  assert (Ho : opt <> 0) by (intros ->; cbn in Hopt; pose proof (Nat.pow_nonzero 2 n); lia).
  split; [|rewrite Nat.mul_comm; apply Nat.div_mul; lia]. rewrite <- Hopt. replace (2 * (opt * T)) with (T * (2 * opt)) by lia. apply Nat.div_mul. lia.
Qed.

(** A part without barriers that writes element by element *)
Ltac look1 := match goal with x := exec1 _ ?m0 (GOp ?rs ?d ?f) |- context [?y ?c] => constr_eq x y;
    change (x c) with (if addr_eqb c d then f (map m0 rs) else m0 c); unfold X, Y; cbn [addr_eqb]; rewrite ?Nat.eqb_refl, ?andb_false_r; cbn [andb Bool.eqb map nth]; unfold arg; cbn [nth CudaFftModel.db] end.
Ltac steps := repeat (rewrite solo_cons; match goal with |- context [CudaBlockProofs.solo _ _ (exec1 _ ?m ?o)] => let x := fresh "m" in set (x := exec1 addr_eqb m o) end).
Lemma other_free rb ro b o i im : allocated b o -> i < H -> b <> rb -> free rb ro ok H (Dbl b (o + i) im).
Proof.
  intros Ha Hi Hb. split; [apply Ha, Hi|]. split; [reflexivity|]. intros f. cbn [item_of]. destruct (in_buffer rb ro H b (o + i)) eqn:E; [|reflexivity]. destruct (in_buffer_inv _ _ _ _ _ E) as [Eb _]. contradiction.
Qed.
Definition product_code (rb ro fb fo sb so t tid : nat) : list (gop addr (val R)) :=
    [load rO t 0 (X fb fo tid); load rO t 1 (Y fb fo tid); load rO t 2 (X sb so tid); load rO t 3 (Y sb so tid);
     GOp [Loc t 0; Loc t 1; Loc t 2; Loc t 3] (Loc t 4) (fun v => Db (rsub (rmul (arg rO v 0) (arg rO v 2)) (rmul (arg rO v 1) (arg rO v 3))));
     GOp [Loc t 0; Loc t 1; Loc t 2; Loc t 3] (Loc t 5) (fun v => Db (radd (rmul (arg rO v 0) (arg rO v 3)) (rmul (arg rO v 1) (arg rO v 2))));
     load rO t 6 (X rb ro tid); store2 rO t (X rb ro tid) 6 4 radd;
     load rO t 6 (Y rb ro tid); store2 rO t (Y rb ro tid) 6 5 radd].
Ltac touch1 := cbn [touches load store2 comp2]; split;
  [first [left; eexists; reflexivity | right; cbn [In]; tauto]
  | repeat (apply Forall_cons; [first [left; eexists; reflexivity | right; left; cbn [In]; tauto | right; right; apply other_free; assumption]|]); apply Forall_nil].
Ltac touch := repeat (apply Forall_cons; [touch1|]); apply Forall_nil.
Lemma product_touches rb ro fb fo sb so t j : allocated fb fo -> allocated sb so -> fb <> rb -> sb <> rb -> j < H -> Forall (touches rb ro ok H [X rb ro j; Y rb ro j] t) (product_code rb ro fb fo sb so t j).
Proof. intros. unfold product_code. touch. Qed.
Lemma product_effect rb ro fb fo sb so t j m : fb <> rb -> sb <> rb ->
  let v := cadd (view rb ro m j) (cmul (view fb fo m j) (view sb so m j)) in
  solo addr_eqb (product_code rb ro fb fo sb so t j) m (X rb ro j) = Db (fst v) /\ solo addr_eqb (product_code rb ro fb fo sb so t j) m (Y rb ro j) = Db (snd v).
Proof.
  intros H1 H2. apply Nat.eqb_neq in H1, H2. cbv zeta. unfold product_code, CudaFftProofs.view, CudaFftProofs.cmul, CudaFftProofs.cadd, load, store2. cbn [fst snd]. steps. change (CudaBlockProofs.solo addr_eqb [] ?x) with x.
  split; repeat look1; reflexivity.
Qed.
Lemma item_none_other rb ro b o i im : b <> rb -> forall f, item_of rb ro H f (Dbl b (o + i) im) = None.
Proof. intros Hb f. cbn [item_of]. destruct (in_buffer rb ro H b (o + i)) eqn:E; [|reflexivity]. destruct (in_buffer_inv _ _ _ _ _ E) as [Eb _]. contradiction. Qed.
Lemma view_dep b o (m m' : mem) j : m (X b o j) = m' (X b o j) -> m (Y b o j) = m' (Y b o j) -> view b o m j = view b o m' j.
Proof. intros E1 E2. unfold CudaFftProofs.view. rewrite E1, E2. reflexivity. Qed.
Lemma view_dep_other rb ro b o (m m' : mem) j : b <> rb -> (forall c, is_local c = false -> (forall f, item_of rb ro H f c = None) -> m c = m' c) -> view b o m j = view b o m' j.
Proof. intros Hb E. apply view_dep; apply E; try reflexivity; apply item_none_other, Hb. Qed.
Lemma product_launch rb ro fb fo sb so choices m : allocated rb ro -> allocated fb fo -> allocated sb so -> fb <> rb -> sb <> rb ->
  exists m', launch addr_eqb ok T [product_accumulate rO radd rmul rsub (2 * H) (2 * opt) rb ro fb fo sb so] choices m = Ret m' /\ only rb ro m m' /\
    forall i, i < H -> view rb ro m' i = cadd (view rb ro m i) (cmul (view fb fo m i) (view sb so m i)).
Proof.
  intros Ha Hf Hs N1 N2. destruct full_threads as [E1 E2].
  assert (Ht : forall t j, j < H -> Forall (touches rb ro ok H [X rb ro j; Y rb ro j] t) (product_code rb ro fb fo sb so t j)) by (intros; apply product_touches; assumption).
  destruct (launch_ok addr_eqb ok addr_eqb_eq T [APar (own_by rb ro H T (fun i => i)) (strided T opt (product_code rb ro fb fo sb so))] choices m HT) as (m' & E & Hm).
  { cbn [disciplined]. split; [exact I|]. split; [|exact I]. apply (pointwise_respects rb ro ok H T HT Ha Hloc opt _ Hopt Ht). }
  assert (G : forall c, is_local c = false -> m' c = match c with Dbl b i im => if in_buffer rb ro H b i then Db (part im (cadd (view rb ro m (i - ro)) (cmul (view fb fo m (i - ro)) (view sb so m (i - ro))))) else m c | _ => m c end).
  { intros c Hl. rewrite Hm. unfold meaning. cbn [fold_left].
    apply (pointwise_meaning rb ro ok H T HT Ha Hloc opt _ Hopt Ht (fun j m => cadd (view rb ro m j) (cmul (view fb fo m j) (view sb so m j)))); [|clear m m' E Hm c Hl|exact Hl].
    - intros t j x Hj. apply product_effect; assumption.
    - intros j m m' Hj F1 F2 F3. rewrite (view_dep rb ro m m' j F1 F2), (view_dep_other rb ro fb fo m m' j N1 F3), (view_dep_other rb ro sb so m m' j N2 F3). reflexivity. }
  exists m'. split; [unfold product_accumulate; rewrite E1, E2; exact E|]. split.
  - apply changed_only_only. intros c Hl Hi. rewrite G by exact Hl. destruct c as [b i|b i im|t u]; try reflexivity. cbn [item_of] in Hi. destruct (in_buffer rb ro H b i); [discriminate|reflexivity].
  - intros i Hi. unfold CudaFftProofs.view at 1. rewrite !G by reflexivity. unfold X, Y. rewrite in_buffer_cell by exact Hi. replace (ro + i - ro) with i by lia. symmetry. apply surjective_pairing.
Qed.

(** batch_NSMFFT *)
Definition copy_code (rb ro sb so t tid : nat) : list (gop addr (val R)) :=
    [load rO t 0 (X sb so tid); load rO t 1 (Y sb so tid);
     store2 rO t (X rb ro tid) 0 0 (fun x _ => x); store2 rO t (Y rb ro tid) 1 1 (fun y _ => y)].
Lemma copy_touches rb ro sb so t j : allocated sb so -> sb <> rb -> j < H -> Forall (touches rb ro ok H [X rb ro j; Y rb ro j] t) (copy_code rb ro sb so t j).
Proof. intros. unfold copy_code. touch. Qed.
Lemma copy_effect rb ro sb so t j m : sb <> rb ->
  solo addr_eqb (copy_code rb ro sb so t j) m (X rb ro j) = Db (fst (view sb so m j)) /\ solo addr_eqb (copy_code rb ro sb so t j) m (Y rb ro j) = Db (snd (view sb so m j)).
Proof.
  intros H2. apply Nat.eqb_neq in H2. unfold copy_code, CudaFftProofs.view, load, store2. cbn [fst snd]. steps. change (CudaBlockProofs.solo addr_eqb [] ?x) with x.
  split; repeat look1; reflexivity.
Qed.
Lemma copy_ok rb ro sb so : allocated rb ro -> allocated sb so -> sb <> rb ->
  respects ok (own_by rb ro H T (fun i => i)) T (strided T opt (copy_code rb ro sb so)) /\
  forall m, changed_only rb ro H m (par addr_eqb T (own_by rb ro H T (fun i => i)) (strided T opt (copy_code rb ro sb so)) m) /\
    holds rb ro H (par addr_eqb T (own_by rb ro H T (fun i => i)) (strided T opt (copy_code rb ro sb so)) m) (view sb so m).
Proof.
  intros Ha Hs N. assert (Ht : forall t j, j < H -> Forall (touches rb ro ok H [X rb ro j; Y rb ro j] t) (copy_code rb ro sb so t j)) by (intros; apply copy_touches; assumption).
  split; [apply (pointwise_respects rb ro ok H T HT Ha Hloc opt _ Hopt Ht)|]. intros m.
  assert (G : forall c, is_local c = false -> par addr_eqb T (own_by rb ro H T (fun i => i)) (strided T opt (copy_code rb ro sb so)) m c =
     match c with Dbl b i im => if in_buffer rb ro H b i then Db (part im (view sb so m (i - ro))) else m c | _ => m c end).
  { intros c Hl. apply (pointwise_meaning rb ro ok H T HT Ha Hloc opt _ Hopt Ht (fun j m => view sb so m j)); [| |exact Hl].
    - intros t j x Hj. apply copy_effect; assumption.
    - intros j x x' Hj _ _ F3. apply (view_dep_other rb ro sb so x x' j N F3). }
  split.
  - intros c Hl Hi. rewrite G by exact Hl. destruct c as [b i|b i im|t u]; try reflexivity. cbn [item_of] in Hi. destruct (in_buffer rb ro H b i); [discriminate|reflexivity].
  - intros i Hi. rewrite !G by reflexivity. unfold X, Y. rewrite in_buffer_cell by exact Hi. replace (ro + i - ro) with i by lia. split; reflexivity.
Qed.
Lemma half : 2 * H / 2 = H. Proof. rewrite Nat.mul_comm. apply Nat.div_mul. lia. Qed.
Lemma disciplined_bar cur k l : disciplined (V := val R) ok T cur k -> disciplined ok T None l -> disciplined ok T cur (k ++ ABar :: l).
Proof. revert cur. induction k as [|[|own f] k IH]; intros cur D L; [exact L| |]; cbn [app disciplined] in D |- *; [apply IH; assumption|]. destruct D as (D1 & D2 & D3). auto. Qed.
Lemma batch_launch block ib fb fo ob choices m : allocated ib (block * H) -> allocated fb fo -> allocated ob (block * H) -> ib <> fb -> fb <> ob -> ib <> ob ->
  exists m', launch addr_eqb ok T (batch_NSMFFT rO radd rmul rsub w q (2 * H) (2 * opt) block ib fb fo ob) choices m = Ret m' /\
    (forall i, i < H -> view ob (block * H) m' i = dir cadd cmul csub w n n (view ib (block * H) m) i) /\
    forall c, is_local c = false -> (forall i im, i < H -> c <> Dbl ob (block * H + i) im) -> (forall i im, i < H -> c <> Dbl fb (fo + i) im) -> m' c = m c.
Proof.
  intros Hi Hf Ho N1 N2 N3. destruct full_threads as [E1 E2].
  destruct (direct_ok rO rI radd rmul rsub ropp R_ring fb fo ok H T HT Hf Hloc w q n opt Hn Hn1 Hopt Heven Hq) as [D M].
  destruct (copy_ok fb fo ib (block * H) Hf Hi N1) as [D1 M1]. destruct (copy_ok ob (block * H) fb fo Ho Hf N2) as [D2 M2].
  set (k := APar (own_by fb fo H T (fun i => i)) (strided T opt (copy_code fb fo ib (block * H))) :: ABar :: a_direct rO radd rmul rsub fb fo H T w q n opt ++ ABar :: [APar (own_by ob (block * H) H T (fun i => i)) (strided T opt (copy_code ob (block * H) fb fo))]).
  destruct (launch_ok addr_eqb ok addr_eqb_eq T k choices m HT) as (m' & E & Hm).
  { unfold k. cbn [disciplined]. split; [exact I|]. split; [exact D1|]. apply disciplined_bar; [exact D|]. cbn [disciplined]. auto. }
  assert (Ek : map erase k = batch_NSMFFT rO radd rmul rsub w q (2 * H) (2 * opt) block ib fb fo ob).
  { unfold k, batch_NSMFFT, copy. rewrite E1, E2, half. cbn [map erase]. rewrite map_app, (erase_direct rO radd rmul rsub fb fo ok H T HT Hf Hloc w q n opt Hn Hn1 Hopt Heven). reflexivity. }
  rewrite Ek in E. exists m'. split; [exact E|].
  unfold k, meaning in Hm. cbn [fold_left] in Hm.
  set (m1 := par addr_eqb T (own_by fb fo H T (fun i => i)) (strided T opt (copy_code fb fo ib (block * H))) m) in *. destruct (M1 m) as [C1 F1]. fold m1 in C1, F1. clearbody m1.
  rewrite fold_left_app in Hm. cbn [fold_left] in Hm. fold (meaning addr_eqb T (a_direct rO radd rmul rsub fb fo H T w q n opt) m1) in Hm.
  destruct (M m1) as [C2 F2]. set (m2 := meaning addr_eqb T (a_direct rO radd rmul rsub fb fo H T w q n opt) m1) in *. clearbody m2.
  destruct (M2 m2) as [C3 F3]. set (m3 := par addr_eqb T _ _ m2) in *. clearbody m3. split.
  - intros i Hlt. destruct (F3 i Hlt) as [G1 G2]. unfold CudaFftProofs.view at 1. rewrite !Hm, G1, G2. cbn [db]. rewrite <- surjective_pairing, (holds_view rO fb fo H m2 _ i F2 Hlt).
    apply (dir_local cadd cmul csub w w H n Hn n (le_n n)); [|exact Hlt]. intros j Hj. apply (holds_view rO fb fo H m1 _ j F1 Hj).
  - intros c Hl Hc1 Hc2. rewrite Hm. rewrite (changed_only_only _ _ _ _ C3 c Hl Hc1), (changed_only_only _ _ _ _ C2 c Hl Hc2). apply (changed_only_only _ _ _ _ C1 c Hl Hc2).
Qed.

(** ** The product of two polynomials *)
Lemma direct_points A i : i < H -> dir cadd cmul csub w n n A i = polyval rO rI radd rmul ropp H A (point H w i).
Proof.
  intros Hi. rewrite (dir_ev cO cI cadd cmul csub copp (c_ring rO rI radd rmul rsub ropp R_ring) w (fun k => conj (w k)) (rO, rI) H (table_squares H w Htab) (table_inverse H w Htab) n Hn A i Hi).
  rewrite polyval_ev. f_equal. rewrite Hn at 2. rewrite point_r by exact Hn1. rewrite <- Hn. reflexivity.
Qed.
Lemma point_power i : i < H -> power rO rI radd rmul ropp (point H w i) H = (rO, rI).
Proof.
  intros Hi. assert (E : forall x k, power rO rI radd rmul ropp x k = cpow cI cmul x k).
  { intros x. induction k as [|k IH]; [reflexivity|]. cbn [power cpow]. rewrite times_cmul, IH. reflexivity. }
  rewrite E. rewrite Hn at 1. rewrite point_r by exact Hn1. rewrite Hn at 1.
  apply (r_pow cO cI cadd cmul csub copp (c_ring rO rI radd rmul rsub ropp R_ring) w (fun k => conj (w k)) (rO, rI) H (table_squares H w Htab) (table_inverse H w Htab) n Hn n (le_n n)). rewrite <- Hn. clear - Hi. lia.
Qed.
Lemma product_value A B P i : (forall i, i < H -> P i = cmul (dir cadd cmul csub w n n A i) (dir cadd cmul csub w n n B i)) -> i < H ->
  inv cadd cmul csub (fun k => conj (w k)) n n (fun i => cmul (h, rO) (P i)) i = conv cO cadd cmul (rO, rI) H A B i.
Proof.
  intros HP Hi. exact (transforms_multiply cO cI cadd cmul csub copp (c_ring rO rI radd rmul rsub ropp R_ring) w (fun k => conj (w k)) (rO, rI) H (table_squares H w Htab) (table_inverse H w Htab) n Hn (h, rO) A B P i (copies_nat H h Hh) HP Hi).
Qed.
Lemma conv_ext A A' B B' i : (forall j, j < H -> A j = A' j) -> (forall j, j < H -> B j = B' j) -> i < H -> conv cO cadd cmul (rO, rI) H A B i = conv cO cadd cmul (rO, rI) H A' B' i.
Proof.
  intros EA EB Hi. unfold conv. apply csum_ext. intros x Hx. rewrite EA by exact Hx. destruct (Nat.leb_spec x i); rewrite EB by lia; reflexivity.
Qed.
End Launch.
End Facts.
