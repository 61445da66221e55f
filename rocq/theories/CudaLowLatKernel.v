(** * The low latency bootstrap with one level of decomposition, under every interleaving of the blocks and of their threads *)
From Verif Require Import Base Word CudaKsModel CudaBlockModel CudaBlockProofs CudaFftModel CudaFftAlgebra CudaFftProofs CudaFftFacts CudaHoare CudaPbsModel CudaPbsPhases CudaPbsKernel
  CudaGridModel CudaGridProofs CudaLowLatModel CudaLowLatPhases.
From Coq Require Import Ring Permutation.
Local Open Scope nat_scope.

(** ** From the blocks to the grid *)
Section Parts.
Context {R : Type} (ok : addr -> bool) (G T : nat).
Notation val := (val R).
Notation mem := (mem addr val).
Notation seg := (seg addr val).
Notation gop := (gop addr val).
Notation bview := (block_view (V := val) in_global).
Notation fits := (fits (V := val) in_global).
Lemma each_choice {B} (d : B) (P : nat -> B -> Prop) n : (forall i, i < n -> exists x, P i x) -> exists f, forall i, i < n -> P i (f i).
Proof.
  induction n as [|n IH]; intros H; [exists (fun _ => d); intros i Hi; lia|]. destruct IH as [f Hf]; [intros i Hi; apply H; lia|]. destruct (H n) as [x Hx]; [lia|].
  exists (fun i => if i =? n then x else f i). intros i Hi. destruct (Nat.eqb_spec i n) as [->|]; [exact Hx|apply Hf; lia].
Qed.
(** A fact about the cells of block [i]: its own memory and the global cells it owns *)
Definition about (gown : gowners (A := addr)) (i : nat) (Q : mem -> Prop) : Prop :=
  forall m m' : mem, (forall c, is_local c = false -> in_global c = false \/ gown c = Some i -> m' c = m c) -> Q m -> Q m'.
Lemma gpart_triple (p : nat -> list seg) gown bs (P Q : nat -> mem -> Prop) (I J : (nat -> mem) -> mem -> Prop) :
  (forall i, i < G -> exists nxt, triple ok T None (p i) nxt bs (P i) (Q i)) ->
  (forall i t, i < G -> t < T -> Forall (fits gown i) (thread_code (p i) t)) ->
  (forall i, i < G -> about gown i (Q i)) ->
  (forall pm gm i, I pm gm -> i < G -> P i (bview pm gm i)) ->
  (forall pm gm pm' gm', I pm gm -> (forall i, i < G -> Q i (bview pm' gm' i)) ->
     (forall i c, i < G -> is_local c = false -> in_global c = false -> ~ In (buf_of c) bs -> pm' i c = pm i c) ->
     (forall c, in_global c = true -> (forall i, i < G -> gown c <> Some i) -> gm' c = gm c) -> J pm' gm') ->
  gpart addr_eqb ok in_global G T p I J.
Proof.
  intros Ht Hf Ha Hp Hj pm gm Hi.
  destruct (each_choice [] (fun i a => map erase a = p i /\ disciplined ok T None a /\ forall m, keeps bs m (meaning addr_eqb T a m) /\ (P i m -> Q i (meaning addr_eqb T a m))) G) as [a Ea].
  { intros i Hig. destruct (Ht i Hig) as (nxt & a & E & D & M). exists a. split; [exact E|]. split; [|exact M]. rewrite <- (app_nil_r a). apply D. destruct nxt; exact Logic.I. }
  exists gown, a. split.
  - intros i Hig. destruct (Ea i Hig) as (E & D & _). split; [exact E|]. split; [exact D|]. intros t Htt. apply Hf; assumption.
  - intros pm' gm' (J1 & J2 & J3). apply (Hj pm gm pm' gm' Hi).
    + intros i Hig. destruct (Ea i Hig) as (_ & _ & M). destruct (M (bview pm gm i)) as [_ MQ]. apply (Ha i Hig (meaning addr_eqb T (a i) (bview pm gm i))); [|apply MQ, Hp; assumption].
      intros c _ [Hc|Hc].
      * unfold block_view at 1. rewrite Hc. apply J1; assumption.
      * unfold block_view at 1. destruct (in_global c) eqn:Eg; [apply J2; assumption|apply J1; assumption].
    + intros i c Hig Hl Hg Hb. rewrite (J1 i c Hig Hg). destruct (Ea i Hig) as (_ & _ & M). destruct (M (bview pm gm i)) as [K _]. rewrite (K c Hl Hb). unfold block_view. rewrite Hg. reflexivity.
    + exact J3.
Qed.

(** ** Accesses *)
Definition allows (P : gop -> Prop) (k : list seg) : Prop := forall t, t < T -> Forall P (thread_code k t).
Lemma allows_app (P : gop -> Prop) a b : allows P a -> allows P b -> allows P (a ++ b).
Proof. intros H1 H2 t Ht. unfold thread_code. rewrite flat_map_app. apply Forall_app. split; [apply H1, Ht|apply H2, Ht]. Qed.
Lemma allows_nil (P : gop -> Prop) : allows P [].
Proof. intros t Ht. constructor. Qed.
Lemma allows_bar (P : gop -> Prop) k : P GSync -> allows P k -> allows P (Bar :: k).
Proof. intros H1 H2 t Ht. cbn [thread_code flat_map app]. constructor; [exact H1|]. apply H2, Ht. Qed.
Lemma allows_par (P : gop -> Prop) n code k : (forall t tid, t < T -> tid < n * T -> Forall P (code t tid)) -> allows P k -> allows P (Par (strided T n code) :: k).
Proof.
  intros H1 H2 t Ht. cbn [thread_code flat_map app]. apply Forall_app. split; [|apply H2, Ht]. unfold strided. rewrite Forall_flat_map. apply Forall_forall. intros i Hi%in_seq. apply H1; [exact Ht|]. clear - Hi Ht. nia.
Qed.
Lemma allows_flat {B} (P : gop -> Prop) (f : B -> list seg) l : (forall x, In x l -> allows P (f x)) -> allows P (flat_map f l).
Proof. induction l as [|x l IH]; intros Hf; [apply allows_nil|]. cbn [flat_map]. apply allows_app; [apply Hf; left; reflexivity|]. apply IH. intros y Hy. apply Hf. right. exact Hy. Qed.
End Parts.

Section Kernel.
Context (w : Z) {R : Type} (rO rI : R) (radd rmul rsub : R -> R -> R) (ropp : R -> R).
Hypothesis R_ring : ring_theory rO rI radd rmul rsub ropp (@eq R).
Context (ok : addr -> bool) (size : nat -> nat) (H T n o : nat).
Hypothesis (HT : 0 < T) (Hn : H = 2 ^ n) (Hn1 : 1 <= n) (Ho : o * T = H) (Heven : Nat.even o = true)
  (Hloc : forall t r, ok (Loc t r) = true) (Hword : forall b i, i < size b -> ok (Word b i) = true) (Hdbl : forall b i im, i < size b -> ok (Dbl b i im) = true).
Context (of_int : Z -> R) (torus1 torus2 : R -> Z) (tw : nat -> R * R) (q h : R).
Hypothesis (Hq : tw 1 = (q, q)).
Notation val := (val R).
Notation mem := (mem addr val).
Notation seg := (seg addr val).
Notation N := (2 * H).
Notation triple := (triple (R := R) ok T).
Notation fits := (fits (V := val) in_global).
Notation allows := (allows (R := R) T).
Notation bview := (block_view (V := val) in_global).
Notation cplx := (cplx (R := R) H).
Notation slot := (slot (R := R) H).
Notation cadd := (cadd radd). Notation cmul := (cmul radd rmul rsub). Notation csub := (csub rsub). Notation conj := (conj ropp). Notation cO := (cO rO).
Notation view := (view rO).
Notation dir := (dir cadd cmul csub tw n n). Notation inv := (inv cadd cmul csub (fun k => conj (tw k)) n n).
Notation csum := (csum cO cadd).
Notation C_ring := (c_ring rO rI radd rmul rsub ropp R_ring).
Notation direct buf off := (NSMFFT_direct rO radd rmul rsub tw q buf off (N / 2) (2 * o / 2)).
Notation inverse buf off := (NSMFFT_inverse rO radd rmul rsub tw h buf off (N / 2) (2 * o / 2)).
Context (b : Z) (k count : nat).
Notation K := (k + 1).
Notation G := (K * count).
Lemma H_pos : 0 < H. Proof. clear - Hn. rewrite Hn. pose proof (Nat.pow_nonzero 2 n). lia. Qed.
Definition by_ (i : nat) : nat := i mod K.
Definition bz (i : nat) : nat := i / K.
Lemma by_lt i : by_ i <= k. Proof. clear. unfold by_. pose proof (Nat.mod_upper_bound i K). lia. Qed.
Lemma bz_lt i : i < G -> bz i < count. Proof. clear. intros Hi. apply Nat.div_lt_upper_bound; lia. Qed.
Lemma bi i : bz i * K + by_ i = i. Proof. clear. unfold bz, by_. pose proof (Nat.div_mod i K). lia. Qed.

(** ** Who owns what between two grid barriers, [j] polynomials after the first *)
Definition gown (j : nat) (c : addr) : option nat :=
  match c with
  | Dbl 5 a _ => Some (a / H / K * K + (a / H mod K + K - j) mod K)
  | Word 7 a => Some (a / (k * N + 1) * K + (a mod (k * N + 1)) / N)
  | _ => None
  end.
Lemma rot_back y j : y <= k -> j <= k -> ((j + y) mod K + K - j) mod K = y.
Proof.
  intros Hy Hj. destruct (Nat.lt_ge_cases (j + y) K) as [L|L].
  - rewrite (Nat.mod_small (j + y)) by exact L. replace (j + y + K - j) with (y + 1 * K) by lia. rewrite Nat.mod_add by lia. apply Nat.mod_small. lia.
  - assert (E : (j + y) mod K = j + y - K) by (rewrite <- (Nat.mod_small (j + y - K) K) by lia; replace (j + y) with (j + y - K + 1 * K) at 1 by lia; apply Nat.mod_add; lia). rewrite E.
    replace (j + y - K + K - j) with y by lia. apply Nat.mod_small. lia.
Qed.
Lemma gown_join j i e im : j <= k -> e < H -> gown j (Dbl JOIN ((bz i * K + (j + by_ i) mod K) * H + e) im) = Some i.
Proof.
  intros Hj He. unfold gown, JOIN. pose proof H_pos as HH. rewrite Nat.div_add_l by lia. rewrite (Nat.div_small e) by exact He. rewrite Nat.add_0_r.
  assert (Hm : (j + by_ i) mod K < K) by (apply Nat.mod_upper_bound; lia).
  rewrite Nat.div_add_l by lia. rewrite Nat.div_small by exact Hm. rewrite Nat.add_0_r. f_equal.
  replace ((bz i * K + (j + by_ i) mod K) mod K) with ((j + by_ i) mod K) by (rewrite (Nat.add_comm (bz i * K)), Nat.mod_add by lia; symmetry; apply Nat.mod_small, Hm).
  rewrite rot_back by (try exact Hj; apply by_lt). apply bi.
Qed.
Lemma gown_join0 i e im : e < H -> gown 0 (Dbl JOIN (i * H + e) im) = Some i.
Proof. intros He. rewrite <- (bi i) at 1. pose proof (gown_join 0 i e im ltac:(lia) He) as E. cbn [Nat.add] in E. rewrite (Nat.mod_small (by_ i)) in E by (pose proof (by_lt i); lia). exact E. Qed.
Definition out_of (i : nat) : nat := bz i * (k * N + 1) + by_ i * N.
Lemma gown_out j i e : (by_ i < k /\ e < N) \/ e = 0 -> gown j (Word OUT (out_of i + e)) = Some i.
Proof.
  intros He. unfold gown, OUT, out_of. pose proof H_pos as HH. pose proof (by_lt i) as Hy.
  assert (L : by_ i * N + e < k * N + 1) by (clear - He Hy HH; generalize dependent (by_ i); intros y He Hy; destruct He as [[H1 H2]| ->]; [assert ((y + 1) * N <= k * N) by (apply Nat.mul_le_mono_r; lia)|assert (y * N <= k * N) by (apply Nat.mul_le_mono_r; lia)]; lia). rewrite <- Nat.add_assoc.
  rewrite Nat.div_add_l by lia. rewrite (Nat.div_small _ _ L), Nat.add_0_r. f_equal.
  rewrite (Nat.add_comm (bz i * (k * N + 1))), Nat.mod_add by lia. rewrite Nat.mod_small by exact L. rewrite Nat.div_add_l by lia. rewrite (Nat.div_small e) by (clear - He HH; lia). rewrite Nat.add_0_r. apply bi.
Qed.

(** ** The accesses of the functions of the kernel *)
Lemma E_o : 2 * o / 2 = o. Proof. clear. rewrite Nat.mul_comm. apply Nat.div_mul. lia. Qed.
Lemma E_T : 2 * H / (2 * o) = T.
Proof. assert (E : o <> 0) by (pose proof H_pos; clear - H0 Ho; intros ->; lia). clear - E Ho. rewrite <- Ho. replace (2 * (o * T)) with (T * (2 * o)) by lia. apply Nat.div_mul. lia. Qed.
Lemma E_H : N / 2 = H. Proof. clear. rewrite Nat.mul_comm. apply Nat.div_mul. lia. Qed.
Lemma E_half i : i * N / 2 = i * H. Proof. clear. replace (i * (2 * H)) with (i * H * 2) by lia. apply Nat.div_mul. lia. Qed.
Lemma E_T2 : H / o = T. Proof. pose proof H_pos. clear - Ho H0. rewrite <- Ho, Nat.mul_comm. apply Nat.div_mul. intros ->. lia. Qed.
Ltac cell := intros E; first [discriminate E | left; first [assumption | reflexivity] | right; reflexivity ].
Ltac fit1 := cbn [CudaGridProofs.fits load store2 comp2 put1 put2]; split; [intros E; first [discriminate E|auto]|repeat (apply Forall_cons; [intros E; first [discriminate E|auto]|]); apply Forall_nil].
Ltac fit := repeat (apply Forall_cons; [fit1|]); try apply Forall_nil.
Lemma direct_fits j i : allows (fits (gown j) i) (direct AFFT 0).
Proof.
  unfold NSMFFT_direct. rewrite E_H, E_o. apply allows_app.
  - unfold direct_first. rewrite E_T2. apply allows_par; [|apply allows_bar; [exact I|apply allows_nil]]. intros t tid _ _. unfold butterfly1, X, Y. fit.
  - assert (L : forall fuel s m, allows (fits (gown j) i) (direct_loop rO radd rmul rsub tw AFFT 0 H o fuel s m)); [|apply L]. induction fuel as [|fuel IH]; intros s m; [apply allows_nil|]. cbn [direct_loop]. destruct (1 <? s); [|apply allows_nil]. apply allows_app; [|apply IH].
    unfold direct_level. rewrite E_T2. apply allows_par; [|apply allows_bar; [exact I|apply allows_nil]]. intros t tid _ _. unfold butterfly, X, Y. fit.
Qed.
Lemma inverse_fits j i : allows (fits (gown j) i) (inverse AFFT 0).
Proof.
  unfold NSMFFT_inverse. rewrite E_H, E_o. apply allows_app.
  - unfold inverse_scale. rewrite E_T2. apply allows_par; [|apply allows_bar; [exact I|apply allows_nil]]. intros t tid _ _. unfold X, Y. fit.
  - assert (L : forall fuel s m, allows (fits (gown j) i) (inverse_loop rO radd rmul rsub tw AFFT 0 H o fuel s m)); [|apply L]. induction fuel as [|fuel IH]; intros s m; [apply allows_nil|]. cbn [inverse_loop]. destruct (1 <? m); [|apply allows_nil]. apply allows_app; [|apply IH].
    unfold inverse_level. rewrite E_T2. apply allows_par; [|apply allows_bar; [exact I|apply allows_nil]]. intros t tid _ _. unfold butterfly_inverse, X, Y. fit.
Qed.
Lemma divide_fits j i io a : allows (fits (gown j) i) [divide_by_monomial w rO N (2 * o) ACC 0 LUT io a 0].
Proof. unfold divide_by_monomial. rewrite E_T. apply allows_par; [|apply allows_nil]. intros t tid _ _. cbv zeta. destruct (a <? N); destruct (tid <? _); fit. Qed.
Lemma prepare_fits j i a : allows (fits (gown j) i) (prepare w rO N (2 * o) of_int b 1 0 a).
Proof.
  unfold prepare. cbn [app]. apply allows_bar; [exact I|]. unfold multiply_by_monomial_and_sub, round_to_closest_multiple, gadget_new. rewrite !E_T.
  apply allows_par; [intros t tid _ _; cbv zeta; destruct (a <? N); destruct (tid <? _); fit|]. apply allows_par; [intros t tid _ _; cbv zeta; fit|]. apply allows_bar; [exact I|]. cbn [app].
  apply allows_par; [intros t tid _ _; cbv zeta; fit|]. apply allows_bar; [exact I|]. apply allows_app; [|apply allows_bar; [exact I|apply allows_nil]].
  apply allows_flat. intros x _. unfold decompose_next_polynomial. cbv zeta. rewrite E_T. apply allows_par; [intros t tid _ _; unfold X, Y; fit|]. apply allows_bar; [exact I|apply allows_nil].
Qed.
Lemma join_index z p : join_slot N k 1 z 0 p = (z * K + p) * H.
Proof. unfold join_slot. rewrite Nat.mul_1_r, !E_half. clear. change (0 * K) with 0. lia. Qed.
Ltac fitj Hg := repeat (apply Forall_cons; [cbn [CudaGridProofs.fits load store2 comp2 put1 put2]; split; [intros E; first [discriminate E|apply Hg]|repeat (apply Forall_cons; [intros E; first [discriminate E|left; apply Hg|right; reflexivity]|]); apply Forall_nil]|]); try apply Forall_nil.
Lemma first_fits i it : allows (fits (gown 0) i) (mul_first rO radd rmul rsub N (2 * o) tw q k 1 0 (by_ i) (bz i) it).
Proof.
  unfold mul_first. apply allows_app; [apply direct_fits|]. apply allows_bar; [exact I|]. rewrite join_index, bi. unfold product_init. rewrite E_T, E_o, Ho || rewrite E_T, E_o. apply allows_par; [|apply allows_nil].
  intros t tid _ Ht. assert (Hg : forall im, gown 0 (Dbl JOIN (i * H + tid) im) = Some i) by (intros im; apply gown_join0; lia). unfold X, Y. fitj Hg.
Qed.
Lemma next_fits i it j : j <= k -> allows (fits (gown j) i) (mul_next rO radd rmul rsub N (2 * o) k 1 0 (by_ i) (bz i) it j).
Proof.
  intros Hj. unfold mul_next. cbv zeta. rewrite join_index. unfold product_accumulate. rewrite E_T, E_o. apply allows_par; [|apply allows_nil].
  intros t tid _ Ht. assert (Hg : forall im, gown j (Dbl JOIN ((bz i * K + (j + by_ i) mod K) * H + tid) im) = Some i) by (intros im; apply gown_join; lia). unfold X, Y. fitj Hg.
Qed.
Lemma last_fits i : allows (fits (gown 0) i) (mul_last w rO radd rmul rsub N (2 * o) torus1 torus2 tw h k 1 (by_ i) (bz i) ++ [Bar]).
Proof.
  apply allows_app; [|apply allows_bar; [exact I|apply allows_nil]]. unfold mul_last. cbn [Nat.sub seq map app]. rewrite join_index, bi. unfold copy, add_to_torus. rewrite !E_T, !E_o.
  apply allows_par; [intros t tid _ Ht; assert (Hg : forall im, gown 0 (Dbl JOIN (i * H + tid) im) = Some i) by (intros im; apply gown_join0; lia); unfold X, Y; fitj Hg|].
  apply allows_bar; [exact I|]. apply allows_bar; [exact I|]. rewrite E_H. pose proof (inverse_fits 0 i) as F. rewrite E_H, E_o in F. apply allows_app; [exact F|]. apply allows_bar; [exact I|]. apply allows_par; [intros t tid _ _; unfold X, Y; fit|]. apply allows_bar; [exact I|apply allows_nil].
Qed.
Lemma extract_fits j i : allows (fits (gown j) i) (extract w rO N (2 * o) k 0 (by_ i) (out_of i)).
Proof.
  unfold extract. cbn [Nat.eqb andb]. destruct (Nat.ltb_spec (by_ i) k) as [L|L].
  - unfold sample_extract_mask. cbv zeta. rewrite !E_T. repeat first [apply allows_bar; [exact I|]|apply allows_par].
    all: try apply allows_nil. all: intros t tid _ Ht. 1,2,3,5: fit.
    + destruct (1 <? N); [destruct (tid <? 1)|]; fit.
    + assert (Hg : gown j (Word OUT (out_of i + 0 * N + tid)) = Some i) by (rewrite Nat.mul_0_l, Nat.add_0_r; apply gown_out; left; split; [exact L|lia]). fitj Hg.
  - assert (Ek : by_ i = k) by (pose proof (by_lt i); lia). rewrite Ek, Nat.eqb_refl. unfold sample_extract_body. rewrite E_T. apply allows_par; [|apply allows_nil].
    intros t tid _ _. destruct (tid =? 0); [|constructor]. assert (Hg : gown j (Word OUT (out_of i + 0 * N)) = Some i) by (rewrite Nat.mul_0_l; apply gown_out; right; reflexivity). fitj Hg.
Qed.

(** ** What the functions of the kernel compute *)
Notation base i := (CudaPbsKernel.base (out_of i)).
Notation own_of i ob := (own_bufs T (base i) ob).
Notation words i := (words (R := R) (base i) H).
Hypothesis (S_acc : N <= size ACC) (S_rot : N <= size ROT) (S_afft : H <= size AFFT) (S_join : G * H <= size JOIN).
Definition poly (c : nat) (f : nat -> Z) (m : mem) : Prop := forall e, e < N -> m (Word c e) = Wd (f e).
Lemma poly_words i c f m : c <> OUT -> words i c (fun _ => f) 1 m <-> poly c f m.
Proof.
  intros Hc. assert (E : base i c = 0) by (unfold CudaPbsKernel.base; destruct (Nat.eqb_spec c OUT); [contradiction|reflexivity]). unfold CudaPbsPhases.words, poly. rewrite E. clear. split.
  - intros Hm e He. apply (Hm 0 e); [lia|exact He].
  - intros Hm z e Hz He. assert (z = 0) by lia. subst z. apply Hm, He.
Qed.
Lemma poly_stable bs c f : ~ In c bs -> stable bs (poly c f).
Proof. intros Hb m m' K0 Hm e He. rewrite K0 by (try reflexivity; exact Hb). apply Hm, He. Qed.
Lemma poly_ext c f g m : (forall e, e < N -> f e = g e) -> poly c f m -> poly c g m.
Proof. intros E Hm e He. rewrite <- E by exact He. apply Hm, He. Qed.
Ltac notin := let E := fresh in intros E; repeat (destruct E as [E|E]; [discriminate E|]); exact E.
Ltac isin := let y := fresh in let E := fresh in intros y E; repeat (destruct E as [E|E]; [subst y; cbn [In]; tauto|]); destruct E.

Notation divide_ok i := (divide_ok w rO ok size (base i) H T n o HT Hn Hn1 Ho Heven Hloc Hword Hdbl).
Notation mul_sub_ok i := (mul_sub_ok w rO ok size (base i) H T n o HT Hn Hn1 Ho Heven Hloc Hword Hdbl).
Notation round_ok i := (round_ok w rO ok size (base i) H T n o HT Hn Hn1 Ho Heven Hloc Hword Hdbl).
Notation gadget_ok i := (gadget_ok w rO ok size (base i) H T n o HT Hn Hn1 Ho Heven Hloc Hword Hdbl).
Notation decompose_ok i := (decompose_ok w rO ok size (base i) H T n o HT Hn Hn1 Ho Heven Hloc Hword Hdbl of_int).
Notation torus_ok i := (torus_ok w rO ok size (base i) H T n o HT Hn Hn1 Ho Heven Hloc Hword Hdbl of_int torus1 torus2).
Notation direct_phase i := (direct_phase rO rI radd rmul rsub ropp R_ring ok size (base i) H T n o HT Hn Hn1 Ho Heven Hloc Hword Hdbl tw q Hq).
Notation inverse_phase i := (inverse_phase rO rI radd rmul rsub ropp R_ring ok size (base i) H T n o HT Hn Hn1 Ho Heven Hloc Hword Hdbl tw h).
Notation mask_ok i := (mask_ok w rO ok size (base i) H T n o HT Hn Hn1 Ho Heven Hloc Hword Hdbl of_int torus1 torus2 h).
Notation body_ok i := (body_ok w rO ok size (base i) H T n o HT Hn Hn1 Ho Heven Hloc Hword Hdbl of_int torus1 torus2 h).
Notation init_slot i := (init_slot rO radd rmul rsub ok size (base i) H T n o HT Hn Hn1 Ho Hloc Hword Hdbl).
Notation product_slot i := (product_slot rO radd rmul rsub ok size (base i) H T n o HT Hn Hn1 Ho Hloc Hword Hdbl).
Notation copy_slot i := (copy_slot rO radd rmul rsub ok size (base i) H T n o HT Hn Hn1 Ho Hloc Hword Hdbl).

(** 165-172 *)
Lemma divide_block i io a f : a <= 2 * N -> io + N <= size LUT ->
  triple None [divide_by_monomial w rO N (2 * o) ACC 0 LUT io a 0] (Some (own_of i (among [ACC; OUT]))) [ACC] (fun m => forall e, e < N -> m (Word LUT (io + e)) = Wd (f e)) (poly ACC (divided w H a f)).
Proof.
  intros Ha Hs. apply triple_start with (Some (own_of i (among [ACC; OUT]))).
  eapply triple_weaken; [apply (divide_ok i (among [ACC; OUT]) ACC LUT io a 0 (fun _ => f) 1 (fun _ _ => 0%Z)); first [reflexivity|discriminate|assumption|change (base i ACC) with 0; lia|lia]|apply incl_refl| |].
  - intros m Hm. split; [intros z e Hz; lia|]. intros e He. rewrite Nat.mul_0_l, Nat.add_0_r. apply Hm, He.
  - intros m Hm. apply (poly_words i ACC); [discriminate|]. eapply words_ext; [|exact Hm]. cbv beta. intros z e Hz _. assert (z = 0) by lia. subst z. reflexivity.
Qed.
(** 191-223 *)
Definition started_at (a : nat) (f : nat -> Z) (e : nat) : Z := shr (gpu_round w b 1 (wsub w (rotated w H a f e) (f e))) (w - b * Z.of_nat 1).
Lemma prepare_block (i : nat) cur a f : a <= 2 * N ->
  triple cur (prepare w rO N (2 * o) of_int b 1 0 a) None [ROT; AFFT] (poly ACC f) (slot AFFT 0 (digit_cplx w H of_int b (started_at a f))).
Proof.
  intros Ha. unfold prepare. cbn [app Nat.sub seq flat_map]. rewrite app_nil_r. apply triple_bar_cons. set (rot := fun e => wsub w (rotated w H a f e) (f e)).
  apply triple_cons with (Some (own_of i (among [ROT]))) (words i ROT (fun _ => rot) 1).
  { apply triple_start with (Some (own_of i (among [ROT]))).
    eapply triple_weaken; [apply (mul_sub_ok i (among [ROT]) ACC ROT a 0 (fun _ => f) 1 (fun _ _ => 0%Z)); first [reflexivity|assumption|change (base i ROT) with 0; lia|lia]| | |].
    - isin.
    - intros m Hm. split; [intros z e Hz; lia|apply poly_words; [discriminate|exact Hm]].
    - intros m Hm. eapply words_ext; [|exact Hm]. cbv beta. intros z e Hz _. assert (z = 0) by lia. subst z. reflexivity. }
  apply triple_cons with (Some (own_of i (among [ROT]))) (words i ROT (fun _ e => gpu_round w b 1 (rot e)) 1).
  { eapply triple_weaken; [apply (round_ok i (among [ROT]) ROT b 1 0 (fun _ => rot) 1); first [reflexivity|assumption|change (base i ROT) with 0; lia|lia]| |auto|].
    - isin.
    - intros m Hm. eapply words_ext; [|exact Hm]. cbv beta. intros z e Hz _. assert (z = 0) by lia. subst z. reflexivity. }
  apply triple_bar_cons. apply triple_seq with None (words i ROT (fun _ => started_at a f) 1).
  { apply triple_start with (Some (own_of i (among [ROT]))).
    eapply triple_weaken; [apply (gadget_ok i (among [ROT]) ROT b 1 1 (fun _ e => gpu_round w b 1 (rot e))); first [reflexivity|assumption|change (base i ROT) with 0; lia|lia]| |auto|].
    - isin.
    - intros m Hm. exact Hm. }
  apply triple_seq with None (slot AFFT 0 (digit_cplx w H of_int b (started_at a f))); [|apply triple_bar].
  apply triple_start with (Some (own_of i (among [ROT; AFFT]))).
  eapply triple_weaken; [apply (decompose_ok i (among [ROT; AFFT]) ROT AFFT b 0 (fun _ => started_at a f) 1); first [reflexivity|discriminate|assumption|change (base i ROT) with 0; lia|lia]| |auto|].
  - isin.
  - intros m [_ Hm]. apply slot_cplx. exact Hm.
Qed.
(** 45-62 *)
Lemma slot_size s : s < G -> (s + 1) * H <= size JOIN.
Proof. intros Hs. etransitivity; [|exact S_join]. apply Nat.mul_le_mono_r. lia. Qed.
Lemma first_block i it x y : i < G -> bsk_slice N k 1 0 (by_ i) it + by_ i * H + H <= size BSK ->
  triple None (mul_first rO radd rmul rsub N (2 * o) tw q k 1 0 (by_ i) (bz i) it) (Some (own_of i (among [JOIN; AFFT]))) [JOIN; AFFT]
    (fun m => slot AFFT 0 x m /\ forall e, e < H -> view BSK (bsk_slice N k 1 0 (by_ i) it + by_ i * H) m e = y e)
    (fun m => slot JOIN i (fun e => cmul (dir x e) (y e)) m /\ slot AFFT 0 (dir x) m).
Proof.
  intros Hi Hs. unfold mul_first. rewrite join_index, bi, E_half. rewrite E_H, E_o.
  set (kv := fun m : mem => forall e, e < H -> view BSK (bsk_slice N k 1 0 (by_ i) it + by_ i * H) m e = y e).
  assert (Sk : forall bs, ~ In BSK bs -> stable bs kv) by (intros bs Hb m m' K0 Hm e He; rewrite <- (Hm e He); unfold CudaFftProofs.view, X, Y; rewrite !K0 by (try reflexivity; exact Hb); reflexivity).
  apply triple_seq with None (fun m => slot AFFT 0 (dir x) m /\ kv m).
  { eapply triple_weaken; [apply triple_with with (bs := [JOIN; AFFT]) (bs' := [AFFT]) (G := kv); [apply (direct_phase i AFFT 0 1 (fun _ => x)); lia|isin|apply Sk; notin]|apply incl_refl| |].
    - intros m [Hm Hk]. split; [apply slot_cplx; exact Hm|exact Hk].
    - intros m [Hm Hk]. split; [apply slot_cplx|exact Hk]. eapply cplx_ext; [|exact Hm]. cbv beta. intros z e Hz _. assert (z = 0) by lia. subst z. reflexivity. }
  apply triple_bar_cons. apply triple_start with (Some (own_of i (among [JOIN; AFFT]))).
  apply (init_slot i (among [JOIN; AFFT]) JOIN AFFT BSK _ i (dir x) y); first [reflexivity|discriminate|assumption|apply slot_size, Hi].
Qed.
(** 64-76 *)
Lemma next_block i it j s r x y : s < G -> s = bz i * K + (j + by_ i) mod K -> bsk_slice N k 1 0 (by_ i) it + (j + by_ i) mod K * H + H <= size BSK ->
  triple None (mul_next rO radd rmul rsub N (2 * o) k 1 0 (by_ i) (bz i) it j) (Some (own_of i (among [JOIN; AFFT]))) [JOIN; AFFT]
    (fun m => slot JOIN s r m /\ slot AFFT 0 x m /\ forall e, e < H -> view BSK (bsk_slice N k 1 0 (by_ i) it + (j + by_ i) mod K * H) m e = y e)
    (fun m => slot JOIN s (fun e => cadd (r e) (cmul (x e) (y e))) m /\ slot AFFT 0 x m).
Proof.
  intros Hs Es Hb. unfold mul_next. cbv zeta. rewrite join_index, <- Es, E_half. apply triple_start with (Some (own_of i (among [JOIN; AFFT]))).
  apply (product_slot i (among [JOIN; AFFT]) JOIN AFFT BSK _ s r x y); first [reflexivity|discriminate|assumption|apply slot_size, Hs].
Qed.
(** 78-116 *)
Lemma last_block i f r : i < G ->
  triple None (mul_last w rO radd rmul rsub N (2 * o) torus1 torus2 tw h k 1 (by_ i) (bz i) ++ [Bar]) None [ACC; JOIN; AFFT]
    (fun m => poly ACC f m /\ slot JOIN i r m) (poly ACC (added w H torus1 torus2 (inv (fun e => cmul (h, rO) (r e))) f)).
Proof.
  intros Hi. set (p := inv (fun e => cmul (h, rO) (r e))). unfold mul_last. cbn [Nat.sub seq map app]. rewrite join_index, bi, E_H, E_o.
  apply triple_cons with (Some (own_of i (among [JOIN; AFFT]))) (fun m => slot AFFT 0 r m /\ poly ACC f m).
  { apply triple_start with (Some (own_of i (among [JOIN; AFFT]))).
    eapply triple_weaken; [apply triple_with with (bs := [ACC; JOIN; AFFT]) (bs' := [JOIN; AFFT]) (G := poly ACC f); [apply (copy_slot i (among [JOIN; AFFT]) AFFT JOIN i r); first [reflexivity|discriminate|assumption|apply slot_size, Hi]|isin|apply poly_stable; notin]|apply incl_refl|cbv beta; tauto|cbv beta; tauto]. }
  apply triple_bar_cons. apply triple_bar_cons. rewrite <- app_assoc. cbn [app]. apply triple_seq with None (fun m => slot AFFT 0 p m /\ poly ACC f m).
  { eapply triple_weaken; [apply triple_with with (bs := [ACC; JOIN; AFFT]) (bs' := [AFFT]) (G := poly ACC f); [apply (inverse_phase i AFFT 0 1 (fun _ => r)); lia|isin|apply poly_stable; notin]|apply incl_refl| |].
    - intros m [Hm Hk]. split; [apply slot_cplx; exact Hm|exact Hk].
    - intros m [Hm Hk]. split; [apply slot_cplx|exact Hk]. eapply cplx_ext; [|exact Hm]. cbv beta. intros z e Hz _. assert (z = 0) by lia. subst z. reflexivity. }
  apply triple_bar_cons. apply triple_cons with (Some (own_of i (among [ACC; AFFT]))) (poly ACC (added w H torus1 torus2 p f)); [|apply triple_bar_cons, triple_bar].
  apply triple_start with (Some (own_of i (among [ACC; AFFT]))).
  eapply triple_weaken; [apply (torus_ok i (among [ACC; AFFT]) AFFT 0 1 ACC 0 1 (fun _ => p) (fun _ => f)); first [reflexivity|discriminate|assumption|change (base i ACC) with 0; lia|lia]|isin| |].
  - intros m [H1 H2]. split; [apply poly_words; [discriminate|exact H2]|apply slot_cplx; exact H1].
  - intros m [Hm _]. apply (poly_words i ACC); [discriminate|]. eapply words_ext; [|exact Hm]. cbv beta. intros z e Hz _. assert (z = 0) by lia. subst z. reflexivity.
Qed.
(** 237-245 *)
Definition output (i : nat) (f : nat -> Z) (m : mem) : Prop :=
  if by_ i <? k then forall e, e < N -> m (Word OUT (out_of i + e)) = Wd (extracted w H f e) else m (Word OUT (out_of i)) = Wd (f 0).
Lemma extract_block i f : (by_ i < k -> out_of i + N <= size OUT) -> out_of i < size OUT ->
  triple (Some (own_of i (among [ACC; OUT]))) (extract w rO N (2 * o) k 0 (by_ i) (out_of i)) (Some (own_of i (among [ACC; OUT]))) [ACC; OUT] (poly ACC f) (output i f).
Proof.
  intros S1 S2. unfold extract, output. cbn [Nat.eqb andb]. destruct (Nat.ltb_spec (by_ i) k) as [L|L].
  - eapply triple_weaken; [apply (mask_ok i (among [ACC; OUT]) ACC OUT 0 1 (fun _ => f) 1 (fun _ _ => 0%Z)); first [reflexivity|discriminate|change (base i ACC) with 0; lia|change (base i OUT) with (out_of i); specialize (S1 L); lia|lia]|apply incl_refl| |].
    + intros m Hm. split; [apply poly_words; [discriminate|exact Hm]|intros z e Hz; lia].
    + cbv beta. intros m [_ Hm] e He. specialize (Hm 0 e ltac:(lia) He). change (base i OUT) with (out_of i) in Hm. rewrite Nat.mul_0_l, Nat.add_0_r in Hm. exact Hm.
  - assert (Ek : by_ i = k) by (pose proof (by_lt i); lia). rewrite Ek, Nat.eqb_refl.
    eapply triple_weaken; [apply (body_ok i (among [ACC; OUT]) ACC OUT 0 (fun _ => f) (fun _ _ => 0%Z)); first [reflexivity|discriminate|change (base i ACC) with 0; lia|change (base i OUT) with (out_of i); lia]|apply incl_refl| |].
    + intros m Hm. split; [apply poly_words; [discriminate|exact Hm]|intros z e Hz; lia].
    + cbv beta. intros m [_ Hm]. change (base i OUT) with (out_of i) in Hm. rewrite Nat.mul_0_l, Nat.add_0_r in Hm. exact Hm.
Qed.

(** ** The whole kernel: what the grid has computed at every grid barrier *)
(** [key it 0 p z]: the Fourier transform of polynomial [z] of row [p] of element [it] of the key.  For ciphertext [z]: its test vector
    [tv z] at offset [lut z], its rescaled mask [ah z] and body [bh z]. *)
Context (key : nat -> nat -> nat -> nat -> nat -> R * R) (nn : nat) (lut : nat -> nat) (tv : nat -> nat -> nat -> Z) (ah : nat -> nat -> nat) (bh : nat -> nat).
Hypothesis (Hah : forall z it, ah z it <= 2 * N) (Hbh : forall z, bh z <= 2 * N) (S_lut : forall z, z < count -> lut z + K * N <= size LUT)
  (S_bsk : forall it p z, it < nn -> p <= k -> z <= k -> block H k 1 it 0 p + z * H + H <= size BSK) (S_out : count * (k * N + 1) <= size OUT).
Definition acc (z it : nat) : nat -> nat -> Z := accumulator w rO radd rmul rsub ropp H n of_int torus1 torus2 tw h b k 1 key (tv z) (ah z) (bh z) it.
Definition fourier (z it y : nat) : nat -> R * R := dir (digit_cplx w H of_int b (started_at (ah z it) (acc z it y))).
Definition row (p j : nat) : nat := (p + K - j) mod K.
Definition psum (z it p j e : nat) : R * R := csum j (fun j => cmul (fourier z it (row p j) e) (key it 0 (row p j) p e)).

(** *** The sum over the blocks is the sum over the rows *)
Notation addl l := (fold_right cadd cO l).
Lemma csum_list j f : csum j f = addl (map f (seq 0 j)).
Proof.
  clear - R_ring. assert (A : forall l x, addl (l ++ [x]) = cadd (addl l) x).
  { induction l as [|y l IH]; intros x; cbn [app fold_right]; [apply (Radd_comm C_ring)|]. rewrite IH. apply (Radd_assoc C_ring). }
  induction j as [|j IH]; [reflexivity|]. rewrite seq_S, map_app. cbn [map CudaFftAlgebra.csum Nat.add]. rewrite A, IH. reflexivity.
Qed.
Lemma addl_perm l l' : Permutation l l' -> addl l = addl l'.
Proof.
  clear - R_ring. intros P. induction P; cbn [fold_right]; [reflexivity|rewrite IHP; reflexivity| |congruence]. rewrite !(Radd_assoc C_ring), (Radd_comm C_ring y x). reflexivity.
Qed.
Lemma row_small p j : p <= k -> j <= p -> row p j = p - j.
Proof. clear. intros Hp Hj. unfold row. replace (p + K - j) with (p - j + 1 * K) by lia. rewrite Nat.mod_add by lia. apply Nat.mod_small. lia. Qed.
Lemma row_large p j : p <= k -> p < j <= k -> row p j = p + K - j.
Proof. clear. intros Hp Hj. unfold row. apply Nat.mod_small. lia. Qed.
Lemma row_le p j : row p j <= k.
Proof. clear. unfold row. pose proof (Nat.mod_upper_bound (p + K - j) K). lia. Qed.
Lemma rows_perm p : p <= k -> Permutation (map (row p) (seq 0 K)) (seq 0 K).
Proof.
  clear. intros Hp. apply Permutation_sym, NoDup_Permutation_bis; [apply seq_NoDup|rewrite map_length; lia|].
  intros x Hx%in_seq. apply in_map_iff. exists (row p x). split; [|apply in_seq; pose proof (row_le p x); lia].
  destruct (Nat.le_gt_cases x p); [rewrite (row_small p x) by lia; rewrite row_small by lia; lia|]. rewrite (row_large p x) by lia. rewrite row_large by lia. lia.
Qed.
Notation total z it := (total w rO radd rmul rsub H n of_int tw b k 1 key it (ah z it) (acc z it) 1 0).
Lemma psum_total z it p e : p <= k -> psum z it p K e = total z it p e.
Proof.
  intros Hp. unfold psum, CudaPbsKernel.total. cbn [CudaFftAlgebra.csum]. rewrite (Radd_0_l C_ring), (Radd_comm C_ring _ cO), (Radd_0_l C_ring).
  rewrite !csum_list. rewrite <- (map_map (row p) (fun y => cmul (fourier z it y e) (key it 0 y p e))). rewrite (addl_perm _ _ (Permutation_map _ (rows_perm p Hp))). reflexivity.
Qed.
Lemma acc_step z it p : acc z (S it) p = added w H torus1 torus2 (inv (fun e => cmul (h, rO) (total z it p e))) (acc z it p).
Proof. reflexivity. Qed.

(** *** The parts *)
Definition opening (it i : nat) : list seg :=
  match it with
  | O => [divide_by_monomial w rO N (2 * o) ACC 0 LUT (lut (bz i) + by_ i * N) (bh (bz i)) 0]
  | S _ => mul_last w rO radd rmul rsub N (2 * o) torus1 torus2 tw h k 1 (by_ i) (bz i) ++ [Bar]
  end.
Definition lead (it i : nat) : list seg := opening it i ++ prepare w rO N (2 * o) of_int b 1 0 (ah (bz i) it) ++ mul_first rO radd rmul rsub N (2 * o) tw q k 1 0 (by_ i) (bz i) it.
Definition middle (it j i : nat) : list seg := mul_next rO radd rmul rsub N (2 * o) k 1 0 (by_ i) (bz i) it j.
Definition final (i : nat) : list seg := opening nn i ++ extract w rO N (2 * o) k 0 (by_ i) (out_of i).
Definition all_parts : list (nat -> list seg) := flat_map (fun it => lead it :: map (middle it) (seq 1 k)) (seq 0 nn) ++ [final].

Context (gm0 : mem).
Hypothesis (Hlut : forall z y e, z < count -> y <= k -> e < N -> gm0 (Word LUT (lut z + y * N + e)) = Wd (tv z y e)) (Hkey : forall it, it < nn -> key_ok rO H k 1 key it gm0).
(** Test vectors and key are as they were. *)
Definition same (gm : mem) : Prop := forall c, in_global c = true -> ~ In (buf_of c) [JOIN; OUT] -> gm c = gm0 c.
Definition before (it : nat) (pm : nat -> mem) (gm : mem) : Prop := same gm /\
  match it with O => True | S it => forall i, i < G -> poly ACC (acc (bz i) it (by_ i)) (bview pm gm i) /\ slot JOIN i (psum (bz i) it (by_ i) K) gm end.
Definition during (it j : nat) (pm : nat -> mem) (gm : mem) : Prop := same gm /\
  forall i, i < G -> poly ACC (acc (bz i) it (by_ i)) (bview pm gm i) /\ slot AFFT 0 (fourier (bz i) it (by_ i)) (bview pm gm i) /\ slot JOIN i (psum (bz i) it (by_ i) (S j)) gm.
Definition finished (pm : nat -> mem) (gm : mem) : Prop := same gm /\ forall i, i < G -> output i (acc (bz i) nn (by_ i)) gm.

Lemma gown_buf j c i : gown j c = Some i -> In (buf_of c) [JOIN; OUT].
Proof.
  destruct c as [c a|c a im|t r]; cbn [gown buf_of]; [| |discriminate].
  - do 7 (destruct c as [|c]; [discriminate|]). destruct c; [intros _; cbn; auto|discriminate].
  - do 5 (destruct c as [|c]; [discriminate|]). destruct c; [intros _; cbn; auto|discriminate].
Qed.
Lemma same_next j gm gm' : same gm -> (forall c, in_global c = true -> (forall i, i < G -> gown j c <> Some i) -> gm' c = gm c) -> same gm'.
Proof. intros Hs E c Hc Hb. rewrite E; [apply Hs; assumption|exact Hc|]. intros i _ Eg. apply Hb. exact (gown_buf j c i Eg). Qed.
Lemma about_and j i (P Q : mem -> Prop) : about (gown j) i P -> about (gown j) i Q -> about (gown j) i (fun m => P m /\ Q m).
Proof. intros H1 H2 m m' E [Hp Hq']. split; [exact (H1 m m' E Hp)|exact (H2 m m' E Hq')]. Qed.
Lemma about_acc j i f : about (gown j) i (poly ACC f).
Proof. intros m m' E Hm e He. rewrite E by (try reflexivity; left; reflexivity). apply Hm, He. Qed.
Lemma about_afft j i x : about (gown j) i (slot AFFT 0 x).
Proof. intros m m' E Hm e He. rewrite !E by (try reflexivity; left; reflexivity). apply Hm, He. Qed.
Lemma about_join j i s x : j <= k -> s = bz i * K + (j + by_ i) mod K -> about (gown j) i (slot JOIN s x).
Proof. intros Hj -> m m' E Hm e He. rewrite !E by (try reflexivity; right; apply gown_join; assumption). apply Hm, He. Qed.
Lemma self i : i = bz i * K + (0 + by_ i) mod K.
Proof. cbn [Nat.add]. rewrite Nat.mod_small by (pose proof (by_lt i); clear - H0; lia). symmetry. apply bi. Qed.
Lemma about_output j i f : about (gown j) i (output i f).
Proof.
  intros m m' E. unfold output. destruct (Nat.ltb_spec (by_ i) k) as [L|L].
  - intros Hm e He. rewrite E; [apply Hm, He|reflexivity|right; apply gown_out; auto].
  - intros Hm. rewrite E; [exact Hm|reflexivity|]. right. rewrite <- (Nat.add_0_r (out_of i)). apply gown_out. auto.
Qed.
Definition key_view (it i p : nat) (m : mem) : Prop := forall e, e < H -> view BSK (bsk_slice N k 1 0 (by_ i) it + p * H) m e = key it 0 (by_ i) p e.
Lemma same_key it i p pm gm : same gm -> it < nn -> p <= k -> key_view it i p (bview pm gm i).
Proof.
  intros Hs Hit Hp e He. rewrite <- (Hkey it Hit 0 (by_ i) p e) by (try assumption; try apply by_lt; lia). unfold CudaFftProofs.view, X, Y, block_view, bsk_slice, block. cbn [in_global].
  assert (E : forall a im, gm (Dbl BSK a im) = gm0 (Dbl BSK a im)) by (intros a im; apply Hs; [reflexivity|]; cbn [buf_of]; notin). cbn [Nat.eqb orb]. rewrite !E. reflexivity.
Qed.
Lemma key_view_stable bs it i p : ~ In BSK bs -> stable bs (key_view it i p).
Proof. intros Hb m m' K0 Hm e He. rewrite <- (Hm e He). unfold CudaFftProofs.view, X, Y. rewrite !K0 by (try reflexivity; exact Hb). reflexivity. Qed.
Definition open_pre (it i : nat) (m : mem) : Prop :=
  match it with
  | O => forall e, e < N -> m (Word LUT (lut (bz i) + by_ i * N + e)) = Wd (tv (bz i) (by_ i) e)
  | S it => poly ACC (acc (bz i) it (by_ i)) m /\ slot JOIN i (psum (bz i) it (by_ i) K) m
  end.
Definition opened (it i : nat) : option (owners (A := addr)) := match it with O => Some (own_of i (among [ACC; OUT])) | S _ => None end.
Lemma opening_block it i : i < G -> triple None (opening it i) (opened it i) [ACC; JOIN; AFFT] (open_pre it i) (poly ACC (acc (bz i) it (by_ i))).
Proof.
  intros Hi. destruct it as [|it]; cbn [opening open_pre opened].
  - eapply triple_weaken; [apply (divide_block i (lut (bz i) + by_ i * N) (bh (bz i)) (tv (bz i) (by_ i))); [apply Hbh|]|isin|intros m Hm; exact Hm|intros m Hm; exact Hm].
    etransitivity; [|apply (S_lut (bz i)), bz_lt, Hi]. pose proof (by_lt i) as Hy. clear - Hy. assert ((by_ i + 1) * N <= K * N) by (apply Nat.mul_le_mono_r; lia). lia.
  - eapply triple_weaken; [apply (last_block i (acc (bz i) it (by_ i)) (total (bz i) it (by_ i)) Hi)|apply incl_refl| |intros m Hm; exact Hm].
    intros m [Hm1 Hm2]. split; [exact Hm1|]. eapply slot_ext; [|exact Hm2]. intros e _. apply psum_total, by_lt.
Qed.
Lemma before_open it pm gm i : before it pm gm -> i < G -> open_pre it i (bview pm gm i).
Proof.
  intros [Hs Hb] Hi. destruct it as [|it]; cbn [open_pre].
  - intros e He. unfold block_view. cbn [in_global]. cbn [Nat.eqb orb]. rewrite Hs by (try reflexivity; cbn [buf_of]; notin). apply Hlut; [apply bz_lt, Hi|apply by_lt|exact He].
  - exact (Hb i Hi).
Qed.
Lemma opening_fits it i : allows (fits (gown 0) i) (opening it i).
Proof. destruct it; [apply divide_fits|apply last_fits]. Qed.

Lemma lead_part it : it < nn -> gpart addr_eqb ok in_global G T (lead it) (before it) (during it 0).
Proof.
  intros Hit. eapply (gpart_triple ok G T _ (gown 0) [ACC; ROT; JOIN; AFFT] (fun i m => open_pre it i m /\ key_view it i (by_ i) m)
    (fun i m => poly ACC (acc (bz i) it (by_ i)) m /\ slot AFFT 0 (fourier (bz i) it (by_ i)) m /\ slot JOIN i (psum (bz i) it (by_ i) 1) m)).
  - intros i Hi. pose proof (opening_block it i Hi) as To. eexists. unfold lead.
    apply triple_seq with (opened it i) (fun m => poly ACC (acc (bz i) it (by_ i)) m /\ key_view it i (by_ i) m).
    { apply triple_with with (bs' := [ACC; JOIN; AFFT]); [exact To|isin|apply key_view_stable; notin]. }
    apply triple_seq with None (fun m => slot AFFT 0 (digit_cplx w H of_int b (started_at (ah (bz i) it) (acc (bz i) it (by_ i)))) m /\ (poly ACC (acc (bz i) it (by_ i)) m /\ key_view it i (by_ i) m)).
    { eapply triple_weaken; [apply triple_with with (bs := [ACC; ROT; JOIN; AFFT]) (bs' := [ROT; AFFT]) (G := fun m => poly ACC (acc (bz i) it (by_ i)) m /\ key_view it i (by_ i) m); [apply (prepare_block i (opened it i) (ah (bz i) it) (acc (bz i) it (by_ i)) (Hah _ _))|isin|apply stable_and; [apply poly_stable|apply key_view_stable]; notin]|apply incl_refl|cbv beta; tauto|cbv beta; tauto]. }
    eapply triple_weaken; [apply triple_with with (bs := [ACC; ROT; JOIN; AFFT]) (bs' := [JOIN; AFFT]) (G := poly ACC (acc (bz i) it (by_ i)));
      [apply (first_block i it (digit_cplx w H of_int b (started_at (ah (bz i) it) (acc (bz i) it (by_ i)))) (fun e => key it 0 (by_ i) (by_ i) e) Hi); apply S_bsk; [exact Hit|apply by_lt|apply by_lt]|isin|apply poly_stable; notin]|apply incl_refl| |].
    + cbv beta. intros m (H1 & H2 & H3). split; [|exact H2]. split; [exact H1|exact H3].
    + cbv beta. intros m [[H1 H2] H3]. split; [exact H3|]. split; [exact H2|]. eapply slot_ext; [|exact H1]. cbv beta. intros e _. unfold psum. cbn [CudaFftAlgebra.csum]. rewrite (Radd_0_l C_ring).
      rewrite row_small by (try apply by_lt; lia). rewrite Nat.sub_0_r. reflexivity.
  - intros i t Hi Ht. revert t Ht. change (allows (fits (gown 0) i) (lead it i)). unfold lead. apply allows_app; [apply opening_fits|]. apply allows_app; [apply prepare_fits|apply first_fits].
  - intros i Hi. apply about_and; [apply about_acc|]. apply about_and; [apply about_afft|]. apply about_join; [lia|apply self].
  - intros pm gm i HI Hi. split; [apply before_open; assumption|]. destruct HI as [Hs _]. apply same_key; [exact Hs|exact Hit|apply by_lt].
  - intros pm gm pm' gm' [Hs _] HQ Hpriv Hglob. split; [exact (same_next 0 gm gm' Hs Hglob)|]. intros i Hi. destruct (HQ i Hi) as (H1 & H2 & H3). split; [exact H1|]. split; [exact H2|]. exact H3.
Qed.
Lemma block_ix z p : p <= k -> bz (z * K + p) = z /\ by_ (z * K + p) = p.
Proof.
  clear. intros Hp. unfold bz, by_. split; [rewrite Nat.div_add_l by lia; rewrite Nat.div_small by lia; lia|]. rewrite (Nat.add_comm (z * K)), Nat.mod_add by lia. apply Nat.mod_small. lia.
Qed.
Lemma block_in z p : z < count -> p <= k -> z * K + p < G.
Proof. clear. intros Hz Hp. assert ((z + 1) * K <= count * K) by (apply Nat.mul_le_mono_r; lia). lia. Qed.
Lemma row_fwd p j : p <= k -> j <= k -> (j + row p j) mod K = p.
Proof.
  clear. intros Hp Hj. destruct (Nat.le_gt_cases j p).
  - rewrite row_small by lia. replace (j + (p - j)) with p by lia. apply Nat.mod_small. lia.
  - rewrite row_large by lia. replace (j + (p + K - j)) with (p + 1 * K) by lia. rewrite Nat.mod_add by lia. apply Nat.mod_small. lia.
Qed.
Lemma middle_part it j : it < nn -> 1 <= j <= k -> gpart addr_eqb ok in_global G T (middle it j) (during it (j - 1)) (during it j).
Proof.
  intros Hit Hj. set (s := fun i => bz i * K + (j + by_ i) mod K). assert (Hidx : forall i, (j + by_ i) mod K <= k) by (intros i; pose proof (Nat.mod_upper_bound (j + by_ i) K); clear - H0; lia).
  assert (Hs : forall i, i < G -> s i < G) by (intros i Hi; apply block_in; [apply bz_lt, Hi|apply Hidx]).
  eapply (gpart_triple ok G T _ (gown j) [JOIN; AFFT]
    (fun i m => slot JOIN (s i) (psum (bz i) it ((j + by_ i) mod K) j) m /\ slot AFFT 0 (fourier (bz i) it (by_ i)) m /\ key_view it i ((j + by_ i) mod K) m)
    (fun i m => slot JOIN (s i) (fun e => cadd (psum (bz i) it ((j + by_ i) mod K) j e) (cmul (fourier (bz i) it (by_ i) e) (key it 0 (by_ i) ((j + by_ i) mod K) e))) m /\ slot AFFT 0 (fourier (bz i) it (by_ i)) m)).
  - intros i Hi. eexists. unfold middle. apply (next_block i it j (s i) _ _ (fun e => key it 0 (by_ i) ((j + by_ i) mod K) e) (Hs i Hi) eq_refl). apply S_bsk; [exact Hit|apply by_lt|apply Hidx].
  - intros i t Hi Ht. apply next_fits; [apply Hj|exact Ht].
  - intros i Hi. apply about_and; [apply about_join; [apply Hj|reflexivity]|apply about_afft].
  - intros pm gm i [Hsm HI] Hi. split; [|split; [apply (HI i Hi)|apply same_key; [exact Hsm|exact Hit|apply Hidx]]].
    destruct (HI (s i) (Hs i Hi)) as (_ & _ & Hsl). unfold s in Hsl. destruct (block_ix (bz i) ((j + by_ i) mod K) (Hidx i)) as [E1 E2]. rewrite E1, E2 in Hsl. replace (S (j - 1)) with j in Hsl by lia. exact Hsl.
  - intros pm gm pm' gm' [Hsm HI] HQ Hpriv Hglob. split; [exact (same_next j gm gm' Hsm Hglob)|]. intros i Hi. split; [|split; [apply (HQ i Hi)|]].
    + destruct (HI i Hi) as (Ha & _ & _). intros e He. rewrite <- (Ha e He). unfold block_view. cbn [in_global]. cbn [Nat.eqb orb]. apply Hpriv; [exact Hi|reflexivity|reflexivity|]. cbn [buf_of]. notin.
    + set (i' := bz i * K + row (by_ i) j). assert (Hi' : i' < G) by (apply block_in; [apply bz_lt, Hi|apply row_le]). destruct (block_ix (bz i) (row (by_ i) j) (row_le _ _)) as [E1 E2]. fold i' in E1, E2.
      destruct (HQ i' Hi') as [Hsl _]. unfold s in Hsl. rewrite E1, E2, row_fwd in Hsl by (try apply by_lt; apply Hj). rewrite bi in Hsl. exact Hsl.
Qed.
Lemma final_part : gpart addr_eqb ok in_global G T final (before nn) finished.
Proof.
  eapply (gpart_triple ok G T _ (gown 0) [ACC; JOIN; AFFT; OUT] (open_pre nn) (fun i => output i (acc (bz i) nn (by_ i)))).
  - intros i Hi. pose proof (opening_block nn i Hi) as To. eexists. unfold final. apply triple_seq with (opened nn i) (poly ACC (acc (bz i) nn (by_ i))); [eapply triple_weaken; [exact To|isin|auto|auto]|].
    assert (Te : triple (Some (own_of i (among [ACC; OUT]))) (extract w rO N (2 * o) k 0 (by_ i) (out_of i)) (Some (own_of i (among [ACC; OUT]))) [ACC; JOIN; AFFT; OUT] (poly ACC (acc (bz i) nn (by_ i))) (output i (acc (bz i) nn (by_ i)))).
    { pose proof (bz_lt i Hi) as Hz. pose proof (by_lt i) as Hy. assert (Hzz : (bz i + 1) * (k * N + 1) <= count * (k * N + 1)) by (apply Nat.mul_le_mono_r; clear - Hz; lia).
      eapply triple_weaken; [apply (extract_block i (acc (bz i) nn (by_ i)))|isin|auto|auto].
      - intros Hk. unfold out_of. assert ((by_ i + 1) * N <= k * N) by (apply Nat.mul_le_mono_r; clear - Hk; lia). clear - H0 Hzz S_out. lia.
      - unfold out_of. assert (by_ i * N <= k * N) by (apply Nat.mul_le_mono_r; exact Hy). clear - H0 Hzz S_out. lia. }
    destruct nn; cbn [opened]; [exact Te|]. eapply triple_start. exact Te.
  - intros i t Hi Ht. revert t Ht. change (allows (fits (gown 0) i) (final i)). unfold final. apply allows_app; [apply opening_fits|apply extract_fits].
  - intros i Hi. apply about_output.
  - intros pm gm i HI Hi. apply before_open; assumption.
  - intros pm gm pm' gm' [Hs _] HQ Hpriv Hglob. split; [exact (same_next 0 gm gm' Hs Hglob)|]. intros i Hi. pose proof (HQ i Hi) as Hq'. unfold output in *. destruct (by_ i <? k); exact Hq'.
Qed.

(** *** From the first part to the last *)
Lemma during_before it pm gm : during it k pm gm -> before (S it) pm gm.
Proof. intros [Hs HI]. split; [exact Hs|]. intros i Hi. destruct (HI i Hi) as (H1 & _ & H3). split; [exact H1|]. replace K with (S k) by lia. exact H3. Qed.
Lemma gpart_weaken p (I J J' : (nat -> mem) -> mem -> Prop) : gpart addr_eqb ok in_global G T p I J -> (forall pm gm, J pm gm -> J' pm gm) -> gpart addr_eqb ok in_global G T p I J'.
Proof. intros Hp Hj pm gm Hi. destruct (Hp pm gm Hi) as (g & a & Ha & HJ). exists g, a. split; [exact Ha|]. intros pm' gm' E. apply Hj, HJ, E. Qed.
Lemma gparts_last ps (I J J' : (nat -> mem) -> mem -> Prop) : ps <> [] -> gparts addr_eqb ok in_global G T ps I J -> (forall pm gm, J pm gm -> J' pm gm) -> gparts addr_eqb ok in_global G T ps I J'.
Proof.
  intros Hne Hp Hj. induction Hp as [I|p ps I M J Hp Hps IH]; [contradiction|]. destruct ps as [|p2 ps].
  - inversion Hps; subst. econstructor; [eapply gpart_weaken; [exact Hp|exact Hj]|constructor].
  - econstructor; [exact Hp|]. apply IH; [discriminate|exact Hj].
Qed.
Lemma iteration_parts it : it < nn -> gparts addr_eqb ok in_global G T (lead it :: map (middle it) (seq 1 k)) (before it) (before (S it)).
Proof.
  intros Hit. apply gparts_last with (during it k); [discriminate| |apply during_before]. econstructor; [apply lead_part, Hit|].
  replace (map (middle it) (seq 1 k)) with (flat_map (fun j => [middle it j]) (seq 1 k)) by (clear; induction (seq 1 k) as [|x l IH]; [reflexivity|cbn [flat_map map app]; rewrite IH; reflexivity]).
  apply (gparts_loop addr_eqb ok in_global G T HT (fun j => [middle it j]) (during it) k 1). intros j Hj. apply gparts_one. replace (during it j) with (during it (S j - 1)) by (f_equal; lia). apply middle_part; [exact Hit|]. clear - Hj. lia.
Qed.
Lemma kernel_parts_ok : gparts addr_eqb ok in_global G T all_parts (before 0) finished.
Proof.
  unfold all_parts. apply gparts_app with (before nn); [|apply gparts_one, final_part]. apply (gparts_loop addr_eqb ok in_global G T HT (fun it => lead it :: map (middle it) (seq 1 k)) before nn 0). intros it Hit. apply iteration_parts, Hit.
Qed.

(** *** These are the parts of the kernel *)
Notation iteration i it := (low_latency_iteration w rO radd rmul rsub N (2 * o) torus1 torus2 of_int tw q h b k 1 0 (by_ i) (bz i) it (ah (bz i) it)).
Lemma parts_mids (f : nat -> list seg) l x : parts (flat_map (fun j => map Blk (f j) ++ [GridSync]) l ++ map Blk x) = map f l ++ [x].
Proof.
  clear. induction l as [|j l IH]; [apply parts_blk|]. cbn [flat_map map app]. rewrite <- !app_assoc. cbn [app]. rewrite parts_sync, parts_blk, IH. reflexivity.
Qed.
Lemma parts_iterations i m :
  parts (map Blk (opening 0 i) ++ flat_map (fun it => iteration i it) (seq 0 m)) = map (fun q => q i) (flat_map (fun it => lead it :: map (middle it) (seq 1 k)) (seq 0 m)) ++ [opening m i].
Proof.
  induction m as [|m IH]; [cbn [seq flat_map map app]; rewrite app_nil_r; apply parts_blk|]. rewrite seq_S, !flat_map_app, map_app. cbn [flat_map Nat.add]. rewrite !app_nil_r, app_assoc.
  set (front := map Blk (opening 0 i) ++ _) in *. unfold low_latency_iteration. rewrite app_assoc. cbn [app]. rewrite parts_sync, (parts_tail _ _ _ _ IH), parts_mids.
  rewrite <- !app_assoc. cbn [map app]. rewrite map_map. reflexivity.
Qed.
Lemma parts_all i : parts (map Blk (opening 0 i) ++ flat_map (fun it => iteration i it) (seq 0 nn) ++ map Blk (extract w rO N (2 * o) k 0 (by_ i) (out_of i))) = map (fun q => q i) all_parts.
Proof. rewrite app_assoc, (parts_tail _ _ _ _ (parts_iterations i nn)). unfold all_parts. rewrite map_app. reflexivity. Qed.

Theorem low_latency_ok kernel choices private : 0 < count ->
  (forall i, i < G -> kernel i = map Blk (opening 0 i) ++ flat_map (fun it => iteration i it) (seq 0 nn) ++ map Blk (extract w rO N (2 * o) k 0 (by_ i) (out_of i))) ->
  exists gm', grid_launch addr_eqb ok in_global G T kernel choices private gm0 = Ret gm' /\ same gm' /\ forall i, i < G -> output i (acc (bz i) nn (by_ i)) gm'.
Proof.
  intros Hc Hk. pose proof kernel_parts_ok as Hp. pose proof (fun i Hi => eq_trans (f_equal parts (Hk i Hi)) (parts_all i)) as Ep. destruct all_parts as [|p ps] eqn:Ea.
  { exfalso. unfold all_parts in Ea. destruct (flat_map _ _); discriminate. }
  destruct (grid_launch_ok addr_eqb ok in_global G T addr_eqb_eq HT kernel p ps (before 0) finished choices private gm0) as (pm' & gm' & El & Hs & Hf); [clear - Hc; nia|exact Ep|exact Hp|split; [intros c _ _; reflexivity|exact I]|].
  exists gm'. auto.
Qed.
End Kernel.
