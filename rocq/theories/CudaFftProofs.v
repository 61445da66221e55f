(** * The Fourier transforms of a block of GPU threads, under every interleaving *)
From Verif Require Import Base CudaBlockModel CudaBlockProofs CudaFftModel CudaFftAlgebra.
From Coq Require Import Ring.
Local Open Scope nat_scope.

Lemma addr_eqb_eq a b : addr_eqb a b = true <-> a = b.
Proof.
  destruct a as [b1 i1|b1 i1 m1|t1 r1], b as [b2 i2|b2 i2 m2|t2 r2]; cbn [addr_eqb]; try (split; discriminate); rewrite ?andb_true_iff, ?Nat.eqb_eq, ?Bool.eqb_true_iff.
  - split; [intros [-> ->]; reflexivity|]. intros E. injection E. auto.
  - split; [intros [[-> ->] ->]; reflexivity|]. intros E. injection E. auto.
  - split; [intros [-> ->]; reflexivity|]. intros E. injection E. auto.
Qed.
Definition is_local (a : addr) : bool := match a with Loc _ _ => true | _ => false end.

Section Fft.
Context {R : Type} (rO rI : R) (radd rmul rsub : R -> R -> R) (ropp : R -> R).
Hypothesis R_ring : ring_theory rO rI radd rmul rsub ropp (@eq R).
Add Ring RRing : R_ring.
Notation val := (val R).
Notation gop := (gop addr val).
Notation mem := (mem addr val).
Notation solo := (solo (V := val) addr_eqb).
Notation par := (par (V := val) addr_eqb).

(** ** Complex numbers are pairs *)
Definition C : Type := R * R.
Definition cO : C := (rO, rO). Definition cI : C := (rI, rO).
Definition cadd (a b : C) : C := (radd (fst a) (fst b), radd (snd a) (snd b)).
Definition csub (a b : C) : C := (rsub (fst a) (fst b), rsub (snd a) (snd b)).
Definition copp (a : C) : C := (ropp (fst a), ropp (snd a)).
Definition cmul (a b : C) : C := (rsub (rmul (fst a) (fst b)) (rmul (snd a) (snd b)), radd (rmul (fst a) (snd b)) (rmul (snd a) (fst b))).
Definition conj (a : C) : C := (fst a, ropp (snd a)).
Lemma c_ring : ring_theory cO cI cadd cmul csub copp (@eq C).
Proof. constructor; intros; repeat match goal with x : C |- _ => destruct x end; unfold cadd, cmul, csub, copp, cO, cI; cbn [fst snd]; f_equal; ring. Qed.
Definition part (im : bool) (c : C) : R := if im then snd c else fst c.

Section Buffer.
Context (buf off : nat).
Notation Xc := (X buf off). Notation Yc := (Y buf off).
Notation rdb := (@db R rO).
(** The complex number in element [i] of the buffer *)
Definition view (m : mem) (i : nat) : C := (rdb (m (Xc i)), rdb (m (Yc i))).

(** ** Reading the memory after a list of accesses *)
Definition dest (o : gop) : option addr := match o with GSync => None | GOp _ c _ => Some c end.
Lemma solo_unwritten code : forall m c, (forall o, In o code -> dest o <> Some c) -> solo code m c = m c.
Proof.
  induction code as [|o code IH]; intros m c H; [reflexivity|]. unfold CudaBlockProofs.solo in *. cbn [fold_left]. rewrite IH by (intros; apply H; right; assumption).
  destruct o as [|rs d f]; [reflexivity|]. cbn [exec1]. apply (upd_other addr_eqb addr_eqb_eq). intros ->. apply (H (GOp rs d f)); [left|]; reflexivity.
Qed.
Lemma solo_cons o code m : solo (o :: code) m = solo code (exec1 addr_eqb m o).
Proof. reflexivity. Qed.

Ltac steps := repeat (rewrite solo_cons; match goal with |- context [CudaBlockProofs.solo _ _ (exec1 _ ?m ?o)] => let x := fresh "m" in set (x := exec1 addr_eqb m o) end).
Ltac look1 Ha Hb := match goal with x := exec1 _ ?m0 (GOp ?rs ?d ?f) |- context [?y ?c] => constr_eq x y;
    change (x c) with (if addr_eqb c d then f (map m0 rs) else m0 c); unfold X, Y; cbn [addr_eqb]; rewrite ?Nat.eqb_refl, ?Ha, ?Hb, ?andb_false_r; cbn [andb Bool.eqb map nth]; unfold arg; cbn [nth CudaFftModel.db] end.
Ltac unfold_ops := unfold load, comp2, store2.

Lemma butterfly_effect w t i1 i2 m : i1 <> i2 ->
  let m' := solo (butterfly rO radd rmul rsub buf off w t i1 i2) m in
  let v := cmul w (view m i2) in
  m' (Xc i1) = Db (fst (cadd (view m i1) v)) /\ m' (Yc i1) = Db (snd (cadd (view m i1) v)) /\
  m' (Xc i2) = Db (fst (csub (view m i1) v)) /\ m' (Yc i2) = Db (snd (csub (view m i1) v)).
Proof.
  intros Hi. cbv zeta. assert (Ha : (off + i1 =? off + i2) = false) by (apply Nat.eqb_neq; lia). assert (Hb : (off + i2 =? off + i1) = false) by (apply Nat.eqb_neq; lia).
  unfold butterfly, view, cadd, csub, cmul. unfold_ops. cbn [fst snd]. steps. change (CudaBlockProofs.solo addr_eqb [] ?x) with x.
  repeat split; repeat (look1 Ha Hb); apply f_equal; ring.
Qed.

Lemma butterfly1_effect q t i1 i2 m : i1 <> i2 ->
  let m' := solo (butterfly1 rO radd rmul rsub q buf off t i1 i2) m in
  let v := cmul (q, q) (view m i2) in
  m' (Xc i1) = Db (fst (cadd (view m i1) v)) /\ m' (Yc i1) = Db (snd (cadd (view m i1) v)) /\
  m' (Xc i2) = Db (fst (csub (view m i1) v)) /\ m' (Yc i2) = Db (snd (csub (view m i1) v)).
Proof.
  intros Hi. cbv zeta. assert (Ha : (off + i1 =? off + i2) = false) by (apply Nat.eqb_neq; lia). assert (Hb : (off + i2 =? off + i1) = false) by (apply Nat.eqb_neq; lia).
  unfold butterfly1, view, cadd, csub, cmul. unfold_ops. cbn [fst snd]. steps. change (CudaBlockProofs.solo addr_eqb [] ?x) with x.
  repeat split; repeat (look1 Ha Hb); apply f_equal; ring.
Qed.
Lemma butterfly_inverse_effect w t i1 i2 m : i1 <> i2 ->
  let m' := solo (butterfly_inverse rO radd rmul rsub buf off w t i1 i2) m in
  let u := cmul (conj w) (csub (view m i1) (view m i2)) in
  m' (Xc i1) = Db (fst (cadd (view m i1) (view m i2))) /\ m' (Yc i1) = Db (snd (cadd (view m i1) (view m i2))) /\
  m' (Xc i2) = Db (fst u) /\ m' (Yc i2) = Db (snd u).
Proof.
  intros Hi. cbv zeta. assert (Ha : (off + i1 =? off + i2) = false) by (apply Nat.eqb_neq; lia). assert (Hb : (off + i2 =? off + i1) = false) by (apply Nat.eqb_neq; lia).
  unfold butterfly_inverse, view, cadd, csub, cmul, conj. unfold_ops. cbn [fst snd]. steps. change (CudaBlockProofs.solo addr_eqb [] ?x) with x.
  repeat split; repeat (look1 Ha Hb); apply f_equal; ring.
Qed.

(** ** One level: element [i] of the buffer belongs to the thread of its pair *)
Definition pair_index (s i : nat) : nat := i / (2 * s) * s + i mod s.
Definition pair_first (s j : nat) : nat := 2 * s * (j / s) + j mod s.
Lemma first_index_pair e j : first_index (2 ^ e) j = pair_first (2 ^ e) j.
Proof. unfold first_index, pair_first. f_equal. rewrite Nat.sub_1_r, <- Nat.ones_equiv. apply Nat.land_ones. Qed.
Lemma pair_first_index s j : 0 < s -> pair_index s (pair_first s j) = j /\ pair_index s (pair_first s j + s) = j /\ pair_first s j mod (2 * s) < s /\ (pair_first s j + s) mod (2 * s) >= s
  /\ pair_first s j / (2 * s) = j / s /\ (pair_first s j + s) / (2 * s) = j / s.
Proof.
  intros Hs. pose proof (Nat.mod_upper_bound j s ltac:(lia)) as B. pose proof (Nat.div_mod j s ltac:(lia)) as D. unfold pair_index, pair_first. set (q := j / s) in *. set (p := j mod s) in *. clearbody q p.
  assert (E1 : (2 * s * q + p) / (2 * s) = q) by (symmetry; apply Nat.div_unique with p; lia).
  assert (E2 : (2 * s * q + p) mod (2 * s) = p) by (symmetry; apply Nat.mod_unique with q; lia).
  assert (E3 : (2 * s * q + p + s) / (2 * s) = q) by (symmetry; apply Nat.div_unique with (p + s); lia).
  assert (E4 : (2 * s * q + p + s) mod (2 * s) = p + s) by (symmetry; apply Nat.mod_unique with q; lia).
  assert (E5 : (2 * s * q + p) mod s = p) by (symmetry; apply Nat.mod_unique with (2 * q); lia).
  assert (E6 : (2 * s * q + p + s) mod s = p) by (symmetry; apply Nat.mod_unique with (2 * q + 1); lia).
  rewrite E1, E2, E3, E4, E5, E6. rewrite (Nat.mul_comm q s). lia.
Qed.
Lemma pair_index_lower s i : 0 < s -> i mod (2 * s) < s -> i = pair_first s (pair_index s i).
Proof.
  intros Hs Hm. destruct (lower s i Hs Hm) as (E1 & E2 & _). pose proof (Nat.div_mod i (2 * s) ltac:(lia)) as D. unfold pair_first, pair_index. rewrite E1. set (q := i / (2 * s)) in *. set (p := i mod (2 * s)) in *. clearbody q p.
  assert (F1 : (q * s + p) / s = q) by (symmetry; apply Nat.div_unique with p; lia). assert (F2 : (q * s + p) mod s = p) by (symmetry; apply Nat.mod_unique with q; lia). rewrite F1, F2. exact D.
Qed.
Lemma pair_index_upper s i : 0 < s -> s <= i mod (2 * s) -> i = pair_first s (pair_index s i) + s.
Proof.
  intros Hs Hm. destruct (upper s i Hs Hm) as (_ & E1 & E2 & _). pose proof (Nat.div_mod i (2 * s) ltac:(lia)) as D. pose proof (Nat.mod_upper_bound i (2 * s) ltac:(lia)) as B. unfold pair_first, pair_index. rewrite E1. set (q := i / (2 * s)) in *. set (p := i mod (2 * s)) in *. clearbody q p.
  assert (F1 : (q * s + (p - s)) / s = q) by (symmetry; apply Nat.div_unique with (p - s); lia). assert (F2 : (q * s + (p - s)) mod s = p - s) by (symmetry; apply Nat.mod_unique with q; lia). rewrite F1, F2. lia.
Qed.

Context (ok : addr -> bool) (H T : nat).
Definition in_buffer (b i : nat) : bool := (b =? buf) && (off <=? i) && (i <? off + H).
Definition item_of (f : nat -> nat) (c : addr) : option nat := match c with Dbl b i _ => if in_buffer b i then Some (f (i - off)) else None | _ => None end.
Definition own_by (f : nat -> nat) : owners (A := addr) := fun c => match c with Loc t _ => Some t | _ => match item_of f c with Some j => Some (j mod T) | None => None end end.
Lemma in_buffer_cell i : i < H -> in_buffer buf (off + i) = true.
Proof. intros Hi. unfold in_buffer. rewrite Nat.eqb_refl. destruct (Nat.leb_spec off (off + i)); [|lia]. destruct (Nat.ltb_spec (off + i) (off + H)); [reflexivity|lia]. Qed.
Lemma in_buffer_inv b i : in_buffer b i = true -> b = buf /\ exists k, k < H /\ i = off + k /\ i - off = k.
Proof. unfold in_buffer. rewrite !andb_true_iff, Nat.eqb_eq, Nat.leb_le, Nat.ltb_lt. intros [[-> H1] H2]. split; [reflexivity|]. exists (i - off). lia. Qed.

Hypothesis (HT : 0 < T) (Hok : forall i im, i < H -> ok (Dbl buf (off + i) im) = true) (Hloc : forall t r, ok (Loc t r) = true).
(** Which cells the accesses of a thread touch: its variables, some cells, and it may read cells outside of the buffer. *)
Definition free (a : addr) : Prop := ok a = true /\ is_local a = false /\ forall f, item_of f a = None.
Definition touches (cells : list addr) (t : nat) (o : gop) : Prop :=
  match o with GSync => False | GOp rs c _ => ((exists q, c = Loc t q) \/ In c cells) /\ Forall (fun a => (exists q, a = Loc t q) \/ In a cells \/ free a) rs end.
Lemma touches_respects f cells t code : (forall c, In c cells -> exists i im j, c = Dbl buf (off + i) im /\ i < H /\ f i = j /\ j mod T = t) ->
  Forall (touches cells t) code -> Forall (acc_ok ok (own_by f) t) code.
Proof.
  intros Hc. apply Forall_impl. intros [|rs c g]; [auto|]. cbn [touches acc_ok]. intros [F1 F2].
  assert (G : forall a, (exists q, a = Loc t q) \/ In a cells -> ok a = true /\ own_by f a = Some t).
  { intros a [[q ->]|Ha]; [split; [apply Hloc|reflexivity]|]. destruct (Hc a Ha) as (i & im & j & -> & Hi & E & Em). split; [apply Hok, Hi|].
    unfold own_by, item_of. rewrite (in_buffer_cell i Hi). replace (off + i - off) with i by lia. rewrite E, Em. reflexivity. }
  destruct (G c F1) as [G1 G2]. split; [exact G2|]. split; [exact G1|]. eapply Forall_impl; [|exact F2]. cbv beta. intros a [Ha|[Ha|(Ha & Hl & Hi)]].
  - destruct (G a (or_introl Ha)). auto.
  - destruct (G a (or_intror Ha)). auto.
  - split; [exact Ha|]. right. unfold own_by. rewrite Hi. destruct a; [reflexivity|reflexivity|discriminate Hl].
Qed.
Lemma touches_unwritten cells t code m c : is_local c = false -> Forall (touches cells t) code -> ~ In c cells -> solo code m c = m c.
Proof.
  intros Hl F Hc. apply solo_unwritten. intros [|rs d g] Ho; [discriminate|]. cbn [dest]. intros E. injection E as ->. rewrite Forall_forall in F. specialize (F _ Ho). cbn [touches] in F. destruct F as [[[q ->]|F1] _]; [discriminate Hl|contradiction].
Qed.
Lemma strided_respects f count (code : nat -> nat -> list gop) : (forall t j, t < T -> j < count * T -> j mod T = t -> Forall (acc_ok ok (own_by f) t) (code t j)) -> respects ok (own_by f) T (strided T count code).
Proof.
  intros Hc t Ht. unfold strided. rewrite Forall_flat_map. apply Forall_forall. intros i Hi%in_seq. apply Hc; [exact Ht| |].
  - clear - Hi Ht. nia.
  - rewrite Nat.mod_add by lia. apply Nat.mod_small, Ht.
Qed.

Section Level.
Context (s q count : nat) (code : nat -> nat -> list gop).
Hypothesis (Hs : 0 < s) (HH : H = 2 * s * q) (Hcount : count * T = s * q).
Definition pair_cells (j : nat) : list addr := [Xc (pair_first s j); Yc (pair_first s j); Xc (pair_first s j + s); Yc (pair_first s j + s)].
Hypothesis (Htouch : forall t j, j < count * T -> Forall (touches (pair_cells j) t) (code t j)).
Lemma pair_in j : j < s * q -> pair_first s j < H /\ pair_first s j + s < H.
Proof.
  intros Hj. pose proof (Nat.mod_upper_bound j s ltac:(lia)) as B. assert (Q : j / s < q) by (apply Nat.div_lt_upper_bound; lia). unfold pair_first. rewrite HH. set (a := j / s) in *. set (b := j mod s) in *. clearbody a b. clear - B Q Hs. nia.
Qed.
Lemma pair_index_lt i : i < H -> pair_index s i < s * q.
Proof.
  intros Hi. assert (Q : i / (2 * s) < q) by (apply Nat.div_lt_upper_bound; lia). pose proof (Nat.mod_upper_bound i s ltac:(lia)) as B. unfold pair_index. set (a := i / (2 * s)) in *. set (b := i mod s) in *. clearbody a b. clear - B Q Hs. nia.
Qed.
Lemma level_respects : respects ok (own_by (pair_index s)) T (strided T count code).
Proof.
  apply strided_respects. intros t j Ht Hj Hm. apply touches_respects with (pair_cells j); [|apply Htouch, Hj]. intros c Hc. destruct (pair_first_index s j Hs) as (E1 & E2 & _). destruct (pair_in j ltac:(lia)) as [L1 L2].
  destruct Hc as [<-|[<-|[<-|[<-|[]]]]].
  - exists (pair_first s j), false, j. auto.
  - exists (pair_first s j), true, j. auto.
  - exists (pair_first s j + s), false, j. auto.
  - exists (pair_first s j + s), true, j. auto.
Qed.
Context (P1 P2 : nat -> C -> C -> C).
Hypothesis (Heffect : forall t j m, j < count * T ->
  let m' := solo (code t j) m in let a := view m (pair_first s j) in let b := view m (pair_first s j + s) in
  m' (Xc (pair_first s j)) = Db (fst (P1 j a b)) /\ m' (Yc (pair_first s j)) = Db (snd (P1 j a b)) /\
  m' (Xc (pair_first s j + s)) = Db (fst (P2 j a b)) /\ m' (Yc (pair_first s j + s)) = Db (snd (P2 j a b))).
Definition lvl (A : nat -> C) (i : nat) : C := let j := pair_index s i in if i mod (2 * s) <? s then P1 j (A i) (A (i + s)) else P2 j (A (i - s)) (A i).
Definition level_F (j : nat) (m : mem) (c : addr) : val := match c with Dbl _ i im => Db (part im (lvl (view m) (i - off))) | _ => m c end.
Lemma level_meaning m c : is_local c = false ->
  par T (own_by (pair_index s)) (strided T count code) m c = match c with Dbl b i im => if in_buffer b i then Db (part im (lvl (view m) (i - off))) else m c | _ => m c end.
Proof.
  intros Hl. rewrite (par_items addr_eqb ok addr_eqb_eq (own_by (pair_index s)) T count code is_local (item_of (pair_index s)) level_F HT).
  - destruct c as [b i|b i im|t r]; cbn [item_of]; [reflexivity| |discriminate Hl]. destruct (in_buffer b i) eqn:Eb; [|reflexivity]. destruct (in_buffer_inv b i Eb) as [-> (k & Hk & -> & ->)]. pose proof (pair_index_lt k Hk).
    destruct (Nat.ltb_spec (pair_index s k) (count * T)); [|lia]. unfold level_F. replace (off + k - off) with k by lia. reflexivity.
  - intros d j Hd Hj _. unfold own_by. rewrite Hj. destruct d; [discriminate Hj|reflexivity|discriminate Hd].
  - clear m c Hl. intros t m j c Hj Hl Hc. destruct c as [b i|b i im|u r]; cbn [item_of] in Hc; try discriminate. destruct (in_buffer b i) eqn:Eb; [|discriminate]. injection Hc as Hc.
    destruct (in_buffer_inv b i Eb) as [-> (k & Hk & -> & E)]. unfold level_F. rewrite E in *. clear E. unfold lvl. rewrite Hc. pose proof (Heffect t j m Hj) as G. cbv zeta in G.
    destruct (pair_first_index s j Hs) as (_ & _ & M1 & M2 & _).
    destruct (Nat.lt_ge_cases (k mod (2 * s)) s) as [L|L].
    + pose proof (pair_index_lower s k Hs L) as E. rewrite Hc in E. rewrite <- E in G. apply Nat.ltb_lt in L. rewrite L. destruct G as (G1 & G2 & _). destruct im; [exact G2|exact G1].
    + pose proof (pair_index_upper s k Hs L) as E. rewrite Hc in E. replace (pair_first s j + s) with k in G by exact E. replace (pair_first s j) with (k - s) in G by lia. apply Nat.ltb_ge in L. rewrite L. destruct G as (_ & _ & G1 & G2). destruct im; [exact G2|exact G1].
  - clear m c Hl. intros t m j c Hj Hl Hc. apply (touches_unwritten (pair_cells j) t); [exact Hl|apply Htouch, Hj|]. intros Hin. apply Hc.
    destruct (pair_first_index s j Hs) as (E1 & E2 & _). destruct (pair_in j ltac:(lia)) as [L1 L2].
    destruct Hin as [<-|[<-|[<-|[<-|[]]]]]; unfold X, Y; cbn [item_of]; rewrite in_buffer_cell by assumption.
    + replace (off + pair_first s j - off) with (pair_first s j) by lia. rewrite E1. reflexivity.
    + replace (off + pair_first s j - off) with (pair_first s j) by lia. rewrite E1. reflexivity.
    + replace (off + (pair_first s j + s) - off) with (pair_first s j + s) by lia. rewrite E2. reflexivity.
    + replace (off + (pair_first s j + s) - off) with (pair_first s j + s) by lia. rewrite E2. reflexivity.
  - clear m c Hl. intros j m m' Hj E c Hc. destruct c as [b i|b i im|u r]; cbn [item_of] in Hc; try discriminate. destruct (in_buffer b i) eqn:Eb; [|discriminate]. injection Hc as Hc.
    destruct (in_buffer_inv b i Eb) as [-> (k & Hk & -> & F)]. unfold level_F. rewrite F in *. clear F. do 2 f_equal. unfold lvl. rewrite Hc.
    destruct (pair_first_index s j Hs) as (E1 & E2 & _). destruct (pair_in j ltac:(lia)) as [L1 L2].
    assert (V : forall i, i < H -> pair_index s i = j -> view m i = view m' i).
    { intros i Hi Hp. unfold view. rewrite !E; try reflexivity; left; unfold X, Y; cbn [item_of]; rewrite in_buffer_cell by exact Hi; replace (off + i - off) with i by lia; rewrite Hp; reflexivity. }
    destruct (Nat.lt_ge_cases (k mod (2 * s)) s) as [L|L].
    + pose proof (pair_index_lower s k Hs L) as G. rewrite Hc in G. apply Nat.ltb_lt in L. rewrite L, G. rewrite !V; auto.
    + pose proof (pair_index_upper s k Hs L) as G. rewrite Hc in G. apply Nat.ltb_ge in L. rewrite L, G. replace (pair_first s j + s - s) with (pair_first s j) by lia. rewrite !V; auto.
  - intros d j Hd Hi Hj. exfalso. destruct d as [b i|b i im|u r]; cbn [item_of] in Hi; try discriminate. destruct (in_buffer b i) eqn:Eb; [|discriminate]. injection Hi as Hi.
    destruct (in_buffer_inv b i Eb) as [-> (k & Hk & -> & F)]. rewrite F in Hi. pose proof (pair_index_lt k Hk). lia.
  - exact Hl.
Qed.
End Level.

(** ** Element by element *)
Section Pointwise.
Context (count : nat) (code : nat -> nat -> list gop).
Hypothesis (Hcount : count * T = H).
Hypothesis (Htouch : forall t j, j < H -> Forall (touches [Xc j; Yc j] t) (code t j)).
Lemma pointwise_respects : respects ok (own_by (fun i => i)) T (strided T count code).
Proof.
  apply strided_respects. intros t j Ht Hj Hm. apply touches_respects with [Xc j; Yc j]; [|apply Htouch; lia]. intros c [<-|[<-|[]]].
  - exists j, false, j. repeat split; [lia|exact Hm].
  - exists j, true, j. repeat split; [lia|exact Hm].
Qed.
Context (P : nat -> mem -> C).
Hypothesis (Heffect : forall t j m, j < H -> solo (code t j) m (Xc j) = Db (fst (P j m)) /\ solo (code t j) m (Yc j) = Db (snd (P j m))).
Hypothesis (Hdep : forall j m m', j < H -> m (Xc j) = m' (Xc j) -> m (Yc j) = m' (Yc j) -> (forall c, is_local c = false -> (forall f, item_of f c = None) -> m c = m' c) -> P j m = P j m').
Definition pointwise_F (j : nat) (m : mem) (c : addr) : val := match c with Dbl _ _ im => Db (part im (P j m)) | _ => m c end.
Lemma pointwise_meaning m c : is_local c = false ->
  par T (own_by (fun i => i)) (strided T count code) m c = match c with Dbl b i im => if in_buffer b i then Db (part im (P (i - off) m)) else m c | _ => m c end.
Proof.
  intros Hl. rewrite (par_items addr_eqb ok addr_eqb_eq (own_by (fun i => i)) T count code is_local (item_of (fun i => i)) pointwise_F HT).
  - destruct c as [b i|b i im|t r]; cbn [item_of]; [reflexivity| |discriminate Hl]. destruct (in_buffer b i) eqn:Eb; [|reflexivity]. destruct (in_buffer_inv b i Eb) as [-> (k & Hk & -> & ->)].
    destruct (Nat.ltb_spec k (count * T)); [|lia]. reflexivity.
  - intros d j Hd Hj _. unfold own_by. rewrite Hj. destruct d; [discriminate Hj|reflexivity|discriminate Hd].
  - clear m c Hl. intros t m j c Hj Hl Hc. destruct c as [b i|b i im|u r]; cbn [item_of] in Hc; try discriminate. destruct (in_buffer b i) eqn:Eb; [|discriminate]. injection Hc as Hc.
    destruct (in_buffer_inv b i Eb) as [-> (k & Hk & -> & E)]. rewrite E in Hc. subst j. unfold pointwise_F. destruct (Heffect t k m Hk) as [G1 G2]. destruct im; [exact G2|exact G1].
  - clear m c Hl. intros t m j c Hj Hl Hc. apply (touches_unwritten [Xc j; Yc j] t); [exact Hl|apply Htouch; lia|]. intros Hin. apply Hc.
    destruct Hin as [<-|[<-|[]]]; unfold X, Y; cbn [item_of]; rewrite in_buffer_cell by lia; f_equal; lia.
  - clear m c Hl. intros j m m' Hj E c Hc. destruct c as [b i|b i im|u r]; cbn [item_of] in Hc; try discriminate. cbn [pointwise_F]. do 2 f_equal.
    apply Hdep; [lia| | |intros; apply E; [assumption|right; auto]]; apply E; try reflexivity; left; unfold X, Y; cbn [item_of]; rewrite in_buffer_cell by lia; f_equal; lia.
  - intros d j Hd Hi Hj. exfalso. destruct d as [b i|b i im|u r]; cbn [item_of] in Hi; try discriminate. destruct (in_buffer b i) eqn:Eb; [|discriminate]. injection Hi as Hi.
    destruct (in_buffer_inv b i Eb) as [-> (k & Hk & -> & F)]. lia.
  - exact Hl.
Qed.
End Pointwise.

(** ** The whole transforms *)
Context (w : nat -> C) (q h : R) (n opt : nat).
Hypothesis (Hn : H = 2 ^ n) (Hn1 : 1 <= n) (Hopt : opt * T = H) (Heven : Nat.even opt = true) (Hq : w 1 = (q, q)).
Notation dir_level := (dir_level cadd cmul csub w). Notation dir := (dir cadd cmul csub w n).
Notation inv_level := (inv_level cadd cmul csub (fun k => conj (w k))). Notation inv := (inv cadd cmul csub (fun k => conj (w k)) n).
Lemma threads : H / opt = T.
Proof. rewrite <- Hopt, Nat.mul_comm. apply Nat.div_mul. intros ->. cbn in Hopt. clear - Hopt Hn. pose proof (Nat.pow_nonzero 2 n). lia. Qed.
Lemma opt_half : 2 * (opt / 2) = opt.
Proof. apply Nat.even_spec in Heven. destruct Heven as [k ->]. rewrite (Nat.mul_comm 2 k), Nat.div_mul by lia. lia. Qed.
Lemma half_count e : e < n -> opt / 2 * T = 2 ^ e * 2 ^ (n - S e) /\ H = 2 * 2 ^ e * 2 ^ (n - S e).
Proof.
  intros He. assert (E : H = 2 * 2 ^ e * 2 ^ (n - S e)). { rewrite Hn, <- Nat.pow_succ_r', <- Nat.pow_add_r. f_equal. lia. }
  split; [|exact E]. pose proof opt_half as O. rewrite <- O in Hopt. rewrite E in Hopt. clear - Hopt. set (a := opt / 2) in *. set (b := 2 ^ e) in *. set (c := 2 ^ (n - S e)) in *. clearbody a b c. nia.
Qed.

Ltac touch1 := cbn [touches load store2 comp2]; split;
  [first [left; eexists; reflexivity | right; cbn [In pair_cells]; tauto] | repeat (apply Forall_cons; [first [left; eexists; reflexivity | right; left; cbn [In pair_cells]; tauto]|]); apply Forall_nil].
Ltac touch := repeat (apply Forall_cons; [touch1|]); apply Forall_nil.

(** The level [s = 2^e] *)
Definition a_level (s : nat) (code : nat -> nat -> list gop) : list (aseg (A := addr) (V := val)) := [APar (own_by (pair_index s)) (strided T (opt / 2) code); ABar].
Definition changed_only (m m' : mem) : Prop := forall c, is_local c = false -> item_of (fun i => i) c = None -> m' c = m c.
Definition holds (m : mem) (A : nat -> C) : Prop := forall i, i < H -> m (Xc i) = Db (fst (A i)) /\ m (Yc i) = Db (snd (A i)).
Lemma holds_view m A i : holds m A -> i < H -> view m i = A i.
Proof. intros Hm Hi. destruct (Hm i Hi) as [E1 E2]. unfold view. rewrite E1, E2. cbn. symmetry. apply surjective_pairing. Qed.

Section One.
Context (e : nat) (He : e < n) (code : nat -> nat -> list gop) (P1 P2 : nat -> C -> C -> C).
Let s := 2 ^ e.
Hypothesis (Htouch : forall t j, j < opt / 2 * T -> Forall (touches (pair_cells s j) t) (code t j)).
Hypothesis (Heffect : forall t j m, j < opt / 2 * T ->
  let m' := solo (code t j) m in let a := view m (pair_first s j) in let b := view m (pair_first s j + s) in
  m' (Xc (pair_first s j)) = Db (fst (P1 j a b)) /\ m' (Yc (pair_first s j)) = Db (snd (P1 j a b)) /\
  m' (Xc (pair_first s j + s)) = Db (fst (P2 j a b)) /\ m' (Yc (pair_first s j + s)) = Db (snd (P2 j a b))).
Lemma s_pos : 0 < s.
Proof. unfold s. apply Nat.neq_0_lt_0, Nat.pow_nonzero. discriminate. Qed.
Lemma a_level_disciplined k : disciplined ok T None k -> disciplined ok T None (a_level s code ++ k).
Proof.
  intros Hk. cbn [a_level app disciplined]. split; [exact I|]. split; [|exact Hk]. destruct (half_count e He) as [E1 E2].
  apply (level_respects s (2 ^ (n - S e)) (opt / 2) code s_pos E2 E1 Htouch).
Qed.
Lemma a_level_meaning m : changed_only m (meaning addr_eqb T (a_level s code) m) /\ holds (meaning addr_eqb T (a_level s code) m) (lvl s P1 P2 (view m)).
Proof.
  destruct (half_count e He) as [E1 E2]. unfold meaning. cbn [a_level fold_left]. split.
  - intros c Hl Hi. rewrite (level_meaning s (2 ^ (n - S e)) (opt / 2) code s_pos E2 E1 Htouch P1 P2 Heffect) by exact Hl. destruct c as [b i|b i im|t r]; try reflexivity. cbn [item_of] in Hi. destruct (in_buffer b i); [discriminate|reflexivity].
  - intros i Hi. rewrite !(level_meaning s (2 ^ (n - S e)) (opt / 2) code s_pos E2 E1 Htouch P1 P2 Heffect) by reflexivity. unfold X, Y. rewrite in_buffer_cell by exact Hi. replace (off + i - off) with i by lia. split; reflexivity.
Qed.
End One.

Lemma pair_index_div s i : 0 < s -> pair_index s i / s = i / (2 * s).
Proof. intros Hs. unfold pair_index. rewrite Nat.add_comm, Nat.div_add by lia. rewrite (Nat.div_small (i mod s)) by (apply Nat.mod_upper_bound; lia). reflexivity. Qed.

Definition code_first (t tid : nat) : list gop := butterfly1 rO radd rmul rsub q buf off t tid (tid + H / 2).
Definition code_direct (s m t tid : nat) : list gop := butterfly rO radd rmul rsub buf off (w (tid / s + m)) t (first_index s tid) (first_index s tid + s).
Definition code_inverse (s m t tid : nat) : list gop := butterfly_inverse rO radd rmul rsub buf off (w (tid / s + m)) t (first_index s tid) (first_index s tid + s).
Definition P1_direct (k : nat -> nat) (j : nat) (a b : C) : C := cadd a (cmul (w (k j)) b).
Definition P2_direct (k : nat -> nat) (j : nat) (a b : C) : C := csub a (cmul (w (k j)) b).
Definition P1_inverse (j : nat) (a b : C) : C := cadd a b.
Definition P2_inverse (k : nat -> nat) (j : nat) (a b : C) : C := cmul (conj (w (k j))) (csub a b).
Lemma lvl_direct e m A i : lvl (2 ^ e) (P1_direct (fun j => j / 2 ^ e + m)) (P2_direct (fun j => j / 2 ^ e + m)) A i = dir_level (2 ^ e) m A i.
Proof. unfold lvl, P1_direct, P2_direct, CudaFftAlgebra.dir_level. rewrite pair_index_div by (pose proof (Nat.pow_nonzero 2 e); lia). rewrite (Nat.add_comm m). reflexivity. Qed.
Lemma lvl_inverse e m A i : lvl (2 ^ e) P1_inverse (P2_inverse (fun j => j / 2 ^ e + m)) A i = inv_level (2 ^ e) m A i.
Proof.
  unfold lvl, P1_inverse, P2_inverse, CudaFftAlgebra.inv_level. rewrite pair_index_div by (pose proof (Nat.pow_nonzero 2 e); lia). rewrite (Nat.add_comm m).
  destruct (i mod (2 * 2 ^ e) <? 2 ^ e); [reflexivity|]. apply (Rmul_comm c_ring).
Qed.
Lemma code_direct_ok e m : e < n ->
  (forall k, disciplined ok T None k -> disciplined ok T None (a_level (2 ^ e) (code_direct (2 ^ e) m) ++ k)) /\
  (forall x, changed_only x (meaning addr_eqb T (a_level (2 ^ e) (code_direct (2 ^ e) m)) x) /\ holds (meaning addr_eqb T (a_level (2 ^ e) (code_direct (2 ^ e) m)) x) (dir_level (2 ^ e) m (view x))).
Proof.
  intros He. pose proof (Nat.pow_nonzero 2 e ltac:(lia)) as Hp.
  assert (Ht : forall t j, j < opt / 2 * T -> Forall (touches (pair_cells (2 ^ e) j) t) (code_direct (2 ^ e) m t j)).
  { intros t j _. unfold code_direct. rewrite first_index_pair. unfold butterfly. touch. }
  split; [intros k; apply a_level_disciplined; [exact He|exact Ht]|]. intros x.
  pose proof (a_level_meaning e He (code_direct (2 ^ e) m) (P1_direct (fun j => j / 2 ^ e + m)) (P2_direct (fun j => j / 2 ^ e + m)) Ht) as G.
  destruct (G ltac:(intros t j y Hj; unfold code_direct; rewrite first_index_pair; apply butterfly_effect; lia) x) as [G1 G2]. split; [exact G1|].
  intros i Hi. destruct (G2 i Hi) as [E1 E2]. rewrite lvl_direct in E1, E2. auto.
Qed.
Lemma code_inverse_ok e m : e < n ->
  (forall k, disciplined ok T None k -> disciplined ok T None (a_level (2 ^ e) (code_inverse (2 ^ e) m) ++ k)) /\
  (forall x, changed_only x (meaning addr_eqb T (a_level (2 ^ e) (code_inverse (2 ^ e) m)) x) /\ holds (meaning addr_eqb T (a_level (2 ^ e) (code_inverse (2 ^ e) m)) x) (inv_level (2 ^ e) m (view x))).
Proof.
  intros He. pose proof (Nat.pow_nonzero 2 e ltac:(lia)) as Hp.
  assert (Ht : forall t j, j < opt / 2 * T -> Forall (touches (pair_cells (2 ^ e) j) t) (code_inverse (2 ^ e) m t j)).
  { intros t j _. unfold code_inverse. rewrite first_index_pair. unfold butterfly_inverse. touch. }
  split; [intros k; apply a_level_disciplined; [exact He|exact Ht]|]. intros x.
  pose proof (a_level_meaning e He (code_inverse (2 ^ e) m) P1_inverse (P2_inverse (fun j => j / 2 ^ e + m)) Ht) as G.
  destruct (G ltac:(intros t j y Hj; unfold code_inverse; rewrite first_index_pair; apply butterfly_inverse_effect; lia) x) as [G1 G2]. split; [exact G1|].
  intros i Hi. destruct (G2 i Hi) as [E1 E2]. rewrite lvl_inverse in E1, E2. auto.
Qed.
Lemma code_first_ok :
  (forall k, disciplined ok T None k -> disciplined ok T None (a_level (2 ^ (n - 1)) code_first ++ k)) /\
  (forall x, changed_only x (meaning addr_eqb T (a_level (2 ^ (n - 1)) code_first) x) /\ holds (meaning addr_eqb T (a_level (2 ^ (n - 1)) code_first) x) (dir_level (2 ^ (n - 1)) 1 (view x))).
Proof.
  assert (He : n - 1 < n) by lia. destruct (half_count (n - 1) He) as [E1 E2]. replace (n - S (n - 1)) with 0 in E1, E2 by lia. rewrite Nat.pow_0_r, Nat.mul_1_r in E1, E2.
  pose proof (Nat.pow_nonzero 2 (n - 1) ltac:(lia)) as Hp.
  assert (Hh : H / 2 = 2 ^ (n - 1)) by (rewrite E2, Nat.mul_comm; apply Nat.div_mul; lia).
  assert (F : forall j, j < opt / 2 * T -> pair_first (2 ^ (n - 1)) j = j).
  { intros j Hj. rewrite E1 in Hj. unfold pair_first. rewrite Nat.div_small, Nat.mod_small by exact Hj. lia. }
  assert (Ht : forall t j, j < opt / 2 * T -> Forall (touches (pair_cells (2 ^ (n - 1)) j) t) (code_first t j)).
  { intros t j Hj. unfold code_first. rewrite Hh. unfold pair_cells. rewrite F by exact Hj. unfold butterfly1. touch. }
  split; [intros k; apply a_level_disciplined; [exact He|exact Ht]|]. intros x.
  pose proof (a_level_meaning (n - 1) He code_first (P1_direct (fun j => j / 2 ^ (n - 1) + 1)) (P2_direct (fun j => j / 2 ^ (n - 1) + 1)) Ht) as G.
  assert (G0 : changed_only x (meaning addr_eqb T (a_level (2 ^ (n - 1)) code_first) x) /\ holds (meaning addr_eqb T (a_level (2 ^ (n - 1)) code_first) x) (lvl (2 ^ (n - 1)) (P1_direct (fun j => j / 2 ^ (n - 1) + 1)) (P2_direct (fun j => j / 2 ^ (n - 1) + 1)) (view x))).
  { apply G. intros t j y Hj. cbv zeta. rewrite F by exact Hj. unfold code_first. rewrite Hh. unfold P1_direct, P2_direct. rewrite Nat.div_small by (rewrite E1 in Hj; exact Hj). cbn [Nat.add]. rewrite Hq. apply butterfly1_effect. lia. }
  destruct G0 as [G1 G2]. split; [exact G1|]. intros i Hi. destruct (G2 i Hi) as [F1 F2]. rewrite lvl_direct in F1, F2. auto.
Qed.
Lemma changed_only_trans a b c : changed_only a b -> changed_only b c -> changed_only a c.
Proof. intros H1 H2 d Hl Hd. rewrite H2, H1 by assumption. reflexivity. Qed.

Fixpoint a_direct_loop (fuel s m : nat) : list (aseg (A := addr) (V := val)) :=
  match fuel with O => [] | S fuel => if Nat.ltb 1 s then a_level (s / 2) (code_direct (s / 2) (m * 2)) ++ a_direct_loop fuel (s / 2) (m * 2) else [] end.
Fixpoint a_inverse_loop (fuel s m : nat) : list (aseg (A := addr) (V := val)) :=
  match fuel with O => [] | S fuel => if Nat.ltb 1 m then a_level s (code_inverse s (m / 2)) ++ a_inverse_loop fuel (s * 2) (m / 2) else [] end.
Lemma pow2_ltb a : (1 <? 2 ^ S a) = true /\ 2 ^ S a / 2 = 2 ^ a.
Proof. rewrite Nat.pow_succ_r'. pose proof (Nat.pow_nonzero 2 a ltac:(lia)). split; [apply Nat.ltb_lt; lia|]. rewrite Nat.mul_comm. apply Nat.div_mul. lia. Qed.
Lemma dir_level_view s m k x A : 0 < s -> H = k * (2 * s) -> holds x A -> forall i, i < H -> dir_level s m (view x) i = dir_level s m A i.
Proof. intros Hs E Hx i Hi. apply (dir_level_local cadd cmul csub w s m k); [exact Hs| |rewrite <- E; exact Hi]. intros j Hj. apply holds_view; [exact Hx|rewrite E; exact Hj]. Qed.
Lemma inv_level_view s m k x A : 0 < s -> H = k * (2 * s) -> holds x A -> forall i, i < H -> inv_level s m (view x) i = inv_level s m A i.
Proof. intros Hs E Hx i Hi. apply (inv_level_local cadd cmul csub (fun k => conj (w k)) s m k); [exact Hs| |rewrite <- E; exact Hi]. intros j Hj. apply holds_view; [exact Hx|rewrite E; exact Hj]. Qed.
Lemma holds_ext x A B : (forall i, i < H -> A i = B i) -> holds x A -> holds x B.
Proof. intros E Hx i Hi. rewrite <- E by exact Hi. apply Hx, Hi. Qed.
Lemma direct_loop_ok a : forall fuel, a <= fuel -> a < n ->
  disciplined ok T None (a_direct_loop fuel (2 ^ a) (2 ^ (n - 1 - a))) /\
  forall x A, holds x (dir (n - a) A) -> changed_only x (meaning addr_eqb T (a_direct_loop fuel (2 ^ a) (2 ^ (n - 1 - a))) x) /\ holds (meaning addr_eqb T (a_direct_loop fuel (2 ^ a) (2 ^ (n - 1 - a))) x) (dir n A).
Proof.
  induction a as [|a IH]; intros fuel Hf Ha.
  - rewrite Nat.sub_0_r. destruct fuel as [|fuel]; cbn [a_direct_loop Nat.pow Nat.ltb Nat.leb]; (split; [exact I|]); intros x A Hx; rewrite Nat.sub_0_r in Hx; (split; [intros c _ _; reflexivity|exact Hx]).
  - destruct fuel as [|fuel]; [lia|]. cbn [a_direct_loop]. destruct (pow2_ltb a) as [-> ->]. replace (2 ^ (n - 1 - S a) * 2) with (2 ^ (n - 1 - a)) by (replace (n - 1 - a) with (S (n - 1 - S a)) by lia; rewrite Nat.pow_succ_r'; lia).
    destruct (IH fuel ltac:(lia) ltac:(lia)) as [D M]. destruct (code_direct_ok a (2 ^ (n - 1 - a)) ltac:(lia)) as [D1 M1]. split; [apply D1, D|]. intros x A Hx. rewrite meaning_app.
    destruct (M1 x) as [C1 H1]. set (y := meaning addr_eqb T (a_level (2 ^ a) _) x) in *. assert (Hy : holds y (dir (n - a) A)).
    { replace (n - a) with (S (n - S a)) by lia. cbn [CudaFftAlgebra.dir]. replace (n - S (n - S a)) with a by lia. replace (n - 1 - a) with (n - S a) in H1 by lia.
      eapply holds_ext; [|exact H1]. intros i Hi. apply (dir_level_view _ _ (2 ^ (n - S a))); [pose proof (Nat.pow_nonzero 2 a); lia| |exact Hx|exact Hi].
      destruct (half_count a ltac:(lia)) as [_ E]. rewrite E at 1. lia. }
    destruct (M y A Hy) as [C2 H2]. split; [eapply changed_only_trans; eassumption|exact H2].
Qed.
Lemma inverse_loop_ok l : forall fuel, l <= fuel -> l <= n ->
  disciplined ok T None (a_inverse_loop fuel (2 ^ (n - l)) (2 ^ l)) /\
  forall x A, holds x A -> changed_only x (meaning addr_eqb T (a_inverse_loop fuel (2 ^ (n - l)) (2 ^ l)) x) /\ holds (meaning addr_eqb T (a_inverse_loop fuel (2 ^ (n - l)) (2 ^ l)) x) (inv l A).
Proof.
  induction l as [|l IH]; intros fuel Hf Hl.
  - destruct fuel as [|fuel]; cbn [a_inverse_loop Nat.pow Nat.ltb Nat.leb]; (split; [exact I|]); intros x A Hx; (split; [intros c _ _; reflexivity|exact Hx]).
  - destruct fuel as [|fuel]; [lia|]. cbn [a_inverse_loop]. destruct (pow2_ltb l) as [-> ->]. replace (2 ^ (n - S l) * 2) with (2 ^ (n - l)) by (replace (n - l) with (S (n - S l)) by lia; rewrite Nat.pow_succ_r'; lia).
    destruct (IH fuel ltac:(lia) ltac:(lia)) as [D M]. destruct (code_inverse_ok (n - S l) (2 ^ l) ltac:(lia)) as [D1 M1]. split; [apply D1, D|]. intros x A Hx. rewrite meaning_app.
    destruct (M1 x) as [C1 H1]. set (y := meaning addr_eqb T (a_level (2 ^ (n - S l)) _) x) in *. cbn [CudaFftAlgebra.inv].
    destruct (M y (inv_level (2 ^ (n - S l)) (2 ^ l) A)) as [C2 H2]; [|split; [eapply changed_only_trans; eassumption|exact H2]].
    eapply holds_ext; [|exact H1]. intros i Hi. apply (inv_level_view _ _ (2 ^ (n - S (n - S l)))); [pose proof (Nat.pow_nonzero 2 (n - S l)); lia| |exact Hx|exact Hi].
    destruct (half_count (n - S l) ltac:(lia)) as [_ E]. rewrite E at 1. lia.
Qed.
Lemma pow2_ge l : l <= 2 ^ l.
Proof. induction l as [|l IH]; [cbn; lia|]. rewrite Nat.pow_succ_r'. pose proof (Nat.pow_nonzero 2 l). lia. Qed.

Definition a_direct := a_level (2 ^ (n - 1)) code_first ++ a_direct_loop H (2 ^ (n - 1)) 1.
Lemma H_half : H / 2 = 2 ^ (n - 1).
Proof. rewrite Hn. replace n with (S (n - 1)) at 1 by lia. rewrite Nat.pow_succ_r', Nat.mul_comm. apply Nat.div_mul. lia. Qed.
Lemma erase_direct : map erase a_direct = NSMFFT_direct rO radd rmul rsub w q buf off H opt.
Proof.
  assert (G : forall fuel s m, map erase (a_direct_loop fuel s m) = direct_loop rO radd rmul rsub w buf off H opt fuel s m).
  { induction fuel as [|fuel IH]; intros s m; [reflexivity|]. cbn [a_direct_loop direct_loop]. destruct (1 <? s); [|reflexivity]. rewrite map_app, IH. unfold direct_level. rewrite threads. reflexivity. }
  unfold a_direct, NSMFFT_direct. rewrite map_app, G. unfold direct_first. rewrite threads. cbn [a_level map erase]. unfold code_first. rewrite H_half. reflexivity.
Qed.
Theorem direct_ok : disciplined ok T None a_direct /\
  forall x, changed_only x (meaning addr_eqb T a_direct x) /\ holds (meaning addr_eqb T a_direct x) (dir n (view x)).
Proof.
  destruct code_first_ok as [D1 M1]. destruct (direct_loop_ok (n - 1) H ltac:(pose proof (pow2_ge n); lia) ltac:(lia)) as [D M]. replace (n - 1 - (n - 1)) with 0 in * by lia. rewrite Nat.pow_0_r in *.
  unfold a_direct. split; [apply D1, D|]. intros x. rewrite meaning_app. destruct (M1 x) as [C1 H1]. set (y := meaning addr_eqb T (a_level (2 ^ (n - 1)) code_first) x) in *.
  destruct (M y (view x)) as [C2 H2]; [|split; [eapply changed_only_trans; eassumption|exact H2]].
  replace (n - (n - 1)) with 1 by lia. cbn [CudaFftAlgebra.dir]. replace (n - 1) with (n - 1) by lia. exact H1.
Qed.

Definition code_scale (t tid : nat) : list gop :=
  [load rO t 4 (Xc tid); store2 rO t (Xc tid) 4 4 (fun x _ => rmul x h); load rO t 4 (Yc tid); store2 rO t (Yc tid) 4 4 (fun x _ => rmul x h)].
Definition a_inverse := [APar (own_by (fun i => i)) (strided T opt code_scale); ABar] ++ a_inverse_loop H 1 H.
Lemma erase_inverse : map erase a_inverse = NSMFFT_inverse rO radd rmul rsub w h buf off H opt.
Proof.
  assert (G : forall fuel s m, map erase (a_inverse_loop fuel s m) = inverse_loop rO radd rmul rsub w buf off H opt fuel s m).
  { induction fuel as [|fuel IH]; intros s m; [reflexivity|]. cbn [a_inverse_loop inverse_loop]. destruct (1 <? m); [|reflexivity]. rewrite map_app, IH. unfold inverse_level. rewrite threads. reflexivity. }
  unfold a_inverse, NSMFFT_inverse. rewrite map_app, G. unfold inverse_scale. rewrite threads. reflexivity.
Qed.
Theorem inverse_ok : disciplined ok T None a_inverse /\
  forall x, changed_only x (meaning addr_eqb T a_inverse x) /\ holds (meaning addr_eqb T a_inverse x) (inv n (fun i => cmul (h, rO) (view x i))).
Proof.
  destruct (inverse_loop_ok n H ltac:(pose proof (pow2_ge n); lia) ltac:(lia)) as [D M]. rewrite Nat.sub_diag, Nat.pow_0_r, <- Hn in *.
  assert (Ht : forall t j, j < H -> Forall (touches [Xc j; Yc j] t) (code_scale t j)) by (intros t j _; unfold code_scale; touch).
  assert (Hf : forall t j m, j < H -> solo (code_scale t j) m (Xc j) = Db (fst (cmul (h, rO) (view m j))) /\ solo (code_scale t j) m (Yc j) = Db (snd (cmul (h, rO) (view m j)))).
  { intros t j m _. unfold code_scale, view, cmul. unfold_ops. cbn [fst snd]. steps. change (CudaBlockProofs.solo addr_eqb [] ?x) with x.
    split; repeat (look1 (Nat.eqb_refl j) (Nat.eqb_refl j)); apply f_equal; ring. }
  assert (Hd : forall j (m m' : mem), j < H -> m (Xc j) = m' (Xc j) -> m (Yc j) = m' (Yc j) -> (forall c, is_local c = false -> (forall f, item_of f c = None) -> m c = m' c) -> cmul (h, rO) (view m j) = cmul (h, rO) (view m' j)).
  { intros j m m' _ E1 E2 _. unfold view. rewrite E1, E2. reflexivity. }
  unfold a_inverse. split.
  - cbn [app disciplined]. split; [exact I|]. split; [|exact D]. apply (pointwise_respects opt code_scale Hopt Ht).
  - intros x. rewrite meaning_app. unfold meaning at 2 4. cbn [fold_left]. set (y := CudaBlockProofs.par addr_eqb T _ _ x).
    pose proof (pointwise_meaning opt code_scale Hopt Ht (fun j m => cmul (h, rO) (view m j)) Hf Hd x) as G. fold y in G.
    destruct (M y (fun i => cmul (h, rO) (view x i))) as [C2 H2].
    + intros i Hi. rewrite !G by reflexivity. unfold X, Y. rewrite in_buffer_cell by exact Hi. replace (off + i - off) with i by lia. split; reflexivity.
    + split; [|exact H2]. eapply changed_only_trans; [|exact C2]. intros c Hl Hi. rewrite G by exact Hl. destruct c as [b i|b i im|t r]; try reflexivity. cbn [item_of] in Hi. destruct (in_buffer b i); [discriminate|reflexivity].
Qed.
End Buffer.
End Fft.
