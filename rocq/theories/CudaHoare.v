(** * Reasoning about kernels of several phases: parts that write element by element, sequences and loops *)
From Verif Require Import Base CudaBlockModel CudaBlockProofs CudaFftModel CudaFftProofs.
Local Open Scope nat_scope.

Section Hoare.
Context {R : Type} (ok : addr -> bool) (T : nat).
Hypothesis (HT : 0 < T) (Hloc : forall t r, ok (Loc t r) = true).
Notation val := (val R).
Notation gop := (gop addr val).
Notation mem := (mem addr val).
Notation seg := (seg addr val).
Notation solo := (solo (V := val) addr_eqb).
Notation par := (par (V := val) addr_eqb).

(** ** Owners by the index of the element, for some of the buffers *)
Definition own_bufs (base : nat -> nat) (ob : nat -> bool) : owners (A := addr) := fun c =>
  match c with Loc t _ => Some t | Word b i | Dbl b i _ => if ob b then Some ((i - base b) mod T) else None end.
(** Variables whose value is not used after a barrier *)
Definition temp (c : addr) : bool := match c with Loc _ r => r <? 10 | _ => false end.
Definition tch (own : owners (A := addr)) (cs : list addr) (t : nat) (o : gop) : Prop :=
  match o with GSync => False
  | GOp rs c _ => ((exists q, q < 10 /\ c = Loc t q) \/ In c cs) /\ Forall (fun a => (exists q, q < 10 /\ a = Loc t q) \/ In a cs \/ (ok a = true /\ own a = None)) rs
  end.

Section Phase.
Context (own : owners (A := addr)) (count : nat) (code : nat -> nat -> list gop) (cells : nat -> list addr) (F : nat -> mem -> addr -> val).
Hypothesis (Hvar : forall t r, own (Loc t r) = Some t)
  (Hcells : forall j c, j < count * T -> In c (cells j) -> ok c = true /\ temp c = false /\ own c = Some (j mod T))
  (Hdisj : forall j j' c, j < count * T -> j' < count * T -> In c (cells j) -> In c (cells j') -> j = j')
  (Htouch : forall t j, t < T -> j < count * T -> j mod T = t -> Forall (tch own (cells j) t) (code t j)).
Lemma phase_respects : respects ok own T (strided T count code).
Proof.
  intros t Ht. unfold strided. rewrite Forall_flat_map. apply Forall_forall. intros i Hi%in_seq.
  assert (Hj : t + i * T < count * T) by (clear - Hi Ht; nia). assert (Hm : (t + i * T) mod T = t) by (rewrite Nat.mod_add by lia; apply Nat.mod_small, Ht).
  eapply Forall_impl; [|apply (Htouch t (t + i * T) Ht Hj Hm)]. intros [|rs c f]; [auto|]. cbn [tch acc_ok]. intros [F1 F2].
  assert (G : forall a, (exists q, q < 10 /\ a = Loc t q) \/ In a (cells (t + i * T)) -> own a = Some t /\ ok a = true).
  { intros a [(q & _ & ->)|Ha]; [auto|]. destruct (Hcells _ _ Hj Ha) as (E1 & _ & E2). rewrite Hm in E2. auto. }
  destruct (G c F1). split; [assumption|]. split; [assumption|]. eapply Forall_impl; [|exact F2]. cbv beta. intros a [Ha|[Ha|[Ha1 Ha2]]]; [|destruct (G a (or_intror Ha)); auto|auto].
  destruct (G a (or_introl Ha)). auto.
Qed.
Hypothesis (Heff : forall t j m c, t < T -> j < count * T -> j mod T = t -> In c (cells j) -> solo (code t j) m c = F j m c)
  (Hdep : forall j m m' c, j < count * T -> In c (cells j) -> (forall d, temp d = false -> In d (cells j) \/ own d = None -> m d = m' d) -> F j m c = F j m' c).
Definition item (c : addr) : option nat := find (fun j => existsb (addr_eqb c) (cells j)) (seq 0 (count * T)).
Lemma existsb_cells c j : existsb (addr_eqb c) (cells j) = true <-> In c (cells j).
Proof. rewrite existsb_exists. split; [intros (x & Hx & E%addr_eqb_eq); subst; exact Hx|]. intros Hc. exists c. split; [exact Hc|apply addr_eqb_eq; reflexivity]. Qed.
Lemma item_some c j : item c = Some j <-> j < count * T /\ In c (cells j).
Proof.
  unfold item. split.
  - intros E. apply find_some in E. destruct E as [E1 E2]. apply in_seq in E1. apply existsb_cells in E2. split; [lia|exact E2].
  - intros [Hj Hc]. destruct (find _ _) as [i|] eqn:E.
    + apply find_some in E. destruct E as [E1 E2]. apply in_seq in E1. apply existsb_cells in E2. f_equal. apply (Hdisj i j c); [lia|exact Hj|exact E2|exact Hc].
    + exfalso. pose proof (find_none _ _ E j ltac:(apply in_seq; lia)) as N. cbv beta in N. apply existsb_cells in Hc. rewrite Hc in N. discriminate.
Qed.
Lemma item_none c : item c = None <-> forall j, j < count * T -> ~ In c (cells j).
Proof.
  split.
  - intros E j Hj Hc. rewrite (proj2 (item_some c j) (Logic.conj Hj Hc)) in E. discriminate.
  - intros N. destruct (item c) as [j|] eqn:E; [|reflexivity]. apply item_some in E. destruct E as [Hj Hc]. exfalso. exact (N j Hj Hc).
Qed.
Lemma phase_value m c : temp c = false -> par T own (strided T count code) m c = match item c with Some j => F j m c | None => m c end.
Proof.
  intros Hl.
  assert (E : par T own (strided T count code) m c = par T own (strided T count (fun _ j => code (j mod T) j)) m c).
  { unfold CudaBlockProofs.par. destruct (own c) as [t|]; [|reflexivity]. destruct (Nat.ltb_spec t T) as [Ht|Ht]; [|reflexivity]. f_equal. unfold strided. apply flat_map_ext. intros i. rewrite Nat.mod_add by lia. rewrite Nat.mod_small by exact Ht. reflexivity. }
  rewrite E. clear E.
  rewrite (par_items addr_eqb ok addr_eqb_eq own T count _ temp item F HT).
  - destruct (item c) as [j|] eqn:E; [|reflexivity]. apply item_some in E. destruct (Nat.ltb_spec j (count * T)); [reflexivity|lia].
  - intros d j Hd Hi Hj. apply item_some in Hi. apply (Hcells j d); tauto.
  - clear m c Hl. intros _ m j c Hj Hl Hi. apply item_some in Hi. apply Heff; try tauto. apply Nat.mod_upper_bound. lia.
  - clear m c Hl. intros _ m j c Hj Hl Hi. apply solo_unwritten. intros o Ho. pose proof (Htouch (j mod T) j ltac:(apply Nat.mod_upper_bound; lia) Hj eq_refl) as Ht. rewrite Forall_forall in Ht. specialize (Ht o Ho).
    destruct o as [|rs d f]; [discriminate|]. cbn [dest]. intros E. injection E as ->. cbn [tch] in Ht. destruct Ht as [[(q & Hq & ->)|Hc] _].
    + cbn [temp] in Hl. apply Nat.ltb_ge in Hl. lia.
    + apply Hi. apply item_some. auto.
  - clear m c Hl. intros j m m' Hj E c Hi. apply item_some in Hi. apply Hdep; [exact Hj|tauto|]. intros d Hd Hc. apply E; [exact Hd|]. destruct Hc as [Hc|Hc]; [left; apply item_some; auto|].
    destruct (item d) as [i|] eqn:Ei; [|auto]. apply item_some in Ei. destruct Ei as [Hi1 Hi2]. destruct (Hcells i d Hi1 Hi2) as (_ & _ & Eo). rewrite Hc in Eo. discriminate.
  - intros d j Hd Hi Hj. apply item_some in Hi. lia.
  - exact Hl.
Qed.
Lemma phase_in m j c : j < count * T -> In c (cells j) -> par T own (strided T count code) m c = F j m c.
Proof. intros Hj Hc. rewrite phase_value by apply (Hcells j c Hj Hc). rewrite (proj2 (item_some c j) (Logic.conj Hj Hc)). reflexivity. Qed.
Lemma phase_out m c : temp c = false -> (forall j, j < count * T -> ~ In c (cells j)) -> par T own (strided T count code) m c = m c.
Proof. intros Hl N. rewrite phase_value by exact Hl. rewrite (proj2 (item_none c) N). reflexivity. Qed.
End Phase.

(** ** Triples: a part of a kernel, the owners before and after it, the buffers it changes, and what holds before and after *)
Definition buf_of (c : addr) : nat := match c with Word b _ | Dbl b _ _ => b | Loc _ _ => 0 end.
Definition keeps (bs : list nat) (m m' : mem) : Prop := forall c, is_local c = false -> ~ In (buf_of c) bs -> m' c = m c.
Definition stable (bs : list nat) (P : mem -> Prop) : Prop := forall m m', keeps bs m m' -> P m -> P m'.
Definition triple (cur : option (owners (A := addr))) (k : list seg) (nxt : option (owners (A := addr))) (bs : list nat) (P Q : mem -> Prop) : Prop :=
  exists a, map erase a = k /\ (forall rest, disciplined ok T nxt rest -> disciplined ok T cur (a ++ rest)) /\
    forall m, keeps bs m (meaning addr_eqb T a m) /\ (P m -> Q (meaning addr_eqb T a m)).

Lemma keeps_refl bs m : keeps bs m m.
Proof. intros c _ _. reflexivity. Qed.
Lemma keeps_trans bs m1 m2 m3 : keeps bs m1 m2 -> keeps bs m2 m3 -> keeps bs m1 m3.
Proof. intros H1 H2 c Hl Hc. rewrite H2, H1 by assumption. reflexivity. Qed.
Lemma keeps_weaken bs bs' m m' : incl bs bs' -> keeps bs m m' -> keeps bs' m m'.
Proof. intros Hi H c Hl Hc. apply H; [exact Hl|]. intros Hb. apply Hc, Hi, Hb. Qed.
Lemma disciplined_none (o : option (owners (A := addr))) (k : list (aseg (A := addr) (V := val))) : disciplined ok T o k -> disciplined ok T None k.
Proof. destruct k as [|[|own f] k]; cbn [disciplined]; tauto. Qed.

Lemma triple_nil cur bs P : triple cur [] cur bs P P.
Proof. exists []. split; [reflexivity|]. split; [auto|]. intros m. split; [apply keeps_refl|auto]. Qed.
Lemma triple_seq cur k1 mid k2 nxt bs P Q S : triple cur k1 mid bs P Q -> triple mid k2 nxt bs Q S -> triple cur (k1 ++ k2) nxt bs P S.
Proof.
  intros (a1 & E1 & D1 & M1) (a2 & E2 & D2 & M2). exists (a1 ++ a2). split; [rewrite map_app, E1, E2; reflexivity|]. split.
  - intros rest Hr. rewrite <- app_assoc. apply D1, D2, Hr.
  - intros m. rewrite meaning_app. destruct (M1 m) as [K1 H1]. destruct (M2 (meaning addr_eqb T a1 m)) as [K2 H2]. split; [eapply keeps_trans; eassumption|auto].
Qed.
Lemma triple_weaken cur k nxt bs bs' (P P' Q Q' : mem -> Prop) : triple cur k nxt bs P Q -> incl bs bs' -> (forall m, P' m -> P m) -> (forall m, Q m -> Q' m) -> triple cur k nxt bs' P' Q'.
Proof. intros (a & E & D & M) Hi Hp Hq. exists a. split; [exact E|]. split; [exact D|]. intros m. destruct (M m) as [K H]. split; [eapply keeps_weaken; eassumption|auto]. Qed.
Lemma triple_frame cur k nxt bs P Q G : stable bs G -> triple cur k nxt bs P Q -> triple cur k nxt bs (fun m => P m /\ G m) (fun m => Q m /\ G m).
Proof. intros Hs (a & E & D & M). exists a. split; [exact E|]. split; [exact D|]. intros m. destruct (M m) as [K H]. split; [exact K|]. intros [Hp Hg]. split; [auto|]. exact (Hs _ _ K Hg). Qed.
Lemma triple_start cur k nxt bs P Q : triple cur k nxt bs P Q -> triple None k nxt bs P Q.
Proof. intros (a & E & D & M). exists a. split; [exact E|]. split; [|exact M]. intros rest Hr. eapply disciplined_none, D, Hr. Qed.
Lemma triple_end cur k nxt bs P Q : triple cur k None bs P Q -> triple cur k nxt bs P Q.
Proof. intros (a & E & D & M). exists a. split; [exact E|]. split; [|exact M]. intros rest Hr. apply D. eapply disciplined_none, Hr. Qed.
Lemma triple_bar cur bs P : triple cur [Bar] None bs P P.
Proof. exists [ABar]. split; [reflexivity|]. split; [intros rest Hr; exact Hr|]. intros m. split; [apply keeps_refl|auto]. Qed.
Lemma triple_cons cur s mid k nxt bs P Q S : triple cur [s] mid bs P Q -> triple mid k nxt bs Q S -> triple cur (s :: k) nxt bs P S.
Proof. intros H1 H2. exact (triple_seq cur [s] mid k nxt bs P Q S H1 H2). Qed.
Lemma triple_bar_cons cur k nxt bs P Q : triple None k nxt bs P Q -> triple cur (Bar :: k) nxt bs P Q.
Proof. intros H1. exact (triple_cons cur Bar None k nxt bs P P Q (triple_bar cur bs P) H1). Qed.
Lemma triple_with cur k nxt bs bs' P Q G : triple cur k nxt bs' P Q -> incl bs' bs -> stable bs' G -> triple cur k nxt bs (fun m => P m /\ G m) (fun m => Q m /\ G m).
Proof. intros H1 Hi Hs. eapply triple_weaken; [apply triple_frame; [exact Hs|exact H1]|exact Hi|auto|auto]. Qed.
Lemma triple_loop {B} cur bs (f : B -> list seg) (Inv : nat -> mem -> Prop) (g : nat -> B) n a :
  (forall i, i < n -> triple cur (f (g (a + i))) cur bs (Inv i) (Inv (S i))) -> triple cur (flat_map f (map g (seq a n))) cur bs (Inv 0) (Inv n).
Proof.
  clear HT Hloc. revert a Inv. induction n as [|n IH]; intros a Inv Hf; [apply triple_nil|]. cbn [seq map flat_map]. apply triple_seq with cur (Inv 1).
  - rewrite <- (Nat.add_0_r a) at 1. apply Hf. lia.
  - apply (IH (S a) (fun i => Inv (S i))). intros i Hi. replace (S a + i) with (a + S i) by lia. apply Hf. lia.
Qed.
Lemma triple_parts cur bs (f : nat -> seg) (Inv : nat -> mem -> Prop) n :
  (forall i, i < n -> triple cur [f i] cur bs (Inv i) (Inv (S i))) -> triple cur (map f (seq 0 n)) cur bs (Inv 0) (Inv n).
Proof.
  clear HT Hloc. intros Hf. replace (map f (seq 0 n)) with (flat_map (fun i => [f i]) (map (fun i => i) (seq 0 n))).
  - apply triple_loop. intros i Hi. rewrite Nat.add_0_l. apply Hf, Hi.
  - rewrite map_id. induction (seq 0 n) as [|x l IH]; [reflexivity|]. cbn [flat_map map app]. rewrite IH. reflexivity.
Qed.

(** A part that writes element by element *)
Lemma triple_phase own count code cells F bs (P Q : mem -> Prop) :
  (forall t r, own (Loc t r) = Some t) ->
  (forall j c, j < count * T -> In c (cells j) -> ok c = true /\ temp c = false /\ own c = Some (j mod T)) ->
  (forall j j' c, j < count * T -> j' < count * T -> In c (cells j) -> In c (cells j') -> j = j') ->
  (forall t j, t < T -> j < count * T -> j mod T = t -> Forall (tch own (cells j) t) (code t j)) ->
  (forall t j m c, t < T -> j < count * T -> j mod T = t -> In c (cells j) -> solo (code t j) m c = F j m c) ->
  (forall j m m' c, j < count * T -> In c (cells j) -> (forall d, temp d = false -> In d (cells j) \/ own d = None -> m d = m' d) -> F j m c = F j m' c) ->
  (forall j c, j < count * T -> In c (cells j) -> is_local c = false -> In (buf_of c) bs) ->
  (forall m m', (forall j c, j < count * T -> In c (cells j) -> m' c = F j m c) -> (forall c, temp c = false -> (forall j, j < count * T -> ~ In c (cells j)) -> m' c = m c) -> P m -> Q m') ->
  triple (Some own) [Par (strided T count code)] (Some own) bs P Q.
Proof.
  intros H1 H2 H3 H4 H5 H6 H7 H8. exists [APar own (strided T count code)]. split; [reflexivity|]. split.
  - intros rest Hr. cbn [app disciplined]. split; [reflexivity|]. split; [|exact Hr]. refine (phase_respects own count code cells F _ _ _ _); assumption.
  - intros m. unfold meaning. cbn [fold_left].
    assert (O : forall c, temp c = false -> (forall j, j < count * T -> ~ In c (cells j)) -> par T own (strided T count code) m c = m c) by (refine (phase_out own count code cells F _ _ _ _ _ _ m); assumption).
    split.
    + intros c Hl Hc. apply O; [destruct c; [reflexivity|reflexivity|discriminate]|]. intros j Hj Hin. apply Hc. exact (H7 j c Hj Hin Hl).
    + apply H8; [|exact O]. refine (phase_in own count code cells F _ _ _ _ _ _ m); assumption.
Qed.
Lemma triple_launch k nxt bs P Q choices m : triple None k nxt bs P Q -> P m ->
  exists m', launch addr_eqb ok T k choices m = Ret m' /\ keeps bs m m' /\ (stable [] Q -> Q m').
Proof.
  intros (a & E & D & M) Hp. destruct (launch_ok addr_eqb ok addr_eqb_eq T a choices m HT) as (m' & El & Hm).
  { rewrite <- (app_nil_r a). apply D. exact I. }
  rewrite E in El. exists m'. split; [exact El|]. destruct (M m) as [K H]. split.
  - intros c Hl Hc. rewrite Hm. apply K; assumption.
  - intros Hs. apply (Hs (meaning addr_eqb T a m)); [|auto]. intros c _ _. apply Hm.
Qed.
End Hoare.
