(** * C56: the cache of FFT plans under every interleaving *)
From Verif Require Import Base PlanCacheModel.

(** ** What a schedule can lead to *)
Definition reachable (programs : list (list nat)) (S : system) : Prop := exists schedule, S = run schedule (start programs).
(** The calls that have ended, of all threads *)
Definition ended (S : system) : list (nat * result) := concat (map results (threads S)).

(** ** The invariant *)
Definition cell_at (s : shared) (c : nat) : cell := nth c (cells s) Busy.
Definition point_ok (s : shared) (q : point) (g : guard) : Prop :=
  match q with
  | Idle | WantWrite _ => g = NoGuard
  | HasWrite _ => g = WriteGuard
  | Inserted n => g = WriteGuard /\ exists c, entries s n = Some c
  | WantRead n => g = NoGuard /\ exists c, entries s n = Some c
  | HasRead n => g = ReadGuard /\ exists c, entries s n = Some c
  | Looked n o => g = ReadGuard /\ exists c, o = Some c /\ entries s n = Some c
  | GetOrInit n c => g = NoGuard /\ entries s n = Some c
  | Creating n c => g = NoGuard /\ entries s n = Some c /\ cell_at s c = Busy
  end.
Definition result_ok (s : shared) (r : nat * result) : Prop :=
  match snd r with
  | Got v => exists c, entries s (fst r) = Some c /\ cell_at s c = Ready v
  | CreationPanicked => True
  | PoisonedLock | NoSuchEntry => False
  end.
Definition thread_ok (s : shared) (t : thread) : Prop := point_ok s (at_point t) (holds t) /\ Forall (result_ok s) (results t).
Record memory_ok (s : shared) : Prop := {
  mo_range : forall n c, entries s n = Some c -> (c < length (cells s))%nat;
  mo_inj : forall n m c, entries s n = Some c -> entries s m = Some c -> n = m;
  mo_poison : poisoned s = false;
  mo_created : forall n v, In (n, v) (created s) <-> exists c, entries s n = Some c /\ cell_at s c = Ready v;
  mo_sizes : forall n v, In (n, v) (created s) -> fp_size v = (n / 2)%nat;
  mo_once : NoDup (map fst (created s)) }.
(** A busy cell is being filled by exactly one thread; a write guard excludes all other guards. *)
Definition creator (ts : list thread) (c i : nat) : Prop := exists t n, nth_error ts i = Some t /\ at_point t = Creating n c.
Record system_ok (S : system) : Prop := {
  so_memory : memory_ok (memory S);
  so_threads : Forall (thread_ok (memory S)) (threads S);
  so_busy : forall n c, entries (memory S) n = Some c -> cell_at (memory S) c = Busy -> exists i, creator (threads S) c i;
  so_single : forall c i j, creator (threads S) c i -> creator (threads S) c j -> i = j;
  so_write : forall i j t u, nth_error (threads S) i = Some t -> nth_error (threads S) j = Some u -> holds t = WriteGuard -> i <> j -> holds u = NoGuard }.

(** ** List facts *)
Definition replace {A} (i : nat) (x : A) (l : list A) : list A := firstn i l ++ x :: skipn (i + 1) l.
Lemma replace_at {A} i (x : A) l : (i < length l)%nat -> nth_error (replace i x l) i = Some x.
Proof. intros H. unfold replace. rewrite nth_error_app2; rewrite firstn_length_le by lia; [|lia]. rewrite Nat.sub_diag. reflexivity. Qed.
Lemma replace_other {A} i j (x : A) l : i <> j -> (i < length l)%nat -> nth_error (replace i x l) j = nth_error l j.
Proof.
  intros Hij H. unfold replace. destruct (Nat.lt_ge_cases j i) as [L|L].
  - rewrite nth_error_app1 by (rewrite firstn_length_le; lia). rewrite <- (firstn_skipn i l) at 2. rewrite nth_error_app1 by (rewrite firstn_length_le; lia). reflexivity.
  - rewrite nth_error_app2; rewrite firstn_length_le by lia; [|lia]. replace (j - i)%nat with (S (j - (i + 1)))%nat by lia. cbn [nth_error].
    rewrite <- (firstn_skipn (i + 1) l) at 2. rewrite nth_error_app2; rewrite firstn_length_le by lia; [|lia]. reflexivity.
Qed.
Lemma replace_length {A} i (x : A) l : (i < length l)%nat -> length (replace i x l) = length l.
Proof. intros H. unfold replace. rewrite app_length. cbn [length]. rewrite firstn_length_le, skipn_length by lia. lia. Qed.
Lemma others_In {A} i (l : list A) x : In x (firstn i l ++ skipn (i + 1) l) <-> exists j, j <> i /\ nth_error l j = Some x.
Proof.
  rewrite in_app_iff. split.
  - intros [H|H]; apply In_nth_error in H; destruct H as [j Hj].
    + assert (L : (j < length (firstn i l))%nat) by (apply nth_error_Some; congruence). rewrite firstn_length in L. exists j. split; [lia|].
      rewrite <- (firstn_skipn i l). rewrite nth_error_app1 by (rewrite firstn_length; lia). exact Hj.
    + exists (i + 1 + j)%nat. split; [lia|]. assert (L : (j < length (skipn (i + 1) l))%nat) by (apply nth_error_Some; congruence). rewrite skipn_length in L.
      rewrite <- (firstn_skipn (i + 1) l). rewrite nth_error_app2; rewrite firstn_length_le by lia; [|lia]. replace (i + 1 + j - (i + 1))%nat with j by lia. exact Hj.
  - intros (j & Hj & E). assert (L : (j < length l)%nat) by (apply nth_error_Some; congruence). destruct (Nat.lt_ge_cases j i) as [K|K].
    + left. rewrite <- (firstn_skipn i l) in E. rewrite nth_error_app1 in E by (rewrite firstn_length; lia). eapply nth_error_In, E.
    + right. rewrite <- (firstn_skipn (i + 1) l) in E. rewrite nth_error_app2 in E; rewrite firstn_length_le in * by lia; [|lia]. eapply nth_error_In, E.
Qed.
Lemma NoDup_app_snoc {A} (l : list A) x : NoDup l -> ~ In x l -> NoDup (l ++ [x]).
Proof.
  intros H Hx. induction H as [|y l Hy H IH]; [repeat constructor; intros []|]. cbn [app]. constructor.
  - rewrite in_app_iff. cbn [In]. intros [K|[K|[]]]; [exact (Hy K)|]. apply Hx. left. congruence.
  - apply IH. intros K. apply Hx. right. exact K.
Qed.
Lemma cell_set s c v c' : (c < length (cells s))%nat -> cell_at (set_cell s c v) c' = if Nat.eqb c' c then v else cell_at s c'.
Proof.
  intros H. unfold cell_at, set_cell. cbn [cells]. pose proof (replace_length c v (cells s) H) as L. unfold replace in L. replace (S c) with (c + 1)%nat by lia. fold (replace c v (cells s)) in *.
  destruct (Nat.eqb_spec c' c) as [->|Hne].
  - apply nth_error_nth, replace_at, H.
  - destruct (nth_error (cells s) c') as [x|] eqn:E.
    + rewrite (nth_error_nth _ _ _ E). apply nth_error_nth. rewrite replace_other by (try lia; assumption). exact E.
    + apply nth_error_None in E. rewrite !nth_overflow by lia. reflexivity.
Qed.

Lemma set_cell_length s c v : (c < length (cells s))%nat -> length (cells (set_cell s c v)) = length (cells s).
Proof. intros H. unfold set_cell. cbn [cells]. replace (S c) with (c + 1)%nat by lia. apply (replace_length c v (cells s) H). Qed.

(** ** Preservation *)
(** What a step may change in memory as far as the other threads see it *)
Definition grows (s s' : shared) : Prop :=
  (forall n c, entries s n = Some c -> entries s' n = Some c) /\
  (forall n c v, entries s n = Some c -> cell_at s c = Ready v -> cell_at s' c = Ready v).
Lemma result_grows s s' r : grows s s' -> result_ok s r -> result_ok s' r.
Proof. intros [G1 G2]. unfold result_ok. destruct (snd r); try tauto. intros (c & E1 & E2). exists c. split; [apply G1, E1|eapply G2; eassumption]. Qed.
Lemma other_ok s s' t : grows s s' -> (forall n c, at_point t = Creating n c -> cell_at s c = Busy -> cell_at s' c = Busy) -> thread_ok s t -> thread_ok s' t.
Proof.
  intros G HB [P Q]. split; [|eapply Forall_impl; [|exact Q]; intros r; apply result_grows, G]. destruct G as [G1 G2]. unfold point_ok in *.
  destruct (at_point t) as [|n|n|n|n|n|n o|n c|n c] eqn:E; try exact P.
  - destruct P as [P (c & Ec)]. split; [exact P|]. exists c. apply G1, Ec.
  - destruct P as [P (c & Ec)]. split; [exact P|]. exists c. apply G1, Ec.
  - destruct P as [P (c & Ec)]. split; [exact P|]. exists c. apply G1, Ec.
  - destruct P as [P (c & Eo & Ec)]. split; [exact P|]. exists c. split; [exact Eo|apply G1, Ec].
  - destruct P as [P Ec]. split; [exact P|apply G1, Ec].
  - destruct P as [P [Ec B]]. split; [exact P|]. split; [apply G1, Ec|eapply HB; eauto].
Qed.

Section step.
Context (S0 : system) (i : nat) (HS : system_ok S0).
Notation s := (memory S0).

(** The common part: thread [i] becomes [t'] and the memory becomes [s']. *)
Lemma preserved t s' t' : nth_error (threads S0) i = Some t ->
  memory_ok s' -> grows s s' -> thread_ok s' t' ->
  (forall j u n c, j <> i -> nth_error (threads S0) j = Some u -> at_point u = Creating n c -> cell_at s c = Busy -> cell_at s' c = Busy) ->
  (forall n c, entries s' n = Some c -> cell_at s' c = Busy -> (exists m, at_point t' = Creating m c) \/ (entries s n = Some c /\ cell_at s c = Busy /\ forall m, at_point t <> Creating m c)) ->
  (forall m c, at_point t' = Creating m c -> forall j, j <> i -> ~ creator (threads S0) c j) ->
  (holds t' = WriteGuard -> holds t = WriteGuard \/ forall j u, j <> i -> nth_error (threads S0) j = Some u -> holds u = NoGuard) ->
  (holds t' <> NoGuard -> holds t <> NoGuard \/ forall j u, j <> i -> nth_error (threads S0) j = Some u -> holds u <> WriteGuard) ->
  system_ok (System s' (replace i t' (threads S0))).
Proof.
  intros Et HM HG HT Hoth Hbusy Hsingle Hwr Hgd. destruct HS as [M0 T0 B0 C0 W0]. assert (Li : (i < length (threads S0))%nat) by (apply nth_error_Some; congruence).
  constructor; cbn [memory threads].
  - exact HM.
  - apply Forall_forall. intros u Hu. apply In_nth_error in Hu. destruct Hu as [j Hj]. destruct (Nat.eq_dec i j) as [<-|Hne].
    + rewrite replace_at in Hj by exact Li. congruence.
    + rewrite replace_other in Hj by assumption. rewrite Forall_forall in T0. apply (other_ok s); [exact HG| |apply T0; eapply nth_error_In, Hj].
      intros n c. eapply Hoth; [|exact Hj]. congruence.
  - intros n c En Ec. destruct (Hbusy n c En Ec) as [(m & Em)|(E1 & E2 & E3)].
    + exists i, t', m. split; [apply replace_at, Li|exact Em].
    + destruct (B0 n c E1 E2) as (j & u & m & Hj & Hm). exists j, u, m. split; [|exact Hm]. rewrite replace_other; [exact Hj| |exact Li]. intros ->. apply (E3 m). congruence.
  - assert (K : forall c j, creator (replace i t' (threads S0)) c j -> (j = i /\ exists m, at_point t' = Creating m c) \/ (j <> i /\ creator (threads S0) c j)).
    { intros c j (u & m & Hu & Hm). destruct (Nat.eq_dec i j) as [<-|Hne].
      - left. split; [reflexivity|]. rewrite replace_at in Hu by exact Li. exists m. congruence.
      - right. split; [congruence|]. rewrite replace_other in Hu by assumption. exists u, m. split; assumption. }
    intros c j j' H H'. apply K in H. apply K in H'. destruct H as [[-> (m & Em)]|[N1 H]]; destruct H' as [[-> (m' & Em')]|[N2 H']].
    + reflexivity.
    + exfalso. eapply Hsingle; eassumption.
    + exfalso. eapply Hsingle; [exact Em'|exact N1|exact H].
    + eapply C0; eassumption.
  - intros a b t1 t2 E1 E2 Hw Hab. destruct (Nat.eq_dec i a) as [<-|Na].
    + rewrite replace_at in E1 by exact Li. injection E1 as <-. rewrite replace_other in E2 by assumption. destruct (Hwr Hw) as [Ht|Hn]; [exact (W0 i b t t2 Et E2 Ht Hab)|eapply Hn; [|exact E2]; congruence].
    + rewrite replace_other in E1 by assumption. destruct (Nat.eq_dec i b) as [<-|Nb].
      * rewrite replace_at in E2 by exact Li. injection E2 as <-. destruct (holds t') eqn:Eg; [reflexivity| |].
        -- destruct (Hgd ltac:(congruence)) as [Ht|Hn]; exfalso; [apply Ht; exact (W0 a i t1 t E1 Et Hw Hab)|eapply (Hn a); [congruence|exact E1|exact Hw]].
        -- destruct (Hgd ltac:(congruence)) as [Ht|Hn]; exfalso; [apply Ht; exact (W0 a i t1 t E1 Et Hw Hab)|eapply (Hn a); [congruence|exact E1|exact Hw]].
      * rewrite replace_other in E2 by assumption. exact (W0 a b t1 t2 E1 E2 Hw Hab).
Qed.

(** Steps that do not change the memory *)
Lemma preserved_same t t' : nth_error (threads S0) i = Some t -> thread_ok s t' -> (forall m c, at_point t' <> Creating m c) -> (forall m c, at_point t <> Creating m c) ->
  (holds t' = WriteGuard -> holds t = WriteGuard \/ forall j u, j <> i -> nth_error (threads S0) j = Some u -> holds u = NoGuard) ->
  (holds t' <> NoGuard -> holds t <> NoGuard \/ forall j u, j <> i -> nth_error (threads S0) j = Some u -> holds u <> WriteGuard) ->
  system_ok (System s (replace i t' (threads S0))).
Proof.
  intros Et HT N1 N2 Hw Hg. apply (preserved t); try assumption.
  - apply HS.
  - split; auto.
  - intros; assumption.
  - intros n c E B. right. split; [exact E|]. split; [exact B|]. intros m. apply N2.
  - intros m c E. exfalso. eapply N1, E.
Qed.

Lemma step_ok S1 choice : system_step i choice S0 = Some S1 -> system_ok S1.
Proof.
  intros Hstep. unfold system_step in Hstep. destruct (nth_error (threads S0) i) as [t|] eqn:Et; [|discriminate].
  set (others := firstn i (threads S0) ++ skipn (i + 1) (threads S0)) in *.
  destruct (thread_step (map holds others) choice s t) as [[s' t']|] eqn:E; [|discriminate]. injection Hstep as <-. fold (replace i t' (threads S0)).
  pose proof (so_threads _ HS) as HT. rewrite Forall_forall in HT. destruct (HT t (nth_error_In _ _ Et)) as [HP HR]. destruct (so_memory _ HS) as [R0 I0 P0 K0 Z0 O0].
  assert (FIN : forall n r, result_ok s (n, r) -> thread_ok s (finish t n r)).
  { intros n r Hr. split; [reflexivity|]. apply Forall_app. split; [exact HR|]. apply Forall_cons; [exact Hr|apply Forall_nil]. }
  assert (FINN : forall n r, (forall m c, at_point (finish t n r) <> Creating m c)) by (intros; discriminate).
  assert (OTH : forall j u, j <> i -> nth_error (threads S0) j = Some u -> In u others) by (intros j u Hj Hu; apply others_In; exists j; split; assumption).
  unfold thread_step in E. rewrite P0 in E. destruct (at_point t) as [|n|n|n|n|n|n o|n c|n c] eqn:Ep; unfold point_ok in HP.
  - destruct (calls t) as [|n rest]; [discriminate|]. injection E as <- <-. apply (preserved_same t); try assumption; cbn [holds at_point]; try discriminate; try congruence. split; assumption.
  - destruct (forallb is_none (map holds others)) eqn:F; [|discriminate]. injection E as <- <-.
    assert (A : forall j u, j <> i -> nth_error (threads S0) j = Some u -> holds u = NoGuard).
    { intros j u Hj Hu. rewrite forallb_forall in F. specialize (F (holds u) (in_map holds _ _ (OTH j u Hj Hu))). destruct (holds u); [reflexivity|discriminate|discriminate]. }
    apply (preserved_same t); try assumption; cbn [go holds at_point]; try discriminate; try congruence; [split; [reflexivity|exact HR]| |].
    + intros _. right. exact A.
    + intros _. right. intros j u Hj Hu. rewrite (A j u Hj Hu). discriminate.
  - destruct (entries s n) as [c|] eqn:En; injection E as <- <-.
    + apply (preserved_same t); try assumption; cbn [go holds at_point]; try discriminate; try congruence; [|intros _; left; assumption|intros _; left; rewrite HP; discriminate].
      split; [|exact HR]. split; [exact HP|]. exists c. exact En.
    + set (s1 := Shared _ _ _ _).
      assert (OLD : forall m c, entries s m = Some c -> entries s1 m = Some c /\ cell_at s1 c = cell_at s c).
      { intros m c Em. split.
        - cbn [s1 entries]. destruct (Nat.eqb_spec m n) as [->|]; [congruence|exact Em].
        - unfold cell_at. cbn [s1 cells]. rewrite app_nth1 by (eapply R0, Em). reflexivity. }
      assert (NEW : entries s1 n = Some (length (cells s)) /\ cell_at s1 (length (cells s)) = Empty).
      { split; [cbn [s1 entries]; rewrite Nat.eqb_refl; reflexivity|]. unfold cell_at. cbn [s1 cells]. rewrite app_nth2, Nat.sub_diag by lia. reflexivity. }
      assert (SPLIT : forall m c, entries s1 m = Some c -> (m = n /\ c = length (cells s)) \/ entries s m = Some c).
      { intros m c. cbn [s1 entries]. destruct (Nat.eqb_spec m n) as [->|]; [intros H; left; split; congruence|tauto]. }
      assert (G : grows s s1). { split; [intros m c Em; apply OLD, Em|]. intros m c v Em Ev. rewrite (proj2 (OLD m c Em)). exact Ev. }
      apply (preserved t); try assumption; cbn [go holds at_point]; try discriminate.
      * constructor.
        -- intros m c Em. cbn [s1 cells]. rewrite app_length. cbn [length]. destruct (SPLIT m c Em) as [[_ ->]|Em']; [lia|]. specialize (R0 m c Em'). lia.
        -- intros m m' c Em Em'. destruct (SPLIT m c Em) as [[-> ->]|Em1]; destruct (SPLIT m' _ Em') as [[-> Ec]|Em2]; try reflexivity.
           ++ specialize (R0 _ _ Em2). lia.
           ++ subst c. specialize (R0 _ _ Em1). lia.
           ++ eapply I0; eassumption.
        -- reflexivity.
        -- intros m v. cbn [s1 created]. rewrite K0. split; intros (c & Em & Ev).
           ++ exists c. destruct (OLD m c Em) as [A B]. split; [exact A|]. rewrite B. exact Ev.
           ++ destruct (SPLIT m c Em) as [[-> ->]|Em1]; [rewrite (proj2 NEW) in Ev; discriminate|]. exists c. split; [exact Em1|]. rewrite <- (proj2 (OLD m c Em1)). exact Ev.
        -- exact Z0.
        -- exact O0.
      * split; [split; [exact HP|]; exists (length (cells s)); apply NEW|]. eapply Forall_impl; [|exact HR]. intros r. apply result_grows, G.
      * intros j u m c _ Hu Hm Hb. destruct (HT u (nth_error_In _ _ Hu)) as [HPu _]. rewrite Hm in HPu. destruct HPu as (_ & Em & _). rewrite (proj2 (OLD m c Em)). exact Hb.
      * intros m c Em Eb. right. destruct (SPLIT m c Em) as [[-> ->]|Em1]; [rewrite (proj2 NEW) in Eb; discriminate|]. split; [exact Em1|]. rewrite (proj2 (OLD m c Em1)) in Eb. split; [exact Eb|]. intros m'. rewrite Ep. discriminate.
      * intros H. left. exact H.
      * intros _. left. rewrite HP. discriminate.
  - injection E as <- <-. destruct HP as [HG HE]. apply (preserved_same t); try assumption; cbn [go holds at_point]; try discriminate; try congruence. split; [split; [reflexivity|exact HE]|exact HR].
  - destruct (existsb is_write (map holds others)) eqn:F; [discriminate|]. injection E as <- <-. destruct HP as [HG HE].
    apply (preserved_same t); try assumption; cbn [go holds at_point]; try discriminate; try congruence; [split; [split; [reflexivity|exact HE]|exact HR]|].
    intros _. right. intros j u Hj Hu Hw. assert (T : existsb is_write (map holds others) = true); [|congruence]. apply existsb_exists. exists (holds u). split; [apply in_map, (OTH j u Hj Hu)|rewrite Hw; reflexivity].
  - injection E as <- <-. destruct HP as [HG (c & HE)]. apply (preserved_same t); try assumption; cbn [go holds at_point]; try discriminate; try congruence; [|intros _; left; congruence].
    split; [split; [exact HG|]; exists c; split; exact HE|exact HR].
  - destruct HP as [HG (c & -> & HE)]. injection E as <- <-. apply (preserved_same t); try assumption; cbn [go holds at_point]; try discriminate; try congruence. split; [split; [reflexivity|exact HE]|exact HR].
  - destruct HP as [HG HE]. change (nth c (cells s) Busy) with (cell_at s c) in E. destruct (cell_at s c) as [| |v] eqn:Ec; [|discriminate|]; injection E as <- <-.
    + pose proof (R0 _ _ HE) as Lc. pose proof (cell_set s c Busy) as CS. set (s1 := set_cell s c Busy) in *.
      assert (G : grows s s1). { split; [intros m c' Em; exact Em|]. intros m c' v Em Ev. rewrite (CS c' Lc). destruct (Nat.eqb_spec c' c) as [->|]; [congruence|exact Ev]. }
      apply (preserved t); try assumption; cbn [go holds at_point]; try discriminate; try congruence.
      * constructor; try assumption.
        -- intros m c' Em. specialize (R0 m c' Em). change (cells s1) with (cells (set_cell s c Busy)). rewrite set_cell_length by exact Lc. exact R0.
        -- intros m v. change (created s1) with (created s). rewrite K0. split; intros (c' & Em & Ev); exists c'; (split; [exact Em|]).
           ++ rewrite (CS c' Lc). destruct (Nat.eqb_spec c' c) as [->|]; [congruence|exact Ev].
           ++ rewrite (CS c' Lc) in Ev. destruct (Nat.eqb_spec c' c) as [->|]; [discriminate|exact Ev].
      * split; [|eapply Forall_impl; [|exact HR]; intros r; apply result_grows, G]. split; [exact HG|]. split; [exact HE|]. rewrite (CS c Lc), Nat.eqb_refl. reflexivity.
      * intros j u m c' _ _ _ Hb. rewrite (CS c' Lc). destruct (Nat.eqb_spec c' c); [reflexivity|exact Hb].
      * intros m c' Em Eb. rewrite (CS c' Lc) in Eb. destruct (Nat.eqb_spec c' c) as [->|]; [left; exists n; reflexivity|]. right. split; [exact Em|]. split; [exact Eb|]. intros m'. rewrite Ep. discriminate.
      * intros m c' Em j Hj (u & m' & Hu & Hm'). injection Em as <- <-. destruct (HT u (nth_error_In _ _ Hu)) as [HPu _]. rewrite Hm' in HPu. destruct HPu as (_ & _ & Hb). congruence.
    + apply (preserved_same t); try assumption; cbn [finish holds at_point]; try discriminate; try congruence. apply FIN. exists c. split; assumption.
  - destruct HP as [HG [HE HB]]. pose proof (R0 _ _ HE) as Lc.
    assert (NC : forall v, ~ In (n, v) (created s)). { intros v Hv. apply K0 in Hv. destruct Hv as (c' & Ec' & Hr). assert (c' = c) by congruence. subst c'. congruence. }
    destruct choice as [a|].
    + set (v := FftPlan (n / 2) a (length (created s))) in *. pose proof (cell_set s c (Ready v)) as CS. set (s1 := Shared (entries (set_cell s c (Ready v))) (cells (set_cell s c (Ready v))) (poisoned (set_cell s c (Ready v))) (created s ++ [(n, v)])).
      assert (E1 : Some (s1, finish t n (Got v)) = Some (s', t')) by exact E. clear E. assert (Sv : fp_size v = (n / 2)%nat) by reflexivity. clearbody v. assert (E2 : s' = s1) by congruence. assert (E3 : t' = finish t n (Got v)) by congruence. clear E1. subst s' t'.
      assert (CS1 : forall c', cell_at s1 c' = if Nat.eqb c' c then Ready v else cell_at s c') by (intros c'; apply (CS c' Lc)).
      assert (G : grows s s1). { split; [intros m c' Em; exact Em|]. intros m c' v' Em Ev. rewrite CS1. destruct (Nat.eqb_spec c' c) as [->|]; [congruence|exact Ev]. }
      apply (preserved t); try assumption; cbn [finish holds at_point]; try discriminate; try congruence.
      * constructor; try assumption.
        -- intros m c' Em. specialize (R0 m c' Em). change (cells s1) with (cells (set_cell s c (Ready v))). rewrite set_cell_length by exact Lc. exact R0.
        -- intros m v'. cbn [s1 created]. rewrite in_app_iff, K0. cbn [In]. split.
           ++ intros [(c' & Em & Ev)|[H|[]]].
              ** exists c'. split; [exact Em|]. rewrite CS1. destruct (Nat.eqb_spec c' c) as [->|]; [congruence|exact Ev].
              ** injection H as <- <-. exists c. split; [exact HE|]. rewrite CS1, Nat.eqb_refl. reflexivity.
           ++ intros (c' & Em & Ev). rewrite CS1 in Ev. destruct (Nat.eqb_spec c' c) as [->|].
              ** right. left. assert (m = n) by (eapply I0; eassumption). congruence.
              ** left. exists c'. split; assumption.
        -- intros m v'. cbn [s1 created]. rewrite in_app_iff. cbn [In]. intros [H|[H|[]]]; [apply Z0, H|]. injection H as <- <-. exact Sv.
        -- cbn [s1 created]. rewrite map_app. cbn [map fst]. apply NoDup_app_snoc; [exact O0|]. intros H. apply in_map_iff in H. destruct H as ([m v'] & Hm & Hin). cbn in Hm. subst m. eapply NC, Hin.
      * split; [reflexivity|]. cbn [results]. apply Forall_app. split; [eapply Forall_impl; [|exact HR]; intros r; apply result_grows, G|]. apply Forall_cons; [|apply Forall_nil]. exists c. split; [exact HE|]. rewrite CS1, Nat.eqb_refl. reflexivity.
      * intros j u m c' Hj Hu Hm Hb. rewrite CS1. destruct (Nat.eqb_spec c' c) as [->|]; [|exact Hb]. exfalso. apply Hj. apply (so_single _ HS c); [exists u, m; split; assumption|exists t, n; split; assumption].
      * intros m c' Em Eb. rewrite CS1 in Eb. destruct (Nat.eqb_spec c' c) as [->|Hne]; [discriminate|]. right. split; [exact Em|]. split; [exact Eb|]. intros m'. rewrite Ep. congruence.
    + pose proof (cell_set s c Empty) as CS. rewrite HG in E. set (s1 := unwind (set_cell s c Empty) NoGuard) in *.
      assert (E2 : s' = s1) by congruence. assert (E3 : t' = finish t n CreationPanicked) by congruence. clear E. subst s' t'.
      assert (CS1 : forall c', cell_at s1 c' = if Nat.eqb c' c then Empty else cell_at s c') by (intros c'; apply (CS c' Lc)).
      assert (G : grows s s1). { split; [intros m c' Em; exact Em|]. intros m c' v' Em Ev. rewrite CS1. destruct (Nat.eqb_spec c' c) as [->|]; [congruence|exact Ev]. }
      apply (preserved t); try assumption; cbn [finish holds at_point]; try discriminate; try congruence.
      * constructor; try assumption.
        -- intros m c' Em. specialize (R0 m c' Em). change (cells s1) with (cells (set_cell s c Empty)). rewrite set_cell_length by exact Lc. exact R0.
        -- cbn. rewrite P0. reflexivity.
        -- intros m v. change (created s1) with (created s). rewrite K0. split; intros (c' & Em & Ev); exists c'; (split; [exact Em|]).
           ++ rewrite CS1. destruct (Nat.eqb_spec c' c) as [->|]; [congruence|exact Ev].
           ++ rewrite CS1 in Ev. destruct (Nat.eqb_spec c' c) as [->|]; [discriminate|exact Ev].
      * split; [reflexivity|]. cbn [results]. apply Forall_app. split; [eapply Forall_impl; [|exact HR]; intros r; apply result_grows, G|]. apply Forall_cons; [exact I|apply Forall_nil].
      * intros j u m c' Hj Hu Hm Hb. rewrite CS1. destruct (Nat.eqb_spec c' c) as [->|]; [|exact Hb]. exfalso. apply Hj. apply (so_single _ HS c); [exists u, m; split; assumption|exists t, n; split; assumption].
      * intros m c' Em Eb. rewrite CS1 in Eb. destruct (Nat.eqb_spec c' c) as [->|Hne]; [discriminate|]. right. split; [exact Em|]. split; [exact Eb|]. intros m'. rewrite Ep. congruence.
Qed.
End step.

Lemma start_ok programs : system_ok (start programs).
Proof.
  assert (T : forall i t, nth_error (threads (start programs)) i = Some t -> at_point t = Idle /\ holds t = NoGuard /\ results t = []).
  { intros i t H. apply nth_error_In in H. cbn [start threads] in H. apply in_map_iff in H. destruct H as (cs & <- & _). repeat split. }
  constructor.
  - constructor; cbn; try discriminate; try reflexivity; [|intros n v []|constructor]. intros n v. split; [intros []|intros (c & H & _); discriminate].
  - apply Forall_forall. intros t Ht. apply In_nth_error in Ht. destruct Ht as [i Hi]. destruct (T i t Hi) as (E1 & E2 & E3). split; [rewrite E1; exact E2|rewrite E3; apply Forall_nil].
  - intros n c H. discriminate.
  - intros c i j (t & n & Ht & Hn). destruct (T i t Ht) as (E1 & _). congruence.
  - intros i j t u _ Hu _ _. apply (T j u Hu).
Qed.
Lemma run_ok schedule : forall S, system_ok S -> system_ok (run schedule S).
Proof.
  induction schedule as [|[i c] rest IH]; intros S H; [exact H|]. cbn [run]. apply IH. destruct (system_step i c S) as [S'|] eqn:E; [|exact H]. eapply step_ok; eassumption.
Qed.
Lemma reachable_ok programs S : reachable programs S -> system_ok S.
Proof. intros [schedule ->]. apply run_ok, start_ok. Qed.
Lemma ended_In S r : In r (ended S) <-> exists t, In t (threads S) /\ In r (results t).
Proof.
  unfold ended. rewrite in_concat. split.
  - intros (l & Hl & Hr). apply in_map_iff in Hl. destruct Hl as (t & <- & Ht). exists t. split; assumption.
  - intros (t & Ht & Hr). exists (results t). split; [apply in_map, Ht|exact Hr].
Qed.
Lemma ended_ok programs S r : reachable programs S -> In r (ended S) -> result_ok (memory S) r.
Proof.
  intros HR H. apply reachable_ok in HR. apply ended_In in H. destruct H as (t & Ht & Hr). pose proof (so_threads _ HR) as T. rewrite Forall_forall in T. destruct (T t Ht) as [_ F]. rewrite Forall_forall in F. apply F, Hr.
Qed.

(** ** C56 *)
(** All calls with one size, in whatever threads and whenever, get the same plan (the same allocation), made for that size. *)
Theorem C56_same_plan : forall programs S n v v', reachable programs S ->
  In (n, Got v) (ended S) -> In (n, Got v') (ended S) -> v = v' /\ fp_size v = (n / 2)%nat.
Proof.
  intros programs S n v v' HR H H'. pose proof (ended_ok _ _ _ HR H) as (c & E1 & E2). pose proof (ended_ok _ _ _ HR H') as (c' & E1' & E2'). cbn [fst] in *.
  assert (c' = c) by congruence. subst c'. split; [congruence|]. apply reachable_ok in HR. destruct (so_memory _ HR) as [_ _ _ K Z _]. apply (Z n), K. exists c. split; assumption.
Qed.
Print Assumptions C56_same_plan.

(** For every size a plan is made at most once (creations that panic aside), and it is the one the callers get. *)
Theorem C56_created_once : forall programs S, reachable programs S ->
  NoDup (map fst (created (memory S))) /\ forall n v, In (n, Got v) (ended S) -> In (n, v) (created (memory S)).
Proof.
  intros programs S HR. pose proof (reachable_ok _ _ HR) as [[_ _ _ K _ O] _ _ _ _]. split; [exact O|]. intros n v H. apply K. apply (ended_ok _ _ _ HR H).
Qed.
Print Assumptions C56_created_once.

(** The [unwrap]s of Fft::new never fail: a call returns a plan, or the creation of the plan itself panicked in this call;
    such a panic does not poison the lock. *)
Theorem C56_no_other_panic : forall programs S n r, reachable programs S -> In (n, r) (ended S) ->
  poisoned (memory S) = false /\ ((exists v, r = Got v) \/ r = CreationPanicked).
Proof.
  intros programs S n r HR H. split; [apply reachable_ok in HR; apply HR|]. pose proof (ended_ok _ _ _ HR H) as K. unfold result_ok in K. cbn [snd] in K. destruct r as [v| | |]; [left; exists v; reflexivity|destruct K|destruct K|right; reflexivity].
Qed.
Print Assumptions C56_no_other_panic.

Lemma step_results S S' i c r : system_step i (Some c) S = Some S' -> In r (ended S') -> In r (ended S) \/ snd r <> CreationPanicked.
Proof.
  unfold system_step. destruct (nth_error (threads S) i) as [t|] eqn:Et; [|discriminate]. destruct (thread_step _ _ _ _) as [[s t']|] eqn:E; [|discriminate]. intros H. injection H as <-.
  rewrite !ended_In. cbn [threads]. fold (replace i t' (threads S)). assert (Li : (i < length (threads S))%nat) by (apply nth_error_Some; congruence). intros (u & Hu & Hr).
  apply In_nth_error in Hu. destruct Hu as [j Hj]. destruct (Nat.eq_dec i j) as [<-|Hne].
  - rewrite replace_at in Hj by exact Li. injection Hj as <-.
    assert (F : In r (results t) \/ snd r <> CreationPanicked).
    { unfold thread_step in E. assert (FIN : forall n q, q <> CreationPanicked -> In r (results (finish t n q)) -> In r (results t) \/ snd r <> CreationPanicked).
      { intros n q Hq. cbn [finish results]. rewrite in_app_iff. intros [K|[<-|[]]]; [left; exact K|right; exact Hq]. }
      destruct (at_point t) as [|n|n|n|n|n|n [k|]|n k|n k].
      - destruct (calls t); [discriminate|]. injection E as <- <-. left. exact Hr.
      - destruct (forallb _ _); [|discriminate]. destruct (poisoned _); injection E as <- <-; [eapply FIN; [|exact Hr]; discriminate|left; exact Hr].
      - destruct (entries _ _); injection E as <- <-; left; exact Hr.
      - injection E as <- <-; left; exact Hr.
      - destruct (existsb _ _); [discriminate|]. destruct (poisoned _); injection E as <- <-; [eapply FIN; [|exact Hr]; discriminate|left; exact Hr].
      - injection E as <- <-; left; exact Hr.
      - injection E as <- <-; left; exact Hr.
      - injection E as <- <-. eapply FIN; [|exact Hr]; discriminate.
      - destruct (nth _ _ _); [|discriminate|]; injection E as <- <-; [left; exact Hr|eapply FIN; [|exact Hr]; discriminate].
      - injection E as <- <-. eapply FIN; [|exact Hr]; discriminate. }
    destruct F as [F|F]; [left|right; exact F]. exists t. split; [eapply nth_error_In, Et|exact F].
  - rewrite replace_other in Hj by assumption. left. exists u. split; [eapply nth_error_In, Hj|exact Hr].
Qed.
(** If no creation panics, every call that ends returns a plan. *)
Theorem C56_served : forall programs schedule n r, Forall (fun ic => snd ic <> None) schedule ->
  In (n, r) (ended (run schedule (start programs))) -> exists v, r = Got v.
Proof.
  intros programs schedule n r HF H.
  assert (K : forall sch S, Forall (fun ic : nat * option nat => snd ic <> None) sch -> (forall x, In x (ended S) -> snd x <> CreationPanicked) -> forall x, In x (ended (run sch S)) -> snd x <> CreationPanicked).
  { clear. induction sch as [|[i c] rest IH]; intros S HF HS x Hx; [apply HS, Hx|]. cbn [run] in Hx. eapply IH; [exact (Forall_inv_tail HF)| |exact Hx].
    pose proof (Forall_inv HF) as Hc. cbn [snd] in Hc. destruct c as [a|]; [|congruence]. destruct (system_step i (Some a) S) as [S'|] eqn:E; [|exact HS].
    intros y Hy. destruct (step_results _ _ _ _ _ E Hy) as [A|A]; [apply HS, A|exact A]. }
  assert (N : r <> CreationPanicked).
  { apply (K schedule (start programs) HF) with (x := (n, r)); [|exact H]. intros x Hx. apply ended_In in Hx. destruct Hx as (t & Ht & Hr). cbn [start threads] in Ht. apply in_map_iff in Ht. destruct Ht as (cs & <- & _). destruct Hr. }
  destruct (C56_no_other_panic programs _ n r (ex_intro _ schedule eq_refl) H) as [_ [G|G]]; [exact G|congruence].
Qed.
Print Assumptions C56_served.

(** ** Progress *)
(** Work that is left: a call takes at most nine steps. *)
Definition in_call (q : point) : list nat :=
  match q with
  | Idle => []
  | WantWrite n | HasWrite n | Inserted n | WantRead n | HasRead n | Looked n _ | GetOrInit n _ | Creating n _ => [n]
  end.
Definition rank (q : point) : nat :=
  match q with Idle => 0 | Creating _ _ => 1 | GetOrInit _ _ => 2 | Looked _ _ => 3 | HasRead _ => 4 | WantRead _ => 5 | Inserted _ => 6 | HasWrite _ => 7 | WantWrite _ => 8 end.
Definition work (S : system) : nat := list_sum (map (fun t => 9 * length (calls t) + rank (at_point t))%nat (threads S)).
Definition finished (t : thread) : Prop := at_point t = Idle /\ calls t = [].
(** The sizes a thread asked for, is asking for and will ask for *)
Definition requests (t : thread) : list nat := map fst (results t) ++ in_call (at_point t) ++ calls t.

Lemma sum_replace (f : thread -> nat) l i t t' : nth_error l i = Some t -> (list_sum (map f (replace i t' l)) + f t = list_sum (map f l) + f t')%nat.
Proof.
  revert i. induction l as [|x l IH]; intros [|i] H; try discriminate.
  - injection H as ->. unfold replace. cbn. lia.
  - specialize (IH i H). unfold replace in *. cbn [Nat.add firstn skipn app map list_sum fold_right] in *. unfold list_sum in IH. lia.
Qed.
Lemma step_effect others choice s t s' t' : thread_step others choice s t = Some (s', t') ->
  (9 * length (calls t') + rank (at_point t') < 9 * length (calls t) + rank (at_point t))%nat /\ requests t' = requests t.
Proof.
  unfold thread_step, requests. intros E.
  assert (FIN : forall n q (H : in_call (at_point t) = [n]), map fst (results (finish t n q)) ++ in_call (at_point (finish t n q)) ++ calls (finish t n q) = map fst (results t) ++ in_call (at_point t) ++ calls t).
  { intros n q H. rewrite H. cbn [finish results at_point calls in_call app]. rewrite map_app, <- app_assoc. reflexivity. }
  destruct (at_point t) as [|n|n|n|n|n|n [k|]|n k|n k] eqn:Ep.
  - destruct (calls t) as [|n rest] eqn:Ec; [discriminate|]. injection E as <- <-. cbn. split; [lia|reflexivity].
  - destruct (forallb _ _); [|discriminate]. destruct (poisoned _); injection E as <- <-; (split; [cbn; lia|]); [apply FIN|]; reflexivity.
  - destruct (entries _ _); injection E as <- <-; (split; [cbn; lia|reflexivity]).
  - injection E as <- <-; (split; [cbn; lia|reflexivity]).
  - destruct (existsb _ _); [discriminate|]. destruct (poisoned _); injection E as <- <-; (split; [cbn; lia|]); [apply FIN|]; reflexivity.
  - injection E as <- <-; (split; [cbn; lia|reflexivity]).
  - injection E as <- <-; (split; [cbn; lia|reflexivity]).
  - injection E as <- <-; (split; [cbn; lia|]). apply FIN; reflexivity.
  - destruct (nth _ _ _); [|discriminate|]; injection E as <- <-; (split; [cbn; lia|]); [reflexivity|apply FIN; reflexivity].
  - destruct choice; injection E as <- <-; (split; [cbn; lia|]); apply FIN; reflexivity.
Qed.
Lemma nth_error_same {A} : forall l l' : list A, (forall j, nth_error l j = nth_error l' j) -> l = l'.
Proof.
  induction l as [|x l IH]; intros [|y l'] H; [reflexivity|specialize (H O); discriminate|specialize (H O); discriminate|].
  f_equal; [specialize (H O); cbn in H; congruence|]. apply IH. intros j. exact (H (S j)).
Qed.
Lemma step_system S S' i c : system_step i c S = Some S' -> (work S' < work S)%nat /\ map requests (threads S') = map requests (threads S).
Proof.
  unfold system_step. destruct (nth_error (threads S) i) as [t|] eqn:Et; [|discriminate]. destruct (thread_step _ _ _ _) as [[s t']|] eqn:E; [|discriminate]. intros H. injection H as <-. cbn [threads]. fold (replace i t' (threads S)).
  apply step_effect in E. destruct E as [E1 E2]. split.
  - unfold work. cbn [threads]. pose proof (sum_replace (fun t => 9 * length (calls t) + rank (at_point t))%nat _ _ _ t' Et) as K. cbv beta in K. clear - K E1. lia.
  - assert (Li : (i < length (threads S))%nat) by (apply nth_error_Some; congruence). apply nth_error_same. intros j. rewrite !nth_error_map. destruct (Nat.eq_dec i j) as [<-|Hne].
    + rewrite replace_at, Et by exact Li. cbn. congruence.
    + rewrite replace_other by assumption. reflexivity.
Qed.

(** No deadlock: as long as a thread has work left, some thread can move, whatever plan creation does. *)
Lemma can_step S : system_ok S -> Exists (fun t => ~ finished t) (threads S) -> exists i, forall c, exists S', system_step i c S = Some S'.
Proof.
  intros HS HE. apply Exists_exists in HE. destruct HE as (t & Ht & Hf). apply In_nth_error in Ht. destruct Ht as [i Hi].
  pose proof (so_threads _ HS) as HT. rewrite Forall_forall in HT.
  assert (MOVE : forall j u, nth_error (threads S) j = Some u -> (forall oth c, exists x, thread_step oth c (memory S) u = Some x) -> exists i, forall c, exists S', system_step i c S = Some S').
  { intros j u Hj H. exists j. intros c. unfold system_step. rewrite Hj. destruct (H (map holds (firstn j (threads S) ++ skipn (j + 1) (threads S))) c) as [[s' t'] ->]. eexists. reflexivity. }
  assert (GUARD : forall j u, nth_error (threads S) j = Some u -> holds u <> NoGuard -> exists i, forall c, exists S', system_step i c S = Some S').
  { intros j u Hj Hg. apply (MOVE j u Hj). intros oth c. destruct (HT u (nth_error_In _ _ Hj)) as [P _]. unfold thread_step. unfold point_ok in P. destruct (at_point u) as [|n|n|n|n|n|n [k|]|n k|n k].
    - congruence.
    - congruence.
    - destruct (entries _ _); eexists; reflexivity.
    - eexists; reflexivity.
    - destruct P; congruence.
    - eexists; reflexivity.
    - eexists; reflexivity.
    - eexists; reflexivity.
    - destruct P; congruence.
    - destruct P; congruence. }
  destruct (HT t (nth_error_In _ _ Hi)) as [P _]. pose proof (mo_poison _ (so_memory _ HS)) as NP.
  destruct (at_point t) as [|n|n|n|n|n|n o|n k|n k] eqn:Ep.
  - apply (MOVE i t Hi). intros oth c. unfold thread_step. rewrite Ep. destruct (calls t) eqn:Ec; [exfalso; apply Hf; split; assumption|]. eexists. reflexivity.
  - set (oth := map holds (firstn i (threads S) ++ skipn (i + 1) (threads S))). destruct (forallb is_none oth) eqn:F.
    + exists i. intros c. unfold system_step. rewrite Hi. fold oth. unfold thread_step. rewrite Ep, F, NP. eexists. reflexivity.
    + assert (X : exists j u, nth_error (threads S) j = Some u /\ holds u <> NoGuard).
      { assert (Y : existsb (fun g => negb (is_none g)) oth = true) by (clear - F; induction oth as [|x l IH]; [discriminate|]; cbn in *; destruct (is_none x); [apply IH, F|reflexivity]).
        apply existsb_exists in Y. destruct Y as (g & Hg & Hn). apply in_map_iff in Hg. destruct Hg as (u & <- & Hu). apply others_In in Hu. destruct Hu as (j & _ & Hj). exists j, u. split; [exact Hj|]. intros C. rewrite C in Hn. discriminate. }
      destruct X as (j & u & Hj & Hg). exact (GUARD j u Hj Hg).
  - apply (GUARD i t Hi). unfold point_ok in P. congruence.
  - apply (GUARD i t Hi). destruct P; congruence.
  - set (oth := map holds (firstn i (threads S) ++ skipn (i + 1) (threads S))). destruct (existsb is_write oth) eqn:F.
    + apply existsb_exists in F. destruct F as (g & Hg & Hn). apply in_map_iff in Hg. destruct Hg as (u & <- & Hu). apply others_In in Hu. destruct Hu as (j & _ & Hj). apply (GUARD j u Hj). intros C. rewrite C in Hn. discriminate.
    + exists i. intros c. unfold system_step. rewrite Hi. fold oth. unfold thread_step. rewrite Ep, F, NP. eexists. reflexivity.
  - apply (GUARD i t Hi). destruct P; congruence.
  - apply (GUARD i t Hi). destruct P; congruence.
  - destruct P as [_ En]. destruct (cell_at (memory S) k) as [| |v] eqn:Ek.
    + apply (MOVE i t Hi). intros oth c. unfold thread_step. rewrite Ep. change (nth k (cells (memory S)) Busy) with (cell_at (memory S) k). rewrite Ek. eexists. reflexivity.
    + destruct (so_busy _ HS n k En Ek) as (j & u & m & Hj & Hm). apply (MOVE j u Hj). intros oth c. unfold thread_step. rewrite Hm. destruct c; eexists; reflexivity.
    + apply (MOVE i t Hi). intros oth c. unfold thread_step. rewrite Ep. change (nth k (cells (memory S)) Busy) with (cell_at (memory S) k). rewrite Ek. eexists. reflexivity.
  - apply (MOVE i t Hi). intros oth c. unfold thread_step. rewrite Ep. destruct c; eexists; reflexivity.
Qed.
Theorem C56_no_deadlock : forall programs S, reachable programs S -> Exists (fun t => ~ finished t) (threads S) ->
  exists i, forall choice, exists S', system_step i choice S = Some S'.
Proof. intros programs S HR. apply can_step, (reachable_ok programs), HR. Qed.
Print Assumptions C56_no_deadlock.

(** No livelock: every step uses up some of the work, of which there are nine units per call; and when no work is left every
    call of every thread has ended, in the order of the program. *)
Theorem C56_termination : forall programs S, reachable programs S ->
  (forall i choice S', system_step i choice S = Some S' -> (work S' < work S)%nat) /\
  work (start programs) = (9 * list_sum (map (@length nat) programs))%nat /\
  (Forall finished (threads S) -> map (fun t => map fst (results t)) (threads S) = programs).
Proof.
  intros programs S HR. split; [intros i c S' H; apply (step_system _ _ _ _ H)|]. split.
  - unfold work, start. cbn [threads]. rewrite map_map. cbn [calls at_point rank]. clear HR. induction programs as [|cs l IH]; [reflexivity|]. cbn [map list_sum fold_right]. unfold list_sum in IH. rewrite IH. lia.
  - assert (K : forall sch S0, map requests (threads (run sch S0)) = map requests (threads S0)).
    { induction sch as [|[i c] rest IH]; intros S0; [reflexivity|]. cbn [run]. rewrite IH. destruct (system_step i c S0) as [S'|] eqn:E; [|reflexivity]. apply (step_system _ _ _ _ E). }
    destruct HR as [sch ->]. specialize (K sch (start programs)). intros HF. transitivity (map requests (threads (start programs))).
    + rewrite <- K. clear K. set (l := threads (run sch (start programs))) in *. clearbody l. induction HF as [|t l [F1 F2] HF IH]; [reflexivity|]. cbn [map]. rewrite IH. f_equal. unfold requests. rewrite F1, F2. cbn. rewrite app_nil_r. reflexivity.
    + cbn [start threads]. rewrite map_map. rewrite <- (map_id programs) at 2. reflexivity.
Qed.
Print Assumptions C56_termination.

(** A later call always succeeds, even after creations have panicked: some schedule serves all the calls that are left. *)
Theorem C56_completes : forall programs S, reachable programs S ->
  exists schedule, Forall (fun ic => snd ic <> None) schedule /\ Forall finished (threads (run schedule S)).
Proof.
  intros programs S HR. apply reachable_ok in HR. remember (work S) as k eqn:Ek. revert S HR Ek. induction k as [k IH] using lt_wf_ind. intros S HS ->.
  destruct (Exists_dec (fun t => ~ finished t) (threads S)) as [HE|HN].
  { intros t. unfold finished. destruct (at_point t) eqn:E1; try (left; intros [C _]; discriminate). destruct (calls t) eqn:E2; [right; intros C; apply C; split; reflexivity|left; intros [_ C]; discriminate]. }
  - destruct (can_step S HS HE) as (i & Hi). destruct (Hi (Some 0%nat)) as (S' & ES). destruct (IH (work S') (proj1 (step_system _ _ _ _ ES)) S' (step_ok _ _ HS _ _ ES) eq_refl) as (sch & F1 & F2).
    exists ((i, Some 0%nat) :: sch). split; [apply Forall_cons; [discriminate|exact F1]|]. cbn [run]. rewrite ES. exact F2.
  - exists []. split; [apply Forall_nil|]. cbn [run]. apply Forall_forall. intros t Ht.
    assert (D : finished t \/ ~ finished t).
    { unfold finished. destruct (at_point t) eqn:E1; try (right; intros [C _]; discriminate). destruct (calls t) eqn:E2; [left; split; reflexivity|right; intros [_ C]; discriminate]. }
    destruct D as [D|D]; [exact D|]. exfalso. apply HN, Exists_exists. exists t. split; assumption.
Qed.
Print Assumptions C56_completes.

(** Two threads race for size 8; the first creation panics, the second thread makes the plan, a later call gets the same one. *)
Definition demo_programs : list (list nat) := [[8; 8]; [8; 16]]%nat.
Definition demo_schedule : list (nat * option nat) :=
  map (fun i => (i, Some 3%nat)) [0; 0; 1; 0; 0; 1; 1; 1; 1; 0; 0; 0; 0; 1; 1; 1]%nat ++ [(0, None); (1, None); (1, Some 5)]%nat ++
  map (fun i => (i, Some 7%nat)) (repeat 0 9 ++ repeat 1 9)%nat.
Example C56_case :
  ended (run demo_schedule (start demo_programs)) =
  [(8, CreationPanicked); (8, Got (FftPlan 4 5 0)); (8, Got (FftPlan 4 5 0)); (16, Got (FftPlan 8 7 1))]%nat /\
  work (run demo_schedule (start demo_programs)) = 0%nat /\
  created (memory (run demo_schedule (start demo_programs))) = [(8, FftPlan 4 5 0); (16, FftPlan 8 7 1)]%nat.
Proof. vm_compute. repeat split. Qed.
