(** * The threads of a block of the keyswitch kernel, under every interleaving *)
From Verif Require Import Base Word CudaModel CudaFacts CudaKsModel.

(** ** A thread alone, on total memories *)
Definition upd (f : nat -> Z) (i : nat) (v : Z) : nat -> Z := fun j => if Nat.eqb j i then v else f j.
Lemma upd_same f i v : upd f i v i = v.
Proof. unfold upd. rewrite Nat.eqb_refl. reflexivity. Qed.
Definition st : Type := Z * (nat -> Z) * (nat -> Z).
Definition exec1 (w : Z) (i : instr) (x : st) : st :=
  match i with
  | Sync => x
  | Load c => (snd (fst x) c, snd (fst x), snd x)
  | Store c v => (fst (fst x), upd (snd (fst x)) c v, snd x)
  | StoreSub c v => (fst (fst x), upd (snd (fst x)) c (wsub w (fst (fst x)) v), snd x)
  | StoreOut c => (fst (fst x), snd (fst x), upd (snd x) c (fst (fst x)))
  end.
Definition solo (w : Z) (p : list instr) (x : st) : st := fold_left (fun x i => exec1 w i x) p x.
Definition st_s (x : st) : nat -> Z := snd (fst x).
Definition st_o (x : st) : nat -> Z := snd x.
Definition idx_of (i : instr) : option nat :=
  match i with Sync => None | Load c | Store c _ | StoreSub c _ | StoreOut c => Some c end.
Definition eqst (P : nat -> Prop) (x y : st) : Prop := fst (fst x) = fst (fst y) /\ (forall c, P c -> st_s x c = st_s y c) /\ (forall c, P c -> st_o x c = st_o y c).

Lemma solo_app w p q x : solo w (p ++ q) x = solo w q (solo w p x).
Proof. apply fold_left_app. Qed.
Lemma exec1_eqst w (P : nat -> Prop) i x y : (forall c, i = Load c -> P c) -> eqst P x y -> eqst P (exec1 w i x) (exec1 w i y).
Proof.
  intros Hi. destruct x as [[r s] o], y as [[r' s'] o']. unfold eqst, st_s, st_o. cbn. intros (-> & Hs & Ho).
  destruct i as [|c|c v|c v|c]; cbn; repeat split; auto; intros d Hd; unfold upd; destruct (Nat.eqb d c); auto.
Qed.
Lemma solo_eqst w (P : nat -> Prop) : forall p x y, (forall c, In (Load c) p -> P c) -> eqst P x y -> eqst P (solo w p x) (solo w p y).
Proof.
  induction p as [|i p IH]; intros x y Hp H; [exact H|]. cbn. apply IH; [intros; apply Hp; right; auto|].
  apply exec1_eqst; auto. intros c ->. apply Hp. left. auto.
Qed.
(** A thread that does not touch a cell leaves it alone. *)
Lemma exec1_other w i x c : idx_of i <> Some c -> st_s (exec1 w i x) c = st_s x c /\ st_o (exec1 w i x) c = st_o x c.
Proof.
  destruct x as [[r s] o]. unfold st_s, st_o. destruct i as [|d|d v|d v|d]; cbn; intros H; split; auto; unfold upd; destruct (Nat.eqb_spec c d); congruence.
Qed.

Definition syncs (p : list instr) : nat := length (filter (fun i => match i with Sync => true | _ => false end) p).
Lemma syncs_app p q : syncs (p ++ q) = (syncs p + syncs q)%nat.
Proof. unfold syncs. rewrite filter_app, app_length. reflexivity. Qed.

(** ** The memory of a block *)
Definition mem (l : list Z) : nat -> Z := fun i => nth i l 0.
Lemma set_word_mem l c v : (c < length l)%nat -> exists l', set_word l c v = Ret l' /\ length l' = length l /\ forall i, mem l' i = upd (mem l) c v i.
Proof.
  intros H. destruct (set_word_nth l c v H) as (l' & E & Hl & Hn). exists l'. repeat split; auto. intros i. unfold mem, upd.
  specialize (Hn i). destruct (Nat.eqb i c); [apply nth_error_nth; auto|].
  destruct (nth_error l i) as [x|] eqn:Ei.
  - rewrite (nth_error_nth _ _ _ Hn), (nth_error_nth _ _ _ Ei). reflexivity.
  - apply nth_error_None in Hn, Ei. rewrite !nth_overflow by lia. reflexivity.
Qed.
Lemma exec_ok w i r s o : i <> Sync -> (forall c, idx_of i = Some c -> (c < length s)%nat /\ (c < length o)%nat) ->
  exists r' s' o', exec w i r s o = Ret (r', s', o') /\ length s' = length s /\ length o' = length o /\
    eqst (fun _ => True) (r', mem s', mem o') (exec1 w i (r, mem s, mem o)).
Proof.
  intros Hns Hc. destruct i as [|c|c v|c v|c]; [congruence| | | |]; destruct (Hc c eq_refl) as [H1 H2]; cbn [exec exec1].
  - unfold get. rewrite (nth_error_nth' s 0 H1). cbn [obind]. eexists _, _, _. split; [reflexivity|]. repeat split; auto.
  - destruct (set_word_mem s c v H1) as (s' & -> & Hl & Hm). cbn [obind]. eexists _, _, _. split; [reflexivity|]. repeat split; auto.
    intros d _. unfold st_s. cbn. apply Hm.
  - destruct (set_word_mem s c (wsub w r v) H1) as (s' & -> & Hl & Hm). cbn [obind]. eexists _, _, _. split; [reflexivity|]. repeat split; auto.
    intros d _. unfold st_s. cbn. apply Hm.
  - destruct (set_word_mem o c r H2) as (o' & -> & Hl & Hm). cbn [obind]. eexists _, _, _. split; [reflexivity|]. repeat split; auto.
    intros d _. unfold st_o. cbn. apply Hm.
Qed.

(** ** The threads *)
Lemma set_thread_nth ts t x u : (t < length ts)%nat -> nth u (set_thread ts t x) ([], 0) = if Nat.eqb u t then x else nth u ts ([], 0).
Proof.
  intros H. unfold set_thread. destruct (Nat.eqb_spec u t) as [->|Hne].
  - rewrite app_nth2 by (rewrite firstn_length; lia). rewrite firstn_length. replace (t - Nat.min t (length ts))%nat with 0%nat by lia. reflexivity.
  - destruct (Nat.ltb_spec u t).
    + rewrite app_nth1 by (rewrite firstn_length; lia). rewrite <- (firstn_skipn t ts) at 2. rewrite app_nth1; auto. rewrite firstn_length. lia.
    + rewrite app_nth2 by (rewrite firstn_length; lia). rewrite firstn_length. replace (u - Nat.min t (length ts))%nat with (S (u - S t)) by lia. cbn [nth].
      rewrite <- (firstn_skipn (S t) ts) at 2. rewrite app_nth2; rewrite firstn_length; [f_equal|]; lia.
Qed.
Lemma set_thread_length ts t x : (t < length ts)%nat -> length (set_thread ts t x) = length ts.
Proof. intros H. unfold set_thread. rewrite app_length, firstn_length. cbn [length]. rewrite skipn_length. lia. Qed.
Lemma count_cons p ts : instr_count (p :: ts) = (length (fst p) + instr_count ts)%nat.
Proof. reflexivity. Qed.
Lemma count_app ts us : instr_count (ts ++ us) = (instr_count ts + instr_count us)%nat.
Proof. unfold instr_count. rewrite map_app. apply list_sum_app. Qed.
Lemma nth_split_at {X} (d : X) : forall l t, (t < length l)%nat -> l = firstn t l ++ nth t l d :: skipn (S t) l.
Proof. induction l as [|a l IH]; intros [|t] H; cbn [length] in H; try lia; [reflexivity|]. cbn [firstn app nth skipn]. f_equal. apply IH. lia. Qed.
Lemma set_thread_count ts t rest r : (t < length ts)%nat ->
  (instr_count (set_thread ts t (rest, r)) + length (fst (nth t ts ([], 0%Z))) = instr_count ts + length rest)%nat.
Proof.
  intros H. pose proof (f_equal instr_count (nth_split_at (@nil instr, 0) ts t H)) as E. unfold set_thread. rewrite count_app, count_cons in *. cbn [fst]. lia.
Qed.
Lemma release_count ts : ts <> [] -> forallb waiting ts = true -> (instr_count (map (fun t => (tl (fst t), snd t)) ts) < instr_count ts)%nat.
Proof.
  intros Hne H. assert (G : (instr_count (map (fun t => (tl (fst t), snd t)) ts) + length ts = instr_count ts)%nat).
  { clear Hne. induction ts as [|[p r] ts IH]; [reflexivity|]. cbn [forallb] in H. apply andb_prop in H. destruct H as [H1 H2].
    cbn [map length]. rewrite !count_cons. destruct p as [|[| | | |] p]; try discriminate. cbn [tl length fst]. specialize (IH H2). lia. }
  destruct ts; [congruence|]. cbn [length] in G. lia.
Qed.

Section Sched.
Context (w : Z) (T m z : nat) (body : Z) (cells : nat -> list nat) (R : nat -> list instr) (E : nat -> Z -> Z).
Hypothesis HT : (0 < T)%nat.
Hypothesis Hz : (z < m)%nat.
Hypothesis Hcells : forall t c, (t < T)%nat -> In c (cells t) <-> (c < m /\ c mod T = t)%nat.
Hypothesis HR : forall t c r s o, (t < T)%nat -> In c (cells t) -> st_o (solo w (R t) (r, s, o)) c = E c (s c).
Hypothesis HRidx : forall t i c, (t < T)%nat -> In i (R t) -> idx_of i = Some c -> In c (cells t).
Hypothesis HRsync : forall t, (t < T)%nat -> syncs (R t) = syncs (R 0).

Let A (t : nat) : list instr := map (fun c => Store c 0) (cells t).
Let B (t : nat) : list instr := if Nat.eqb t 0 then [Store z body] else [].
Definition program (t : nat) : list instr := Sync :: A t ++ B t ++ Sync :: R t.
Let P := program.
Notation thr k t := (nth t (b_threads k) ([], 0)).
Definition view (k : block) (t : nat) : st := solo w (fst (thr k t)) (snd (thr k t), mem (b_shared k), mem (b_out k)).
Let start (c : nat) : Z := if Nat.eqb c z then body else 0.

Definition sched_inv (k : block) : Prop :=
  length (b_threads k) = T /\ length (b_shared k) = m /\ length (b_out k) = m /\
  (forall t, (t < T)%nat -> exists pre, P t = pre ++ fst (thr k t)) /\
  (exists n, forall t, (t < T)%nat -> syncs (fst (thr k t)) = n) /\
  (forall c, (c < m)%nat -> (c <> z \/ z mod T = 0)%nat -> st_o (view k (c mod T)) c = E c (start c)) /\
  ((z mod T <> 0)%nat -> In (Store z body) (fst (thr k 0)) \/ st_o (view k (z mod T)) z = E z body \/ st_o (view k (z mod T)) z = E z 0).

Lemma A_idx t i c : (t < T)%nat -> In i (A t) -> idx_of i = Some c -> In c (cells t).
Proof. intros Ht Hi Hc. unfold A in Hi. apply in_map_iff in Hi. destruct Hi as (d & <- & Hd). cbn in Hc. congruence. Qed.
Lemma A_sync t : syncs (A t) = 0%nat.
Proof. unfold A. induction (cells t) as [|c l IH]; [reflexivity|]. exact IH. Qed.
Lemma B_sync t : syncs (B t) = 0%nat.
Proof. unfold B. destruct (Nat.eqb t 0); reflexivity. Qed.
Lemma P_idx t i c : (t < T)%nat -> In i (P t) -> idx_of i = Some c -> In c (cells t) \/ (t = 0%nat /\ c = z /\ i = Store z body).
Proof.
  intros Ht Hi Hc. unfold P, program in Hi. destruct Hi as [<-|Hi]; [discriminate|].
  apply in_app_or in Hi. destruct Hi as [Hi|Hi]; [left; eapply A_idx; eauto|].
  apply in_app_or in Hi. destruct Hi as [Hi|Hi].
  - unfold B in Hi. destruct (Nat.eqb_spec t 0); [|destruct Hi]. destruct Hi as [<-|[]]. right. cbn in Hc. repeat split; auto. congruence.
  - destruct Hi as [<-|Hi]; [discriminate|]. left. eapply HRidx; eauto.
Qed.
Lemma P_idx_bound t i c : (t < T)%nat -> In i (P t) -> idx_of i = Some c -> (c < m)%nat.
Proof. intros Ht Hi Hc. destruct (P_idx t i c Ht Hi Hc) as [H|(_ & -> & _)]; [|exact Hz]. apply Hcells in H; tauto. Qed.

Lemma solo_A : forall l r s o c, st_s (solo w (map (fun c => Store c 0) l) (r, s, o)) c = if in_dec Nat.eq_dec c l then 0 else s c.
Proof.
  induction l as [|a l IH]; intros r s o c; [reflexivity|]. cbn [map solo fold_left exec1]. change (fold_left _ ?q ?x) with (solo w q x). rewrite IH.
  destruct (in_dec Nat.eq_dec c l) as [H|H], (in_dec Nat.eq_dec c (a :: l)) as [H'|H']; try reflexivity.
  - exfalso. apply H'. right. exact H.
  - unfold upd. destruct H' as [->|H']; [rewrite Nat.eqb_refl; reflexivity|contradiction].
  - unfold upd. destruct (Nat.eqb_spec c a) as [->|]; [|reflexivity]. exfalso. apply H'. left. reflexivity.
Qed.
Lemma solo_R t c x : (t < T)%nat -> In c (cells t) -> st_o (solo w (Sync :: R t) x) c = E c (st_s x c).
Proof. intros Ht Hc. destruct x as [[r s] o]. apply (HR t c r s o Ht Hc). Qed.

Lemma own_in c : (c < m)%nat -> (c mod T < T)%nat /\ In c (cells (c mod T)).
Proof. intros Hc. assert (c mod T < T)%nat by (apply Nat.mod_upper_bound; lia). split; auto. apply Hcells; auto. Qed.

Lemma init_inv shared out : length shared = m -> length out = m ->
  sched_inv (Block (map (fun t => (P t, 0)) (seq 0 T)) shared out).
Proof.
  intros Hs Ho. assert (Hth : forall t, (t < T)%nat -> nth t (map (fun t => (P t, 0)) (seq 0 T)) ([], 0) = (P t, 0)).
  { intros t Ht. rewrite (nth_indep _ ([], 0) ((fun t => (P t, 0)) 0%nat)) by (rewrite map_length, seq_length; auto).
    rewrite (map_nth (fun t => (P t, 0)) (seq 0 T) 0%nat t), seq_nth by auto. reflexivity. }
  unfold sched_inv. cbn [b_threads b_shared b_out]. repeat split; auto.
  - rewrite map_length, seq_length. reflexivity.
  - intros t Ht. rewrite Hth by auto. exists []. reflexivity.
  - exists (2 + syncs (R 0))%nat. intros t Ht. rewrite Hth by auto. cbn [fst]. unfold P, program.
    change (Sync :: A t ++ B t ++ Sync :: R t) with ([Sync] ++ A t ++ B t ++ [Sync] ++ R t). rewrite !syncs_app, A_sync, B_sync, HRsync by auto. reflexivity.
  - intros c Hc Hcz. destruct (own_in c Hc) as [Ht Hin]. unfold view. cbn [b_threads b_shared b_out]. rewrite Hth by auto. cbn [fst snd].
    unfold P, program. change (Sync :: A (c mod T) ++ B (c mod T) ++ Sync :: R (c mod T)) with ([Sync] ++ A (c mod T) ++ B (c mod T) ++ (Sync :: R (c mod T))).
    rewrite !solo_app. rewrite solo_R by auto. f_equal. unfold start, B.
    set (x := solo w [Sync] (0, mem shared, mem out)). assert (Hx : st_s (solo w (A (c mod T)) x) c = 0).
    { subst x. unfold A. cbn [solo fold_left exec1]. change (fold_left _ ?q ?x) with (solo w q x). rewrite solo_A. destruct (in_dec Nat.eq_dec c (cells (c mod T))); [reflexivity|contradiction]. }
    destruct (Nat.eqb_spec (c mod T) 0) as [E0|E0]; destruct (Nat.eqb_spec c z) as [Ez|Ez].
    + subst c. destruct (solo w (A (z mod T)) x) as [[r s] o]. cbn [solo fold_left exec1]. unfold st_s, upd. cbn. rewrite Nat.eqb_refl. reflexivity.
    + change (solo w [Store z body] ?y) with (exec1 w (Store z body) y). rewrite (proj1 (exec1_other w (Store z body) (solo w (A (c mod T)) x) c ltac:(cbn; congruence))). exact Hx.
    + subst c. destruct Hcz; [congruence|contradiction].
    + exact Hx.
  - intros Hz0. left. rewrite Hth by auto. cbn [fst]. unfold P, program. right. apply in_or_app. right. apply in_or_app. left. unfold B. cbn. auto.
Qed.

(** Suffixes *)
Lemma suffix_tail {X} (p : list X) pre i rest : p = pre ++ i :: rest -> p = (pre ++ [i]) ++ rest.
Proof. intros ->. rewrite <- app_assoc. reflexivity. Qed.
Lemma suffix_in t rem pre i : P t = pre ++ rem -> In i rem -> In i (P t).
Proof. intros -> H. apply in_or_app. auto. Qed.
(** A suffix of [q ++ Sync :: r] with more barriers than [r] contains [Sync :: r]. *)
Lemma suffix_sync (q r pre rem : list instr) : q ++ Sync :: r = pre ++ rem -> (syncs r < syncs rem)%nat -> exists q', rem = q' ++ Sync :: r /\ exists q'', q = q'' ++ q'.
Proof.
  revert q. induction pre as [|a pre IH]; intros q H Hs.
  - exists q. split; [auto|]. exists []. reflexivity.
  - destruct q as [|b q].
    + cbn [app] in H. injection H as _ H. exfalso. rewrite H, syncs_app in Hs. lia.
    + cbn [app] in H. injection H as <- H. destruct (IH q H Hs) as (q' & E1 & q'' & E2). exists q'. split; auto. exists (b :: q''). cbn. congruence.
Qed.

(** The suffix of thread 0 that starts with the body, when thread 0 does not own that cell *)
Lemma body_suffix pre rest : (z mod T <> 0)%nat -> P 0 = pre ++ Store z body :: rest -> rest = Sync :: R 0.
Proof.
  intros Hz0 H. assert (Hno : forall t i, (t < T)%nat -> t <> (z mod T)%nat -> In i (A t) \/ In i (R t) -> idx_of i <> Some z).
  { intros t i Ht Hne Hi Hc. assert (Hin : In z (cells t)) by (destruct Hi; [eapply A_idx|eapply HRidx]; eauto). apply Hcells in Hin; auto. lia. }
  unfold P, program in H. change (Sync :: A 0 ++ B 0 ++ Sync :: R 0) with ((Sync :: A 0) ++ [Store z body] ++ (Sync :: R 0)) in H.
  assert (G : forall l1 pre, (forall i, In i l1 -> i <> Store z body) -> l1 ++ Store z body :: (Sync :: R 0) = pre ++ Store z body :: rest -> rest = Sync :: R 0).
  { induction l1 as [|a l1 IH]; intros pre' Hl Heq.
    - destruct pre' as [|b pre']; [cbn in Heq; congruence|]. cbn [app] in Heq. injection Heq as _ Heq. exfalso.
      assert (H0 : In (Store z body) (Sync :: R 0)) by (rewrite Heq; apply in_elt). destruct H0 as [H0|H0]; [discriminate|].
      apply (Hno 0%nat (Store z body)); auto.
    - destruct pre' as [|b pre'].
      + cbn [app] in Heq. injection Heq as -> Heq. exfalso. apply (Hl (Store z body)); [left; auto|auto].
      + cbn [app] in Heq. injection Heq as _ Heq. apply (IH pre'); auto. intros i Hi. apply Hl. right. auto. }
  apply (G (Sync :: A 0) pre); auto. intros i [<-|Hi] Hc; [discriminate|]. subst i. apply (Hno 0%nat (Store z body)); auto.
Qed.

(** What a thread has still to do when thread 0 writes the body: set some of its cells to zero, pass the barrier, and the rest *)
Lemma before_barrier t pre rem c : (t < T)%nat -> t <> 0%nat -> In c (cells t) -> P t = pre ++ rem -> (syncs (R t) < syncs rem)%nat ->
  (forall x, st_o (solo w rem x) c = E c (st_s x c)) \/ (forall x, st_o (solo w rem x) c = E c 0).
Proof.
  intros Ht Ht0 Hin HP Hs. unfold P, program in HP. unfold B in HP. destruct (Nat.eqb_spec t 0); [contradiction|]. cbn [app] in HP.
  change (Sync :: A t ++ Sync :: R t) with ((Sync :: A t) ++ Sync :: R t) in HP. destruct (suffix_sync _ _ _ _ HP Hs) as (q' & -> & q'' & Hq).
  assert (Hq' : forall i, In i q' -> i = Sync \/ exists c, i = Store c 0).
  { intros i Hi. assert (In i (Sync :: A t)) by (rewrite Hq; apply in_or_app; auto). destruct H as [<-|H]; [auto|]. right. unfold A in H. apply in_map_iff in H. destruct H as (d & <- & _). eauto. }
  assert (G : (forall x, st_s (solo w q' x) c = st_s x c) \/ (forall x, st_s (solo w q' x) c = 0)).
  { clear - Hq'. induction q' as [|i q' IH]; [left; reflexivity|]. destruct IH as [H|H]; [intros; apply Hq'; right; auto| |].
    - destruct (Hq' i (or_introl eq_refl)) as [->|(d & ->)].
      + left. intros x. apply (H x).
      + destruct (Nat.eq_dec c d) as [->|Hne].
        * right. intros x. change (solo w (Store d 0 :: q') x) with (solo w q' (exec1 w (Store d 0) x)). rewrite H. unfold st_s. cbn [exec1 fst snd]. apply upd_same.
        * left. intros x. change (solo w (Store d 0 :: q') x) with (solo w q' (exec1 w (Store d 0) x)). rewrite H. apply exec1_other. cbn. congruence.
    - right. intros x. apply (H (exec1 w i x)). }
  destruct G as [G|G]; [left|right]; intros x; rewrite solo_app, solo_R, G by auto; reflexivity.
Qed.

(** ** One step *)
Lemma filter_nil_false {X} (f : X -> bool) l : filter f l = [] -> forall x, In x l -> f x = false.
Proof. intros H x Hx. destruct (f x) eqn:E1; auto. assert (In x (filter f l)) by (apply filter_In; auto). rewrite H in *. contradiction. Qed.
Lemma nth_thread k t : (t < length (b_threads k))%nat -> In (thr k t) (b_threads k).
Proof. apply nth_In. Qed.

Lemma thread_view_step k t i rest r r' s' o' : (t < length (b_threads k))%nat -> thr k t = (i :: rest, r) ->
  eqst (fun _ => True) (r', mem s', mem o') (exec1 w i (r, mem (b_shared k), mem (b_out k))) ->
  forall c, st_o (view (Block (set_thread (b_threads k) t (rest, r')) s' o') t) c = st_o (view k t) c.
Proof.
  intros Ht Et He c. unfold view. cbn [b_threads b_shared b_out]. rewrite set_thread_nth, Nat.eqb_refl by auto. rewrite Et. cbn [fst snd].
  change (solo w (i :: rest) (r, mem (b_shared k), mem (b_out k))) with (solo w rest (exec1 w i (r, mem (b_shared k), mem (b_out k)))).
  apply (solo_eqst w (fun _ => True) rest _ _ (fun _ _ => I) He). exact I.
Qed.
Lemma other_view_step k t u i rest r r' s' o' : (t < length (b_threads k))%nat -> u <> t ->
  eqst (fun _ => True) (r', mem s', mem o') (exec1 w i (r, mem (b_shared k), mem (b_out k))) ->
  (forall c, In (Load c) (fst (thr k u)) -> idx_of i <> Some c) ->
  forall c, idx_of i <> Some c -> st_o (view (Block (set_thread (b_threads k) t (rest, r')) s' o') u) c = st_o (view k u) c.
Proof.
  intros Ht Hne He Hd c Hc. unfold view. cbn [b_threads b_shared b_out]. rewrite set_thread_nth by auto. destruct (Nat.eqb_spec u t); [contradiction|].
  apply (solo_eqst w (fun d => idx_of i <> Some d) (fst (thr k u))); auto. destruct He as (_ & Hs & Ho). unfold eqst, st_s, st_o in *. cbn in *.
  repeat split; intros d Hdd; [rewrite (Hs d I)|rewrite (Ho d I)]; apply (exec1_other w i (r, mem (b_shared k), mem (b_out k)) d Hdd).
Qed.

(** What a step does: nothing is left; all pass a barrier; or thread [t] does [i], which touches a cell of its own or is the body. *)
Inductive step_result (choice : nat) (k : block) : outcome (option block) -> Prop :=
| step_end : (forall t, (t < T)%nat -> fst (thr k t) = []) -> step_result choice k (Ret None)
| step_barrier k' : length (b_threads k') = T -> length (b_shared k') = m -> length (b_out k') = m ->
    (forall t, (t < T)%nat -> fst (thr k t) = Sync :: fst (thr k' t)) ->
    (forall t, (t < T)%nat -> view k' t = view k t) ->
    (instr_count (b_threads k') < instr_count (b_threads k))%nat -> step_result choice k (Ret (Some k'))
| step_thread k' t i rest ci : length (b_threads k') = T -> length (b_shared k') = m -> length (b_out k') = m ->
    (t < T)%nat -> fst (thr k t) = i :: rest -> i <> Sync -> fst (thr k' t) = rest -> (forall u, u <> t -> fst (thr k' u) = fst (thr k u)) ->
    (choice = 0%nat -> forall u, (u < t)%nat -> runnable (thr k u) = false) ->
    idx_of i = Some ci ->
    (In ci (cells t) /\ (forall c, (c < m)%nat -> st_o (view k' (c mod T)) c = st_o (view k (c mod T)) c) \/
     t = 0%nat /\ i = Store z body /\ (z mod T <> 0)%nat /\ forall c, (c < m)%nat ->
      (c <> z -> st_o (view k' (c mod T)) c = st_o (view k (c mod T)) c) /\ (c = z -> st_o (view k' (c mod T)) c = E z body \/ st_o (view k' (c mod T)) c = E z 0)) ->
    (instr_count (b_threads k') < instr_count (b_threads k))%nat -> step_result choice k (Ret (Some k')).

Lemma filter_seq_first f n t0 ready a : filter f (seq a n) = t0 :: ready -> forall u, (a <= u < t0)%nat -> f u = false.
Proof.
  revert a. induction n as [|n IH]; intros a H u Hu; [discriminate|]. cbn [seq filter] in H. destruct (f a) eqn:Ea.
  - injection H as -> _. lia.
  - destruct (Nat.eq_dec u a) as [->|]; [auto|]. apply (IH (S a)); auto. lia.
Qed.
Lemma step_cases k choice : sched_inv k -> step_result choice k (block_step w choice k).
Proof.
  intros (HlT & Hls & Hlo & Hsuf & (n & Hn) & Hcell & Hzc). unfold block_step.
  destruct (filter (fun t => runnable (thr k t)) (seq 0 (length (b_threads k)))) as [|t0 ready] eqn:Er.
  - assert (Hnr : forall t, (t < T)%nat -> runnable (thr k t) = false).
    { intros t Ht. apply (filter_nil_false _ _ Er). apply in_seq. lia. }
    destruct (forallb finished (b_threads k)) eqn:Ef.
    + apply step_end. intros t Ht. rewrite forallb_forall in Ef. specialize (Ef (thr k t) (nth_thread k t ltac:(lia))).
      unfold finished in Ef. destruct (fst (thr k t)); [reflexivity|discriminate].
    + (* one has not finished: it waits, and so do all *)
      assert (Hw : forallb waiting (b_threads k) = true).
      { assert (Hn1 : (0 < n)%nat).
        { destruct (Nat.eq_dec n 0) as [->|]; [|lia]. exfalso. rewrite <- Bool.not_true_iff_false in Ef. apply Ef. apply forallb_forall. intros x Hx.
          destruct (In_nth _ _ ([], 0) Hx) as (t & Ht & <-). specialize (Hn t ltac:(lia)). specialize (Hnr t ltac:(lia)). unfold runnable, finished in *.
          destruct (fst (thr k t)) as [|[| | | |] q]; try discriminate; reflexivity. }
        apply forallb_forall. intros x Hx. destruct (In_nth _ _ ([], 0) Hx) as (t & Ht & <-). specialize (Hn t ltac:(lia)). specialize (Hnr t ltac:(lia)).
        unfold runnable, waiting in *. destruct (fst (thr k t)) as [|[| | | |] q]; try discriminate; [cbn in Hn; lia|reflexivity]. }
      rewrite Hw.
      assert (Hth : forall t, (t < T)%nat -> nth t (map (fun t => (tl (fst t), snd t)) (b_threads k)) ([], 0) = (tl (fst (thr k t)), snd (thr k t))).
      { intros t Ht. change (@nil instr, 0) with ((fun t : list instr * Z => (tl (fst t), snd t)) (@nil instr, 0)) at 1. rewrite map_nth. reflexivity. }
      assert (Hhd : forall t, (t < T)%nat -> fst (thr k t) = Sync :: tl (fst (thr k t))).
      { intros t Ht. rewrite forallb_forall in Hw. specialize (Hw (thr k t) (nth_thread k t ltac:(lia))). unfold waiting in Hw. destruct (fst (thr k t)) as [|[| | | |] q]; try discriminate. reflexivity. }
      assert (Hv : forall t, (t < T)%nat -> view (Block (map (fun t => (tl (fst t), snd t)) (b_threads k)) (b_shared k) (b_out k)) t = view k t).
      { intros t Ht. unfold view. cbn [b_threads b_shared b_out]. rewrite Hth by auto. cbn [fst snd]. rewrite (Hhd t Ht) at 2. reflexivity. }
      apply step_barrier; cbn [b_threads b_shared b_out]; auto.
      * rewrite map_length. auto.
      * intros t Ht. rewrite Hth by auto. cbn [fst]. auto.
      * apply release_count; auto. intros E0. rewrite E0 in HlT. cbn in HlT. lia.
  - (* a thread runs *)
    set (t := nth (choice mod length (t0 :: ready)) (t0 :: ready) 0%nat).
    assert (Htin : In t (t0 :: ready)) by (apply nth_In; apply Nat.mod_upper_bound; cbn; lia).
    rewrite <- Er in Htin. apply filter_In in Htin. destruct Htin as [Ht Hrun]. apply in_seq in Ht.
    assert (HtT : (t < T)%nat) by lia.
    assert (Hfirst : choice = 0%nat -> forall u, (u < t)%nat -> runnable (thr k u) = false).
    { intros Hch u Hu. apply (filter_seq_first _ _ _ _ _ Er). assert (Ht0 : t = t0) by (unfold t; rewrite Hch, Nat.mod_0_l by (cbn; lia); reflexivity). lia. }
    clearbody t.
    destruct (thr k t) as [[|i rest] r] eqn:Et; [discriminate|].
    assert (Hns : i <> Sync) by (intros ->; discriminate).
    destruct (Hsuf t HtT) as (pre & HP). rewrite Et in HP. cbn [fst] in HP.
    assert (HiP : In i (P t)) by (rewrite HP; apply in_or_app; right; left; auto).
    destruct (exec_ok w i r (b_shared k) (b_out k) Hns) as (r' & s' & o' & Ee & Hs' & Ho' & He).
    { intros c Hc. rewrite Hls, Hlo. pose proof (P_idx_bound t i c HtT HiP Hc). auto. }
    rewrite Ee. cbn [obind].
    assert (Hth : forall u, thr (Block (set_thread (b_threads k) t (rest, r')) s' o') u = if Nat.eqb u t then (rest, r') else thr k u).
    { intros u. cbn [b_threads]. apply set_thread_nth. lia. }
    set (k' := Block (set_thread (b_threads k) t (rest, r')) s' o') in *.
    assert (Hload : forall u c, (u < T)%nat -> In (Load c) (fst (thr k u)) -> In c (cells u)).
    { intros u c Hu Hl. destruct (Hsuf u Hu) as (preu & HPu). destruct (P_idx u (Load c) c Hu (suffix_in u _ preu _ HPu Hl) eq_refl) as [H|(_ & _ & H)]; [auto|discriminate]. }
    destruct (idx_of i) as [ci|] eqn:Hic; [|destruct i; try discriminate; congruence].
    (* either thread t touches a cell of its own, or it is thread 0 and it writes the body in a cell of another thread *)
    assert (Hcase : In ci (cells t) \/ (t = 0%nat /\ i = Store z body /\ (z mod T <> 0)%nat)).
    { destruct (Nat.eq_dec (ci mod T) t) as [E1|E1]; [left; apply Hcells; auto; split; auto; eapply P_idx_bound; eauto|].
      destruct (P_idx t i ci HtT HiP Hic) as [H|(-> & -> & ->)]; auto. }
    assert (Hcnt : (instr_count (b_threads k') < instr_count (b_threads k))%nat).
    { unfold k'. cbn [b_threads]. pose proof (set_thread_count (b_threads k) t rest r' ltac:(lia)) as Hk. rewrite Et in Hk. cbn [fst length] in Hk. lia. }
    assert (Hviews : In ci (cells t) -> forall c, (c < m)%nat -> st_o (view k' (c mod T)) c = st_o (view k (c mod T)) c).
    { intros Hci c Hc. destruct (own_in c Hc) as [HcT Hcin]. destruct (Nat.eq_dec (c mod T) t) as [<-|Hne]; [apply (thread_view_step k (c mod T) i rest r r' s' o'); auto; lia|].
      apply Hcells in Hci; auto. apply (other_view_step k t (c mod T) i rest r r' s' o'); auto; try lia.
      - intros d Hd. apply Hload in Hd; auto. apply Hcells in Hd; auto. rewrite Hic. intros [= ->]. lia.
      - rewrite Hic. intros [= ->]. lia. }
    (* the body of a ciphertext whose last cell belongs to another thread *)
    assert (Hbody : t = 0%nat -> i = Store z body -> (z mod T <> 0)%nat -> forall c, (c < m)%nat ->
      (c <> z -> st_o (view k' (c mod T)) c = st_o (view k (c mod T)) c) /\ (c = z -> st_o (view k' (c mod T)) c = E z body \/ st_o (view k' (c mod T)) c = E z 0)).
    { intros Ht0 Hi Hz0 c Hc. destruct (own_in c Hc) as [HcT Hcin]. destruct (Nat.eq_dec (c mod T) 0) as [Ec|Ec].
      { split; [|intros ->; contradiction]. intros _. rewrite Ec, <- Ht0. apply (thread_view_step k t i rest r r' s' o'); auto; lia. }
      subst t i. pose proof (body_suffix pre rest Hz0 HP) as Hrest. specialize (Hn (c mod T)%nat HcT) as Hnc. specialize (Hn 0%nat HT). rewrite Et, Hrest in Hn. cbn [fst] in Hn.
      destruct (Hsuf (c mod T)%nat HcT) as (preu & HPu).
      assert (Hsc : (syncs (R (c mod T)) < syncs (fst (thr k (c mod T))))%nat).
      { rewrite Hnc, <- Hn, HRsync by auto. unfold syncs. cbn [filter length]. lia. }
      assert (Hk' : fst (thr k' (c mod T)) = fst (thr k (c mod T))) by (rewrite Hth; destruct (Nat.eqb_spec (c mod T) 0); [contradiction|reflexivity]).
      destruct He as (_ & Hes & _). unfold st_s in Hes. cbn [exec1 fst snd] in Hes.
      destruct (before_barrier (c mod T) preu _ c HcT Ec Hcin HPu Hsc) as [H|H]; unfold view; rewrite Hk', !H; unfold st_s; cbn [fst snd]; unfold k'; cbn [b_shared]; split.
      - intros Hcz. rewrite (Hes c I). unfold upd. destruct (Nat.eqb_spec c z); [contradiction|reflexivity].
      - intros ->. rewrite (Hes z I), upd_same. auto.
      - reflexivity.
      - intros ->. auto. }
    apply (step_thread choice k k' t i rest ci); auto.
    + unfold k'. cbn [b_threads]. rewrite set_thread_length; lia.
    + unfold k'. cbn [b_shared]. lia.
    + unfold k'. cbn [b_out]. lia.
    + rewrite Et. reflexivity.
    + rewrite Hth, Nat.eqb_refl. reflexivity.
    + intros u Hu. rewrite Hth. destruct (Nat.eqb_spec u t); [contradiction|reflexivity].
    + destruct Hcase as [Hci|(H0 & Hi & Hz0)]; [left|right]; auto.
Qed.

Lemma step_ok k choice : sched_inv k ->
  (exists k', block_step w choice k = Ret (Some k') /\ sched_inv k' /\ (instr_count (b_threads k') < instr_count (b_threads k))%nat) \/
  (block_step w choice k = Ret None /\ forall t, (t < T)%nat -> fst (thr k t) = []).
Proof.
  intros Hk. pose proof (step_cases k choice Hk) as Hs. destruct Hk as (HlT & Hls & Hlo & Hsuf & (n & Hn) & Hcell & Hzc).
  inversion Hs as [Hfin Heq|k' H1 H2 H3 Hhd Hv Hcnt Heq|k' t i rest ci H1 H2 H3 HtT Et Hns Et' Hu _ Hic Hcase Hcnt Heq].
  - right. auto.
  - left. exists k'. split; [reflexivity|]. split; [|auto]. unfold sched_inv. repeat split; auto.
    + intros t Ht. destruct (Hsuf t Ht) as (pre & HP). exists (pre ++ [Sync]). apply suffix_tail. rewrite <- Hhd; auto.
    + exists (n - 1)%nat. intros t Ht. specialize (Hn t Ht). rewrite (Hhd t Ht) in Hn. unfold syncs in *. cbn [filter length] in Hn. lia.
    + intros c Hc Hcz. rewrite Hv by (apply own_in; auto). auto.
    + intros Hz0. rewrite Hv by (apply own_in; auto). destruct (Hzc Hz0) as [Hin|H]; [|auto]. left. rewrite (Hhd 0%nat HT) in Hin. destruct Hin as [H|H]; [discriminate|auto].
  - left. exists k'. split; [reflexivity|]. split; [|auto].
    assert (Hth : forall u, fst (thr k' u) = if Nat.eqb u t then rest else fst (thr k u)).
    { intros u. destruct (Nat.eqb_spec u t) as [->|Hne]; auto. }
    destruct (Hsuf t HtT) as (pre & HP). rewrite Et in HP.
    unfold sched_inv. repeat split; auto.
    + intros u Hut. rewrite Hth. destruct (Nat.eqb_spec u t) as [->|]; [|apply Hsuf; auto]. exists (pre ++ [i]). apply suffix_tail. exact HP.
    + exists n. intros u Hut. rewrite Hth. destruct (Nat.eqb_spec u t) as [->|]; [|apply Hn; auto]. rewrite <- (Hn t HtT), Et.
      unfold syncs. cbn [filter]. destruct i; try reflexivity. congruence.
    + intros c Hc Hcz. rewrite <- (Hcell c Hc Hcz). destruct Hcase as [(Hci & Hviews)|(H0 & Hi & Hz0 & Hbody)]; [auto|]. apply Hbody; auto. destruct Hcz; [auto|contradiction].
    + intros Hz0. destruct Hcase as [(Hci & Hviews)|(H0 & Hi & _ & Hbody)]; [|right; apply Hbody; auto].
      rewrite Hviews by auto. destruct (Hzc Hz0) as [Hin|H]; [|auto]. left. rewrite Hth. destruct (Nat.eqb_spec 0 t) as [<-|]; [|auto].
      rewrite Et in Hin. destruct Hin as [->|Hin]; [|auto]. exfalso. cbn in Hic. injection Hic as <-. apply Hcells in Hci; auto. lia.
Qed.

(** ** A whole run *)
Definition outcome_ok (o : list Z) : Prop :=
  length o = m /\ (forall c, (c < m)%nat -> (c <> z \/ z mod T = 0)%nat -> nth c o 0 = E c (start c)) /\
  (nth z o 0 = E z body \/ nth z o 0 = E z 0).
Lemma run_inv : forall fuel choices k, sched_inv k -> (instr_count (b_threads k) < fuel)%nat ->
  exists k', block_run w fuel choices k = Ret k' /\ outcome_ok (b_out k').
Proof.
  induction fuel as [|fuel IH]; intros choices k Hk Hf; [lia|]. cbn [block_run].
  destruct (step_ok k (hd 0%nat choices) Hk) as [(k' & -> & Hk' & Hc)|(-> & Hfin)]; cbn [obind].
  - apply IH; auto. lia.
  - exists k. split; [reflexivity|]. destruct Hk as (_ & _ & Hlo & _ & _ & Hcell & Hzc).
    assert (Hv : forall c, (c < m)%nat -> st_o (view k (c mod T)) c = nth c (b_out k) 0).
    { intros c Hc. unfold view. rewrite (Hfin (c mod T)%nat) by (apply own_in; auto). reflexivity. }
    split; [auto|split].
    + intros c Hc Hcz. rewrite <- Hv by auto. auto.
    + destruct (Nat.eq_dec (z mod T) 0) as [E0|E0].
      * left. rewrite <- Hv by auto. rewrite Hcell by auto. unfold start. rewrite Nat.eqb_refl. reflexivity.
      * destruct (Hzc E0) as [H|H]; [rewrite Hfin in H by auto; destruct H|]. rewrite <- Hv by auto. exact H.
Qed.

(** ** The schedule that always runs the first thread that can *)
Definition first_inv (k : block) : Prop :=
  In (Store z body) (fst (thr k 0)) /\ (forall t, (0 < t < T)%nat -> fst (thr k t) = P t \/ P t = Sync :: fst (thr k t)) \/
  ~ In (Store z body) (fst (thr k 0)) /\ st_o (view k (z mod T)) z = E z 0.
Lemma P_syncs t : (t < T)%nat -> syncs (P t) = (2 + syncs (R 0))%nat.
Proof.
  intros Ht. unfold P, program. change (Sync :: A t ++ B t ++ Sync :: R t) with ([Sync] ++ A t ++ B t ++ [Sync] ++ R t). rewrite !syncs_app, A_sync, B_sync, HRsync by auto. reflexivity.
Qed.
Lemma pending_syncs pre rem : (z mod T <> 0)%nat -> P 0 = pre ++ rem -> In (Store z body) rem -> (1 + syncs (R 0) <= syncs rem)%nat /\ (hd Sync rem = Sync -> (2 + syncs (R 0) <= syncs rem)%nat).
Proof.
  intros Hz0 HP Hin. apply in_split in Hin. destruct Hin as (q1 & q2 & ->). rewrite app_assoc in HP. pose proof (body_suffix _ _ Hz0 HP) as ->.
  rewrite syncs_app. split.
  - unfold syncs. cbn [filter length]. lia.
  - destruct q1 as [|[| | | |] q1]; cbn [hd app]; intros H; try discriminate. unfold syncs. cbn [filter length]. lia.
Qed.
Lemma zero_before t x : (0 < t < T)%nat -> In z (cells t) -> st_o (solo w (P t) x) z = E z 0 /\ st_o (solo w (tl (P t)) x) z = E z 0.
Proof.
  intros Ht Hin. assert (G : st_o (solo w (tl (P t)) x) z = E z 0); [|split; [exact G|exact G]].
  unfold P, program, B. destruct (Nat.eqb_spec t 0); [lia|]. cbn [tl app]. rewrite solo_app, solo_R by (auto; lia). destruct x as [[r s] o]. unfold A. rewrite solo_A.
  destruct (in_dec Nat.eq_dec z (cells t)); [reflexivity|contradiction].
Qed.
Lemma first_step k k' : (z mod T <> 0)%nat -> sched_inv k -> first_inv k -> block_step w 0 k = Ret (Some k') -> first_inv k'.
Proof.
  intros Hz0 Hk Hf Hstep. pose proof (step_cases k 0 Hk) as Hs. rewrite Hstep in Hs. destruct Hk as (HlT & Hls & Hlo & Hsuf & (n & Hn) & _ & _).
  destruct (own_in z Hz) as [HoT Hoin].
  inversion Hs as [Hfin Heq|k0 H1 H2 H3 Hhd Hv Hcnt Heq|k0 t i rest ci H1 H2 H3 HtT Et Hns Et' Hu Hfst Hic Hcase Hcnt Heq]; clear Hs; subst k0.
  - destruct Hf as [[Hp Ho]|[Hp Hview]].
    + left. split; [rewrite (Hhd 0%nat HT) in Hp; destruct Hp as [Hp|Hp]; [discriminate|auto]|].
      intros t Ht. right. rewrite <- Hhd by lia. destruct (Ho t Ht) as [H|H]; [auto|]. exfalso.
      destruct (Hsuf 0%nat HT) as (pre & HP). destruct (pending_syncs pre _ Hz0 HP Hp) as [_ H']. assert (Hh : hd Sync (fst (thr k 0)) = Sync) by (rewrite (Hhd 0%nat HT); reflexivity). specialize (H' Hh). rewrite (Hn 0%nat HT) in H'.
      pose proof (P_syncs t ltac:(lia)) as Hps. rewrite H in Hps. unfold syncs in Hps at 1. cbn [filter length] in Hps. fold (syncs (fst (thr k t))) in Hps. rewrite (Hn t) in Hps by lia. lia.
    + right. split; [intros H; apply Hp; rewrite (Hhd 0%nat HT); right; auto|]. rewrite Hv; auto.
  - destruct Hf as [[Hp Ho]|[Hp Hview]].
    + destruct (Nat.eq_dec t 0) as [->|Hne].
      * rewrite Et in Hp. destruct (in_dec (fun x y : instr => ltac:(decide equality; (apply Nat.eq_dec || apply Z.eq_dec)) : {x = y} + {x <> y}) (Store z body) rest) as [Hr|Hr].
        -- left. split; [rewrite Et'; auto|]. intros u Hut. rewrite Hu by lia. auto.
        -- right. rewrite Et'. split; [auto|]. unfold view. assert (Ho' : (0 < z mod T < T)%nat) by lia. rewrite Hu by lia.
           destruct (Ho _ Ho') as [H|H]; [rewrite H|replace (fst (thr k (z mod T))) with (tl (P (z mod T))) by (rewrite H; reflexivity)]; apply zero_before; auto.
      * exfalso. specialize (Hfst eq_refl 0%nat ltac:(lia)).
        destruct (Hsuf 0%nat HT) as (pre & HP). destruct (pending_syncs pre _ Hz0 HP Hp) as [_ H'].
        assert (Hh : hd Sync (fst (thr k 0)) = Sync).
        { unfold runnable in Hfst. destruct (fst (thr k 0)) as [|[| | | |] q]; try discriminate; reflexivity. }
        specialize (H' Hh). rewrite (Hn 0%nat HT) in H'.
        destruct (Ho t ltac:(lia)) as [H|H]; [rewrite Et in H; unfold P, program in H; injection H as -> _; congruence|].
        pose proof (P_syncs t ltac:(lia)) as Hps. rewrite H in Hps. unfold syncs in Hps at 1. cbn [filter length] in Hps. fold (syncs (fst (thr k t))) in Hps. rewrite (Hn t) in Hps by lia. lia.
    + right. destruct Hcase as [(Hci & Hviews)|(H0 & Hi & _ & Hbody)].
      * rewrite Hviews by auto. split; [|auto]. intros H. apply Hp. destruct (Nat.eq_dec 0 t) as [<-|Hne]; [rewrite Et; right; rewrite <- Et'; auto|]. rewrite <- Hu; auto.
      * exfalso. apply Hp. subst. rewrite Et. left. reflexivity.
Qed.
Lemma first_run : (z mod T <> 0)%nat -> forall fuel k, sched_inv k -> first_inv k -> forall k', block_run w fuel [] k = Ret k' -> nth z (b_out k') 0 = E z 0.
Proof.
  intros Hz0. induction fuel as [|fuel IH]; intros k Hk Hf k' H; [discriminate|]. cbn [block_run hd tl] in H.
  destruct (step_ok k 0 Hk) as [(k1 & Hs & Hk1 & _)|(Hs & Hfin)]; pose proof Hs as Hs0; rewrite Hs0 in H; cbn [obind] in H.
  - exact (IH k1 Hk1 (first_step k k1 Hz0 Hk Hf Hs) k' H).
  - injection H as <-. destruct Hf as [[Hp _]|[_ Hv]]; [rewrite Hfin in Hp by auto; destruct Hp|].
    unfold view in Hv. rewrite Hfin in Hv by (apply own_in; auto). exact Hv.
Qed.
Lemma first_init shared out : first_inv (Block (map (fun t => (P t, 0)) (seq 0 T)) shared out).
Proof.
  assert (Hth : forall t, (t < T)%nat -> nth t (map (fun t => (P t, 0)) (seq 0 T)) ([], 0) = (P t, 0)).
  { intros t Ht. rewrite (nth_indep _ ([], 0) ((fun t => (P t, 0)) 0%nat)) by (rewrite map_length, seq_length; auto).
    rewrite (map_nth (fun t => (P t, 0)) (seq 0 T) 0%nat t), seq_nth by auto. reflexivity. }
  left. cbn [b_threads]. split.
  - rewrite Hth by auto. cbn [fst]. unfold P, program. right. apply in_or_app. right. apply in_or_app. left. unfold B. cbn. auto.
  - intros t Ht. left. rewrite Hth by lia. reflexivity.
Qed.
End Sched.
