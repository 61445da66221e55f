(** * C34: the parallel generations give the sequential result, whatever the schedule *)
From Coq Require Import Relations.Relation_Operators Wellfounded.
From Verif Require Import Base Word PolyModel RandomModel LweModel GlweModel GgswModel GgswProofs DecompModel KeyswitchModel SeededModel ParModel.

(** ** What is claimed of a parallel execution *)
Definition steps {A} : pstate A -> pstate A -> Prop := clos_refl_trans_1n _ pstep.
Inductive ends_with {A} : pstate A -> outcome (list A) -> Prop :=
| ends_done mem : ends_with (Running [] mem) (Ret mem)
| ends_panicked : ends_with Panicked Panic.
(** Every execution ends: no infinite sequence of steps, and a state without a successor is final; and
    whatever the order of the steps the end is [r]. *)
Definition all_schedules_give {A} (st : pstate A) (r : outcome (list A)) : Prop :=
  (forall st', steps st st' -> (exists st'', pstep st' st'') \/ exists r', ends_with st' r') /\
  Acc (fun b a => pstep a b) st /\
  (forall st' r', steps st st' -> ends_with st' r' -> r' = r).

(** ** Confluence *)
Section Conf.
Context {A : Type}.
Notation leaf := (nat * (A -> outcome A))%type.

Fixpoint leaves (w : work A) : option (list leaf) :=
  match w with
  | Leaf s f => Some [(s, f)]
  | Node None => None
  | Node (Some cs) =>
      (fix go cs := match cs with
                    | [] => Some []
                    | c :: cs' => match leaves c, go cs' with Some a, Some b => Some (a ++ b) | _, _ => None end
                    end) cs
  end.
Fixpoint leaves_all (ws : list (work A)) : option (list leaf) :=
  match ws with
  | [] => Some []
  | c :: cs' => match leaves c, leaves_all cs' with Some a, Some b => Some (a ++ b) | _, _ => None end
  end.
Lemma leaves_node cs : leaves (Node (Some cs)) = leaves_all cs.
Proof. reflexivity. Qed.
Lemma leaves_app a b : leaves_all (a ++ b) = match leaves_all a, leaves_all b with Some x, Some y => Some (x ++ y) | _, _ => None end.
Proof.
  induction a as [|c a IH]; cbn [leaves_all app]; [destruct (leaves_all b); reflexivity|]. rewrite IH.
  destruct (leaves c), (leaves_all a), (leaves_all b); try reflexivity. rewrite app_assoc. reflexivity.
Qed.

Fixpoint run (ls : list leaf) (mem : list A) : outcome (list A) :=
  match ls with [] => Ret mem | (s, f) :: ls' => let! mem := write_slot s f mem in run ls' mem end.
Definition exec (ws : list (work A)) (mem : list A) : outcome (list A) :=
  match leaves_all ws with None => Panic | Some ls => run ls mem end.

Lemma run_app a b mem : run (a ++ b) mem = let! mem := run a mem in run b mem.
Proof. revert mem. induction a as [|[s f] a IH]; intros mem; [reflexivity|]. cbn [run app]. destruct (write_slot s f mem); [apply IH|reflexivity]. Qed.

Lemma nth_replace_same (l : list A) n x : (n < length l)%nat -> nth_error (replace_nth n x l) n = Some x.
Proof. revert n. induction l as [|a l IH]; intros [|n] H; cbn in *; try lia; [reflexivity|]. apply IH. lia. Qed.
Lemma nth_replace_other (l : list A) n m x : n <> m -> nth_error (replace_nth n x l) m = nth_error l m.
Proof. revert n m. induction l as [|a l IH]; intros [|n] [|m] H; cbn; try reflexivity; try congruence. apply IH. congruence. Qed.
Lemma replace_comm (l : list A) n m x y : n <> m -> replace_nth n x (replace_nth m y l) = replace_nth m y (replace_nth n x l).
Proof. revert n m. induction l as [|a l IH]; intros [|n] [|m] H; cbn; try reflexivity; try congruence. rewrite IH by congruence. reflexivity. Qed.

Lemma write_comm s1 f1 s2 f2 (mem : list A) : s1 <> s2 ->
  (let! m := write_slot s1 f1 mem in write_slot s2 f2 m) = (let! m := write_slot s2 f2 mem in write_slot s1 f1 m).
Proof.
  intros H. unfold write_slot. destruct (nth_error mem s1) as [a|] eqn:E1; destruct (nth_error mem s2) as [b|] eqn:E2; cbn [obind]; try reflexivity.
  - destruct (f1 a) as [x|] eqn:F1; cbn [obind].
    + rewrite nth_replace_other, E2 by congruence. destruct (f2 b) as [y|]; cbn [obind]; [|reflexivity].
      rewrite nth_replace_other, E1 by congruence. rewrite F1. cbn [obind]. rewrite replace_comm by congruence. reflexivity.
    + destruct (f2 b) as [y|]; cbn [obind]; [|reflexivity]. rewrite nth_replace_other, E1 by congruence. rewrite F1. reflexivity.
  - destruct (f1 a) as [x|]; cbn [obind]; [|reflexivity]. rewrite nth_replace_other, E2 by congruence. reflexivity.
  - destruct (f2 b) as [y|]; cbn [obind]; [|reflexivity]. rewrite nth_replace_other, E1 by congruence. reflexivity.
Qed.

Lemma run_front s f : forall l1 l2 mem, ~ In s (map fst l1) -> run (l1 ++ (s, f) :: l2) mem = let! m := write_slot s f mem in run (l1 ++ l2) m.
Proof.
  induction l1 as [|[s1 f1] l1 IH]; intros l2 mem H; [reflexivity|]. cbn [app run map fst] in *.
  assert (s1 <> s) by (intros ->; apply H; left; reflexivity).
  transitivity (let! m := (let! m := write_slot s1 f1 mem in write_slot s f m) in run (l1 ++ l2) m).
  - destruct (write_slot s1 f1 mem) as [m|]; [|reflexivity]. cbn [obind]. apply IH. intros Hin. apply H. right. exact Hin.
  - rewrite write_comm by assumption. destruct (write_slot s f mem); reflexivity.
Qed.

Definition disjoint (ws : list (work A)) : Prop := forall ls, leaves_all ws = Some ls -> NoDup (map fst ls).

(** The end of the execution of the pool in order; a state keeps it. *)
Definition meaning (st : pstate A) : outcome (list A) := match st with Running ws mem => exec ws mem | Panicked => Panic end.
Definition inv (st : pstate A) : Prop := match st with Running ws _ => disjoint ws | Panicked => True end.

Lemma step_inv st st' : inv st -> pstep st st' -> inv st' /\ meaning st' = meaning st.
Proof.
  intros Hi S. destruct S as [a s f b mem mem' E|a s f b mem E|a cs b mem|a b mem]; cbn [inv meaning] in *; unfold disjoint, exec in *;
    rewrite ?leaves_app in *; cbn [leaves_all leaves] in *.
  - destruct (leaves_all a) as [la|]; [|split; [discriminate|reflexivity]]. destruct (leaves_all b) as [lb|]; [|split; [discriminate|reflexivity]].
    specialize (Hi _ eq_refl). cbn [app] in Hi. rewrite map_app in Hi. cbn [map fst] in Hi. split.
    + intros ls [= <-]. rewrite map_app. apply NoDup_remove_1 in Hi. exact Hi.
    + cbn [app]. rewrite run_front, E; [reflexivity|]. apply NoDup_remove_2 in Hi. rewrite in_app_iff in Hi. tauto.
  - split; [exact I|]. destruct (leaves_all a) as [la|]; [|reflexivity]. destruct (leaves_all b) as [lb|]; [|reflexivity].
    specialize (Hi _ eq_refl). cbn [app] in Hi. rewrite map_app in Hi. cbn [map fst] in Hi. cbn [app]. rewrite run_front, E; [reflexivity|].
    apply NoDup_remove_2 in Hi. rewrite in_app_iff in Hi. tauto.
  - change ((fix go cs := match cs with [] => Some [] | c :: cs' => match leaves c, go cs' with Some a, Some b => Some (a ++ b) | _, _ => None end end) cs)
      with (leaves_all cs) in *. split; [exact Hi|reflexivity].
  - split; [exact I|]. destruct (leaves_all a); reflexivity.
Qed.

Lemma steps_inv st st' : steps st st' -> inv st -> inv st' /\ meaning st' = meaning st.
Proof.
  induction 1 as [st|st st1 st2 S _ IH]; intros Hi; [auto|]. destruct (step_inv _ _ Hi S) as [Hi1 M1]. destruct (IH Hi1) as [Hi2 M2]. split; congruence.
Qed.

(** Termination *)
Fixpoint weight (w : work A) : nat :=
  match w with
  | Leaf _ _ => 1
  | Node None => 1
  | Node (Some cs) => S ((fix go cs := match cs with [] => O | c :: cs' => weight c + go cs' end) cs)
  end%nat.
Fixpoint weights (ws : list (work A)) : nat := match ws with [] => O | c :: cs' => weight c + weights cs' end%nat.
Lemma weights_app a b : weights (a ++ b) = (weights a + weights b)%nat.
Proof. induction a as [|c a IH]; cbn; lia. Qed.
Lemma weight_node cs : weight (Node (Some cs)) = S (weights cs).
Proof. reflexivity. Qed.
Definition measure (st : pstate A) : nat := match st with Running ws _ => S (weights ws) | Panicked => O end.
Lemma step_measure st st' : pstep st st' -> (measure st' < measure st)%nat.
Proof.
  intros S. destruct S as [a s f b mem mem' E|a s f b mem E|a cs b mem|a b mem]; cbn [measure]; rewrite ?weights_app; cbn [weights]; rewrite ?weight_node; cbn [weight]; lia.
Qed.
Lemma steps_terminate st : Acc (fun b a : pstate A => pstep a b) st.
Proof.
  assert (H : forall n st, (measure st < n)%nat -> Acc (fun b a : pstate A => pstep a b) st).
  { induction n as [|n IH]; intros s Hs; [lia|]. constructor. intros s' S. apply IH. apply step_measure in S. lia. }
  apply (H (S (measure st))). lia.
Qed.
Lemma progress (st : pstate A) : (exists st', pstep st st') \/ exists r, ends_with st r.
Proof.
  destruct st as [[|[s f|[cs|]] ws] mem|].
  - right. eexists. constructor.
  - left. destruct (write_slot s f mem) as [mem'|] eqn:E; eexists; [apply (step_leaf []); exact E|apply (step_leaf_panics []); exact E].
  - left. eexists. apply (step_node []).
  - left. eexists. apply (step_node_panics []).
  - right. eexists. constructor.
Qed.

Theorem all_schedules ws mem : disjoint ws -> all_schedules_give (Running ws mem) (exec ws mem).
Proof.
  intros Hd. split; [intros; apply progress|]. split; [apply steps_terminate|]. intros st' r' S E.
  destruct (steps_inv _ _ S Hd) as [_ M]. cbn [meaning] in M. rewrite <- M. destruct E; reflexivity.
Qed.

(** ** Pools that work on one part of the memory *)
Definition acts (base : nat) (part : list A) (ws : list (work A)) (o : outcome (list A)) : Prop :=
  (forall pre post, length pre = base -> exec ws (pre ++ part ++ post) = let! r := o in Ret (pre ++ r ++ post)) /\
  (forall r, o = Ret r -> length r = length part) /\
  (forall ls, leaves_all ws = Some ls -> NoDup (map fst ls) /\ Forall (fun s => base <= s < base + length part)%nat (map fst ls)).

Lemma acts_nil base part : acts base part [] (Ret part).
Proof. split; [reflexivity|]. split; [intros r [= <-]; reflexivity|]. intros ls [= <-]. split; constructor. Qed.

Lemma acts_leaf base a f : acts base [a] [Leaf base f] (let! x := f a in Ret [x]).
Proof.
  split; [|split].
  - intros pre post Hl. unfold exec. cbn [leaves_all leaves app]. cbn [run]. unfold write_slot.
    rewrite nth_error_app2 by lia. replace (base - length pre)%nat with O by lia. cbn [nth_error]. destruct (f a) as [x|]; [|reflexivity]. cbn [obind].
    f_equal. subst base. clear. induction pre as [|y pre IH]; [reflexivity|]. cbn. rewrite IH. reflexivity.
  - intros r E. destruct (f a); [|discriminate]. injection E as <-. reflexivity.
  - intros ls [= <-]. split; [repeat constructor; intros []|repeat constructor; cbn; lia].
Qed.

Lemma acts_node base part o ws : (forall l, o = Ret l -> acts base part l ws) -> (o = Panic -> ws = Panic) -> acts base part [node_of o] ws.
Proof.
  intros H HP. unfold node_of. destruct o as [l|].
  - destruct (H l eq_refl) as (H1 & H2 & H3).
    assert (El : leaves_all [Node (Some l)] = leaves_all l).
    { cbn [leaves_all]. rewrite leaves_node. destruct (leaves_all l); [rewrite app_nil_r|]; reflexivity. }
    split; [|split]; [intros pre post Hl; unfold exec; rewrite El; apply H1; exact Hl|exact H2|rewrite El; exact H3].
  - rewrite (HP eq_refl). split; [reflexivity|]. split; discriminate.
Qed.

Lemma acts_app base a1 a2 w1 w2 o1 o2 : acts base a1 w1 o1 -> acts (base + length a1) a2 w2 o2 ->
  acts base (a1 ++ a2) (w1 ++ w2) (let! r1 := o1 in let! r2 := o2 in Ret (r1 ++ r2)).
Proof.
  intros (H1 & L1 & D1) (H2 & L2 & D2). split; [|split].
  - intros pre post Hl. unfold exec in *. rewrite leaves_app.
    specialize (H1 pre (a2 ++ post) Hl). rewrite <- app_assoc.
    destruct (leaves_all w1) as [l1|].
    + destruct (leaves_all w2) as [l2|].
      * rewrite run_app, H1. destruct o1 as [r1|]; [|reflexivity]. cbn [obind].
        specialize (H2 (pre ++ r1) post). rewrite app_length, (L1 r1 eq_refl) in H2. specialize (H2 ltac:(lia)). rewrite <- !app_assoc in H2. rewrite H2.
        destruct o2 as [r2|]; cbn [obind]; rewrite <- ?app_assoc; reflexivity.
      * destruct o1 as [r1|]; [|reflexivity]. cbn [obind]. specialize (H2 (pre ++ r1) post). rewrite app_length, (L1 r1 eq_refl) in H2.
        specialize (H2 ltac:(lia)). destruct o2; [discriminate|reflexivity].
    + destruct o1; [discriminate|reflexivity].
  - intros r E. destruct o1 as [r1|]; [|discriminate]. destruct o2 as [r2|]; [|discriminate]. cbn in E. injection E as <-.
    rewrite !app_length, (L1 r1 eq_refl), (L2 r2 eq_refl). reflexivity.
  - intros ls E. rewrite leaves_app in E. destruct (leaves_all w1) as [l1|]; [|discriminate]. destruct (leaves_all w2) as [l2|]; [|discriminate].
    injection E as <-. destruct (D1 l1 eq_refl) as [N1 R1]. destruct (D2 l2 eq_refl) as [N2 R2]. rewrite map_app, app_length. split.
    + clear - N1 N2 R1 R2. induction (map fst l1) as [|x xs IH]; [exact N2|]. cbn. inversion N1; subst. constructor.
      * rewrite in_app_iff. intros [Hx|Hx]; [tauto|]. rewrite Forall_forall in R2. apply R2 in Hx. apply Forall_inv in R1. lia.
      * apply IH; [assumption|]. eapply Forall_inv_tail. exact R1.
    + apply Forall_app. split; (eapply Forall_impl; [|eassumption]); cbn; intros; lia.
Qed.

Lemma acts_schedules part ws o : acts 0 part ws o -> all_schedules_give (Running ws part) o.
Proof.
  intros (H1 & _ & D). pose proof (H1 [] [] eq_refl) as E. cbn [app] in E. rewrite app_nil_r in E.
  replace (let! r := o in Ret (r ++ [])) with o in E by (destruct o; cbn; rewrite ?app_nil_r; reflexivity). rewrite <- E.
  apply all_schedules. intros ls El. apply D. exact El.
Qed.

Lemma acts_ext base part ws o o' : acts base part ws o -> o' = o -> acts base part ws o'.
Proof. intros H ->. exact H. Qed.
End Conf.

(** A parallel loop over chunks, each of which its task handles like [f], is the loop in sequence. *)
Lemma acts_children {C A} (flat : C -> list A) (f : nat -> C -> egen -> outcome C) (mk : nat -> nat -> C -> egen -> work A) :
  (forall base i c g, acts base (flat c) [mk base i c g] (let! x := f i c g in Ret (flat x))) ->
  forall chunks gens base i,
  acts base (concat (map flat chunks)) (par_children (fun c => length (flat c)) mk base i chunks gens)
    (let! r := with_children f i chunks gens in Ret (concat (map flat r))).
Proof.
  intros H. induction chunks as [|c chunks IH]; intros gens base i; [destruct gens; apply acts_nil|].
  destruct gens as [|g gens]; [apply acts_nil|]. cbn [par_children with_children map concat].
  eapply acts_ext; [apply (acts_app base (flat c) _ [mk base i c g]); [apply H|apply IH]|].
  destruct (f i c g) as [x|]; [|reflexivity]. cbn [obind]. destruct (with_children f (S i) chunks gens); reflexivity.
Qed.

(** ** GGSW ciphertexts and bootstrap keys *)
Section Ggsw34.
Context (p : profile) (w : Z) (gauss : list Z -> option (Z * Z)) (key : list (list Z)) (N : nat) (b : Z).

Lemma concat_singletons {A} (l : list A) : concat (map (fun x => [x]) l) = l.
Proof. induction l as [|a l IH]; [reflexivity|]. cbn. rewrite IH. reflexivity. Qed.

Lemma level_acts m base j lev g : acts base lev [par_ggsw_level p w gauss key N b m base j lev g] (encrypt_ggsw_level p w gauss key N b m j lev g).
Proof.
  unfold par_ggsw_level, encrypt_ggsw_level. apply acts_node.
  - intros l E. destruct (level_scale p w b (S j)) as [scale|]; [|discriminate]. cbn [obind] in *.
    destruct (expect_fork _) as [[gens g1]|]; [|discriminate]. cbn [obind] in *.
    destruct lev as [|r0 lev'] eqn:El; [discriminate|]. rewrite <- El in *. clear El. injection E as <-.
    rewrite <- (concat_singletons lev) at 1. eapply acts_ext;
      [apply (acts_children (fun x => [x]) (fun i => encrypt_constant_ggsw_row p w gauss key N i (length lev - 1) (wmul w (wneg w m) scale)))|].
    + intros base' i c g'. exact (acts_leaf base' c (fun row => encrypt_constant_ggsw_row p w gauss key N i (length lev - 1) (wmul w (wneg w m) scale) row g')).
    + destruct (with_children _ 0 lev gens) as [r|]; [|reflexivity]. cbn [obind]. rewrite concat_singletons. reflexivity.
  - destruct (level_scale p w b (S j)) as [scale|]; [|reflexivity]. cbn [obind].
    destruct (expect_fork _) as [[gens g1]|]; [|reflexivity]. cbn [obind]. destruct lev; [reflexivity|discriminate].
Qed.

Lemma ggsw_acts m base output g : acts base (concat output) [node_of (let! (ws, _) := par_encrypt_constant_ggsw p w gauss key N b base output m g in Ret ws)]
  (let! (G, _) := encrypt_constant_ggsw p w gauss key N b output m g in Ret (concat G)).
Proof.
  unfold par_encrypt_constant_ggsw, encrypt_constant_ggsw. apply acts_node.
  - intros l E. destruct (expect_fork _) as [[gens g1]|]; [|discriminate]. cbn [obind] in *. injection E as <-.
    rewrite <- (map_id output) at 1. eapply acts_ext; [apply (acts_children (fun x => x) (encrypt_ggsw_level p w gauss key N b m))|].
    + intros base' i c g'. eapply acts_ext; [apply level_acts|]. destruct (encrypt_ggsw_level p w gauss key N b m i c g'); reflexivity.
    + destruct (with_children _ 0 output gens) as [r|]; [|reflexivity]. cbn [obind]. rewrite map_id. reflexivity.
  - destruct (expect_fork _) as [[gens g1]|]; [discriminate|reflexivity].
Qed.

Lemma bsk_acts : forall out lwe_key gens base, acts base (concat (map (@concat _) out)) (par_bsk_loop p w gauss key N b base out lwe_key gens)
  (let! r := bsk_loop p w gauss key N b out lwe_key gens in Ret (concat (map (@concat _) r))).
Proof.
  induction out as [|G out IH]; intros lk gens base; [apply acts_nil|]. destruct lk as [|s lk]; [apply acts_nil|]. destruct gens as [|g gens]; [apply acts_nil|].
  cbn [par_bsk_loop bsk_loop map concat].
  eapply acts_ext; [apply (acts_app base (concat G) _ [_]); [apply ggsw_acts|apply IH]|].
  destruct (encrypt_constant_ggsw p w gauss key N b G s g) as [[x g1]|]; [|reflexivity]. cbn [obind].
  destruct (bsk_loop p w gauss key N b out lk gens); reflexivity.
Qed.
End Ggsw34.

(** The statement shared by the theorems: [par] starts a pool or panics, [seq] is the sequential function. *)
Definition par_like_seq {A R G} (flat : R -> list A) (mem : list A) (par : outcome (list (work A) * G)) (seq : outcome (R * G)) : Prop :=
  match par with
  | Panic => seq = Panic
  | Ret (pool, g) =>
      all_schedules_give (Running pool mem) (let! (r, _) := seq in Ret (flat r)) /\ forall r g', seq = Ret (r, g') -> g' = g
  end.

(** For every input (well-formed or not), profile, noise oracle and schedule. *)
Theorem C34_ggsw : forall p w gauss key N b output m g,
  par_like_seq (@concat _) (concat output) (par_encrypt_constant_ggsw p w gauss key N b 0 output m g) (encrypt_constant_ggsw p w gauss key N b output m g).
Proof.
  intros p w gauss key N b output m g. pose proof (ggsw_acts p w gauss key N b m 0 output g) as H. unfold par_like_seq.
  unfold par_encrypt_constant_ggsw, encrypt_constant_ggsw in *. destruct (expect_fork _) as [[gens g1]|]; [|reflexivity]. cbn [obind] in *. split.
  - apply acts_schedules. unfold node_of in H. destruct H as (H1 & H2 & H3).
    assert (El : forall l, leaves_all [@Node (list (list Z)) (Some l)] = leaves_all l).
    { intros l. cbn [leaves_all]. rewrite leaves_node. destruct (leaves_all l); [rewrite app_nil_r|]; reflexivity. }
    unfold acts, exec in *. rewrite El in *. auto.
  - intros r g'. destruct (with_children _ 0 output gens); [|discriminate]. cbn [obind]. intros [= <- <-]. reflexivity.
Qed.
Print Assumptions C34_ggsw.

Theorem C34_bootstrap_key : forall p w gauss key N l b output lwe_key g,
  par_like_seq (fun bsk => concat (map (@concat _) bsk)) (concat (map (@concat _) (map zero_ggsw output)))
    (par_fill_with_new_bootstrap_key p w gauss key N l b output lwe_key g) (fill_with_new_bootstrap_key p w gauss key N l b output lwe_key g).
Proof.
  intros p w gauss key N l b output lwe_key g. unfold par_like_seq, par_fill_with_new_bootstrap_key, fill_with_new_bootstrap_key.
  destruct (ck_dim_eq _ _ _); [|reflexivity]. cbn [obind]. destruct (expect_fork _) as [[gens g1]|]; [|reflexivity]. cbn [obind]. split.
  - apply acts_schedules. eapply acts_ext; [apply bsk_acts|]. destruct (bsk_loop _ _ _ _ _ _ _ _ gens); reflexivity.
  - intros r g'. destruct (bsk_loop _ _ _ _ _ _ _ _ gens); [|discriminate]. cbn [obind]. intros [= <- <-]. reflexivity.
Qed.
Print Assumptions C34_bootstrap_key.

(** ** Seeded bootstrap keys *)
Section Seeded34.
Context (p : profile) (w : Z) (gauss : list Z -> option (Z * Z)) (key : list (list Z)) (N : nat) (b : Z) (N_out gs : nat).

Lemma seeded_level_acts m base j lev g : acts base lev [par_seeded_ggsw_level p w gauss key N b m gs base j lev g]
  (encrypt_seeded_ggsw_level p w gauss key N b m gs j lev g).
Proof.
  unfold par_seeded_ggsw_level, encrypt_seeded_ggsw_level. apply acts_node.
  - intros l E. destruct (level_scale p w b (S j)) as [scale|]; [|discriminate]. cbn [obind] in *.
    destruct (expect_fork _) as [[gens g1]|]; [|discriminate]. cbn [obind] in *. destruct (plain _ _ _) as [lr|]; [|discriminate]. cbn [obind] in *.
    injection E as <-.
    rewrite <- (concat_singletons lev) at 1. eapply acts_ext;
      [apply (acts_children (fun x => [x]) (fun i => encrypt_constant_seeded_ggsw_row p w gauss key N i (Z.to_nat lr) (wmul w (wneg w m) scale)))|].
    + intros base' i c g'. exact (acts_leaf base' c (fun row => encrypt_constant_seeded_ggsw_row p w gauss key N i (Z.to_nat lr) (wmul w (wneg w m) scale) row g')).
    + destruct (with_children _ 0 lev gens) as [r|]; [|reflexivity]. cbn [obind]. rewrite concat_singletons. reflexivity.
  - destruct (level_scale p w b (S j)) as [scale|]; [|reflexivity]. cbn [obind].
    destruct (expect_fork _) as [[gens g1]|]; [|reflexivity]. cbn [obind]. destruct (plain _ _ _); [discriminate|reflexivity].
Qed.

Lemma seeded_ggsw_acts m base output g : acts base (concat output)
  [node_of (let! (ws, _) := par_encrypt_seeded_ggsw_with p w gauss key N b N_out gs base output m g in Ret ws)]
  (let! (G, _) := encrypt_seeded_ggsw_with p w gauss key N b N_out gs output m g in Ret (concat G)).
Proof.
  unfold par_encrypt_seeded_ggsw_with, encrypt_seeded_ggsw_with. apply acts_node.
  - intros l E. destruct (ck_dim_eq p N N_out); [|discriminate]. cbn [obind] in *. destruct (ck_dim_eq p (length key) (gs - 1)); [|discriminate]. cbn [obind] in *.
    destruct (expect_fork _) as [[gens g1]|]; [|discriminate]. cbn [obind] in *. injection E as <-.
    rewrite <- (map_id output) at 1. eapply acts_ext; [apply (acts_children (fun x => x) (encrypt_seeded_ggsw_level p w gauss key N b m gs))|].
    + intros base' i c g'. eapply acts_ext; [apply seeded_level_acts|]. destruct (encrypt_seeded_ggsw_level p w gauss key N b m gs i c g'); reflexivity.
    + destruct (with_children _ 0 output gens) as [r|]; [|reflexivity]. cbn [obind]. rewrite map_id. reflexivity.
  - destruct (ck_dim_eq p N N_out); [|reflexivity]. cbn [obind]. destruct (ck_dim_eq p (length key) (gs - 1)); [|reflexivity]. cbn [obind].
    destruct (expect_fork _) as [[gens g1]|]; [discriminate|reflexivity].
Qed.

Lemma seeded_bsk_acts : forall out lwe_key gens base, acts base (concat (map (@concat _) out)) (par_seeded_bsk_loop p w gauss key N b N_out gs base out lwe_key gens)
  (let! r := seeded_bsk_loop p w gauss key N b N_out gs out lwe_key gens in Ret (concat (map (@concat _) r))).
Proof.
  induction out as [|G out IH]; intros lk gens base; [apply acts_nil|]. destruct lk as [|s lk]; [apply acts_nil|]. destruct gens as [|g gens]; [apply acts_nil|].
  cbn [par_seeded_bsk_loop seeded_bsk_loop map concat].
  eapply acts_ext; [apply (acts_app base (concat G) _ [_]); [apply seeded_ggsw_acts|apply IH]|].
  destruct (encrypt_seeded_ggsw_with p w gauss key N b N_out gs G s g) as [[x g1]|]; [|reflexivity]. cbn [obind].
  destruct (seeded_bsk_loop p w gauss key N b N_out gs out lk gens); reflexivity.
Qed.
End Seeded34.

Theorem C34_seeded_bootstrap_key : forall p w gauss rng key N l b N_out glwe_size output lwe_key nseed,
  match par_fill_with_new_seeded_bootstrap_key p w gauss rng key N l b N_out glwe_size output lwe_key nseed with
  | Panic => fill_with_new_seeded_bootstrap_key p w gauss rng key N l b N_out glwe_size output lwe_key nseed = Panic
  | Ret pool =>
      all_schedules_give (Running pool (concat (map (@concat _) (map (map (map (map (fun _ : Z => 0)))) (sd_bodies output)))))
        (let! s := fill_with_new_seeded_bootstrap_key p w gauss rng key N l b N_out glwe_size output lwe_key nseed in
         Ret (concat (map (@concat _) (sd_bodies s))))
  end.
Proof.
  intros p w gauss rng key N l b N_out gs output lwe_key nseed. unfold par_fill_with_new_seeded_bootstrap_key, fill_with_new_seeded_bootstrap_key.
  destruct (ck_dim_eq _ _ _); [|reflexivity]. cbn [obind]. destruct (expect_fork _) as [[gens g1]|]; [|reflexivity]. cbn [obind].
  apply acts_schedules. eapply acts_ext; [apply seeded_bsk_acts|]. destruct (seeded_bsk_loop _ _ _ _ _ _ _ _ _ _ _); reflexivity.
Qed.
Print Assumptions C34_seeded_bootstrap_key.

(** ** Private functional packing keyswitch keys *)
Section Pfpks34.
Context (p : profile) (w : Z) (gauss : list Z -> option (Z * Z)) (b : Z) (l N : nat) (output_key : list (list Z)).

Lemma blocks_acts f poly : forall bits blocks gs base,
  acts base blocks (par_pfpks_blocks p w gauss b l N output_key f poly base bits blocks gs)
    (fill_pfpks_blocks p w gauss b l N output_key f poly bits blocks gs).
Proof.
  induction bits as [|bit bits IH]; intros blocks gs base; [apply acts_nil|]. destruct blocks as [|blk blocks]; [apply acts_nil|].
  destruct gs as [|g gs]; [apply acts_nil|]. cbn [par_pfpks_blocks fill_pfpks_blocks].
  eapply acts_ext; [apply (acts_app base [blk] blocks [_]); [apply acts_leaf|cbn [length]; rewrite Nat.add_1_r; apply IH]|].
  destruct (fill_pfpks_block p w gauss b l N output_key f poly bit blk g); [|reflexivity]. cbn [obind].
  destruct (fill_pfpks_blocks p w gauss b l N output_key f poly bits blocks gs); reflexivity.
Qed.

Lemma pfpks_acts f poly input_key base blocks g : acts base blocks
  [node_of (let! (ws, _) := par_fill_with_pfpks_key p w gauss b l N output_key f poly input_key base blocks g in Ret ws)]
  (let! (r, _) := fill_with_pfpks_key p w gauss b l N output_key f poly input_key blocks g in Ret r).
Proof.
  unfold par_fill_with_pfpks_key, fill_with_pfpks_key. apply acts_node.
  - intros ws E. destruct (fork_pfpksk_to_pfpksk_chunks _ _ _ _ _ _ _) as [[[gs|] g1]|]; try discriminate. cbn [obind] in *. injection E as <-.
    eapply acts_ext; [apply blocks_acts|]. destruct (fill_pfpks_blocks _ _ _ _ _ _ _ _ _ _ _ _); reflexivity.
  - destruct (fork_pfpksk_to_pfpksk_chunks _ _ _ _ _ _ _) as [[[gs|] g1]|]; [discriminate|reflexivity..].
Qed.

Lemma fpksks_acts input_key : forall keys polys gs base, acts base (concat keys) (par_fpksks p w gauss b l N output_key input_key base keys polys gs)
  (let! r := fill_fpksks p w gauss b l N output_key input_key keys polys gs in Ret (concat r)).
Proof.
  induction keys as [|k keys IH]; intros polys gs base; [apply acts_nil|]. destruct polys as [|q polys]; [apply acts_nil|]. destruct gs as [|g gs]; [apply acts_nil|].
  cbn [par_fpksks fill_fpksks concat].
  eapply acts_ext; [apply (acts_app base k (concat keys) [_]); [apply pfpks_acts|apply IH]|].
  destruct (fill_with_pfpks_key p w gauss b l N output_key (fun x => wsub w 0 x) q input_key k g) as [[x g1]|]; [|reflexivity]. cbn [obind].
  destruct (fill_fpksks p w gauss b l N output_key input_key keys polys gs); reflexivity.
Qed.
End Pfpks34.

Theorem C34_pfpks_key : forall p w gauss b l N output_key f polynomial input_key blocks g,
  par_like_seq (fun r => r) blocks (par_fill_with_pfpks_key p w gauss b l N output_key f polynomial input_key 0 blocks g)
    (fill_with_pfpks_key p w gauss b l N output_key f polynomial input_key blocks g).
Proof.
  intros. unfold par_like_seq, par_fill_with_pfpks_key, fill_with_pfpks_key.
  destruct (fork_pfpksk_to_pfpksk_chunks _ _ _ _ _ _ _) as [[[gs|] g1]|]; [|reflexivity..]. cbn [obind]. split.
  - apply acts_schedules. eapply acts_ext; [apply blocks_acts|]. destruct (fill_pfpks_blocks _ _ _ _ _ _ _ _ _ _ _ _); reflexivity.
  - intros r g'. destruct (fill_pfpks_blocks _ _ _ _ _ _ _ _ _ _ _ _); [|discriminate]. cbn [obind]. intros [= <- <-]. reflexivity.
Qed.
Print Assumptions C34_pfpks_key.

Theorem C34_circuit_bootstrap_keys : forall p w gauss b l N output_key input_key keys g,
  par_like_seq (@concat _) (concat keys) (par_fill_with_fpksk_for_circuit_bootstrap p w gauss b l N output_key input_key keys g)
    (fill_with_fpksk_for_circuit_bootstrap p w gauss b l N output_key input_key keys g).
Proof.
  intros. unfold par_like_seq, par_fill_with_fpksk_for_circuit_bootstrap, fill_with_fpksk_for_circuit_bootstrap, debug_assert.
  destruct (match p with Debug => _ | Release => _ end); [|reflexivity]. cbn [obind].
  destruct (fork_cbs_pfpksk_to_pfpksk _ _ _ _ _ _ _ _) as [[[gs|] g1]|]; [|reflexivity..]. cbn [obind].
  destruct (set_first _ _); [|reflexivity]. cbn [obind]. split.
  - apply acts_schedules. eapply acts_ext; [apply fpksks_acts|]. destruct (fill_fpksks _ _ _ _ _ _ _ _ _ _ _); reflexivity.
  - intros r g'. destruct (fill_fpksks _ _ _ _ _ _ _ _ _ _ _); [|discriminate]. cbn [obind]. intros [= <- <-]. reflexivity.
Qed.
Print Assumptions C34_circuit_bootstrap_keys.

(** ** LWE vectors: the sequential reading of par_encrypt_lwe_list used in C21 is what every schedule gives. *)
Theorem C34_lwe_vector : forall p w gauss key lwe_size output ms g,
  par_like_seq (fun r => r) output (par_encrypt_lwe_list_pool p w gauss key lwe_size output ms g) (par_encrypt_lwe_list p w gauss key lwe_size output ms g).
Proof.
  intros. unfold par_like_seq, par_encrypt_lwe_list_pool, par_encrypt_lwe_list.
  destruct (ck_dim_eq _ _ _); [|reflexivity]. cbn [obind]. destruct (fork_lwe_list_to_lwe _ _ _ _ _) as [[[gs|] g1]|]; [|reflexivity..]. cbn [obind].
  assert (H : forall output ms gs base, acts base output (par_lwe_zip p w gauss key base output ms gs) (encrypt_lwe_zip3 p w gauss key output ms gs)).
  { clear. induction output as [|o output IH]; intros ms gs base; [apply acts_nil|]. destruct ms as [|m ms]; [apply acts_nil|]. destruct gs as [|g gs]; [apply acts_nil|].
    cbn [par_lwe_zip encrypt_lwe_zip3]. eapply acts_ext; [apply (acts_app base [o] output [_]); [apply acts_leaf|cbn [length]; rewrite Nat.add_1_r; apply IH]|].
    cbv beta. destruct (encrypt_lwe p w gauss key o m g) as [[c g1]|]; [|reflexivity]. cbn [obind]. destruct (encrypt_lwe_zip3 p w gauss key output ms gs); reflexivity. }
  split.
  - apply acts_schedules. eapply acts_ext; [apply H|]. destruct (encrypt_lwe_zip3 _ _ _ _ _ _ _); reflexivity.
  - intros r g'. destruct (encrypt_lwe_zip3 _ _ _ _ _ _ _); [|discriminate]. cbn [obind]. intros [= <- <-]. reflexivity.
Qed.
Print Assumptions C34_lwe_vector.

(** ** Parallel bootstrap of a vector: each output is the bootstrap of its input with its accumulator. *)
Fixpoint bootstrap_each (boot : list (list Z) -> list Z -> list Z -> outcome (list Z)) (input output : list (list Z)) (accs : list (list (list Z)))
    : outcome (list (list Z)) :=
  match input, output, accs with
  | c :: input', o :: output', a :: accs' => let! x := boot a c o in let! xs := bootstrap_each boot input' output' accs' in Ret (x :: xs)
  | _, _, _ => Ret output
  end.
Theorem C34_vector_bootstrap : forall boot input output accs,
  all_schedules_give (Running (par_bootstrap_pool boot 0 input output accs) output) (bootstrap_each boot input output accs).
Proof.
  intros. apply acts_schedules. generalize O as base. revert output accs.
  induction input as [|c input IH]; intros output accs base; [apply acts_nil|]. destruct output as [|o output]; [apply acts_nil|].
  destruct accs as [|a accs]; [apply acts_nil|]. cbn [par_bootstrap_pool bootstrap_each].
  eapply acts_ext; [apply (acts_app base [o] output [_]); [apply acts_leaf|cbn [length]; rewrite Nat.add_1_r; apply IH]|].
  destruct (boot a c o); [|reflexivity]. cbn [obind]. destruct (bootstrap_each boot input output accs); reflexivity.
Qed.
Print Assumptions C34_vector_bootstrap.

(** A concrete case: a key of two GGSW ciphertexts, the tasks always taken from the end of the pool. *)
Fixpoint lifo {A} (fuel : nat) (st : pstate A) : pstate A :=
  match fuel with
  | O => st
  | S f =>
      match st with
      | Panicked => Panicked
      | Running pool mem =>
          match rev pool with
          | [] => st
          | Leaf s h :: r => match write_slot s h mem with Ret mem' => lifo f (Running (rev r ++ []) mem') | Panic => Panicked end
          | Node (Some cs) :: r => lifo f (Running (rev r ++ cs ++ []) mem)
          | Node None :: _ => Panicked
          end
      end
  end.
Lemma lifo_steps {A} : forall n (st : pstate A), steps st (lifo n st).
Proof.
  induction n as [|n IH]; intros st; [constructor|]. cbn [lifo]. destruct st as [pool mem|]; [|constructor].
  destruct (rev pool) as [|[s h|[cs|]] r] eqn:E; [constructor|..];
    assert (Ep : pool = rev r ++ [hd (Node None) (rev pool)]) by (rewrite E; rewrite <- (rev_involutive pool), E; reflexivity); rewrite E in Ep; cbn [hd] in Ep; rewrite Ep.
  - destruct (write_slot s h mem) eqn:Ew; [|eapply rt1n_trans; [apply step_leaf_panics; exact Ew|constructor]].
    eapply rt1n_trans; [apply step_leaf; exact Ew|apply IH].
  - eapply rt1n_trans; [apply step_node|apply IH].
  - eapply rt1n_trans; [apply step_node_panics|constructor].
Qed.
From Verif Require Import GlweTheorems GgswTheorems.
Example C34_case :
  match par_fill_with_new_bootstrap_key Debug 32 demo_gauss_word [[1; 0]] 2 2 4 [ggsw_allocate 2 2 2; ggsw_allocate 2 2 2] [1; 0] demo_egen,
        fill_with_new_bootstrap_key Debug 32 demo_gauss_word [[1; 0]] 2 2 4 [ggsw_allocate 2 2 2; ggsw_allocate 2 2 2] [1; 0] demo_egen with
  | Ret (pool, _), Ret (bsk, _) => length pool = 2%nat /\ lifo 100 (Running pool (repeat [[0; 0]; [0; 0]] 8)) = Running [] (concat (map (@concat _) bsk))
                                   /\ length (concat (map (@concat _) bsk)) = 8%nat /\ NoDup (concat (map (@concat _) bsk))
  | _, _ => False
  end.
Proof.
  vm_compute. split; [reflexivity|]. split; [reflexivity|]. split; [reflexivity|].
  repeat (constructor; [cbn; intuition congruence|]). constructor.
Qed.
