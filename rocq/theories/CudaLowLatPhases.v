(** * The phases of the low latency bootstrap that use the join buffer, under every interleaving of the threads of a block *)
From Verif Require Import Base Word CudaKsModel CudaBlockModel CudaBlockProofs CudaFftModel CudaFftAlgebra CudaFftProofs CudaFftFacts CudaHoare CudaPbsModel CudaPbsPhases CudaGridModel CudaLowLatModel.
From Coq Require Import Ring.
Local Open Scope nat_scope.

Section Phases.
Context {R : Type} (rO : R) (radd rmul rsub : R -> R -> R).
Context (ok : addr -> bool) (size base : nat -> nat) (H T n o : nat).
Hypothesis (HT : 0 < T) (Hn : H = 2 ^ n) (Hn1 : 1 <= n) (Ho : o * T = H)
  (Hloc : forall t r, ok (Loc t r) = true) (Hword : forall b i, i < size b -> ok (Word b i) = true) (Hdbl : forall b i im, i < size b -> ok (Dbl b i im) = true).
Notation val := (val R).
Notation mem := (mem addr val).
Notation N := (2 * H).
Notation triple := (triple (R := R) ok T).
Notation own_of ob := (own_bufs T base ob).
Notation cplx := (cplx (R := R) H).
Notation cadd := (cadd radd). Notation cmul := (cmul radd rmul rsub).
Notation view := (view rO).
Notation half_phase := (half_phase ok size base H T n o HT Hn Hn1 Ho Hloc Hword Hdbl).
(** One polynomial of complex numbers *)
Definition slot (b s : nat) (x : nat -> R * R) (m : mem) : Prop :=
  forall i, i < H -> m (Dbl b (s * H + i) false) = Db (fst (x i)) /\ m (Dbl b (s * H + i) true) = Db (snd (x i)).
Lemma slot_view b s x m i : slot b s x m -> i < H -> view b (s * H) m i = x i.
Proof. intros Hm Hi. destruct (Hm i Hi) as [E1 E2]. unfold CudaFftProofs.view, X, Y. rewrite E1, E2. cbn. symmetry. apply surjective_pairing. Qed.
Lemma slot_cplx b x m : slot b 0 x m <-> cplx b (fun _ => x) 1 m.
Proof. clear. split; [intros E z i Hz; assert (z = 0) by lia; subst z; apply E|intros E i; apply (E 0); lia]. Qed.
Lemma slot_stable bs b s x : ~ In b bs -> stable bs (slot b s x).
Proof. intros Hb m m' K Hm i Hi. rewrite !K by (try reflexivity; exact Hb). apply Hm, Hi. Qed.
Lemma slot_ext b s x y m : (forall i, i < H -> x i = y i) -> slot b s x m -> slot b s y m.
Proof. intros E Hm i Hi. rewrite <- E by exact Hi. apply Hm, Hi. Qed.
Lemma opt_pos : o <> 0. Proof. clear - Hn Ho. intros ->. pose proof (Nat.pow_nonzero 2 n). lia. Qed.
Lemma threads_eq : 2 * H / (2 * o) = T.
Proof. pose proof opt_pos. clear - Ho H0. rewrite <- Ho. replace (2 * (o * T)) with (T * (2 * o)) by lia. apply Nat.div_mul. lia. Qed.
Lemma opt_eq : 2 * o / 2 = o. Proof. clear. rewrite Nat.mul_comm. apply Nat.div_mul. lia. Qed.

Ltac own1 := first [ left; eexists; split; [|reflexivity]; cbn; lia | right; left; cbn [In]; tauto | right; right; split; [first [apply Hword|apply Hdbl]|unfold own_bufs; try match goal with E : ?ob ?b = false |- _ => rewrite E; reflexivity end] ].
Ltac touch1 := cbn [tch load put1 put2 store2 comp2]; split;
  [first [left; eexists; split; [|reflexivity]; cbn; lia | right; cbn [In]; tauto]
  | repeat (apply Forall_cons; [own1|]); try apply Forall_nil].
Ltac touch := repeat (apply Forall_cons; [touch1|]); try apply Forall_nil.
Ltac steps := repeat (rewrite solo_cons; match goal with |- context [CudaBlockProofs.solo _ _ (exec1 _ ?m ?o)] => let x := fresh "m" in set (x := exec1 addr_eqb m o) end).
Ltac look1 := match goal with x := exec1 _ ?m0 (GOp ?rs ?d ?f) |- context [?y ?c] => constr_eq x y;
    change (x c) with (if addr_eqb c d then f (map m0 rs) else m0 c); unfold X, Y; cbn [addr_eqb]; rewrite ?Nat.eqb_refl, ?andb_false_r;
    repeat match goal with E : (?a =? ?b) = false |- _ => progress rewrite E end; cbn [andb Bool.eqb map nth Nat.eqb]; unfold arg, warg; cbn [nth CudaFftModel.db CudaFftModel.wd] end.
Ltac unfold_ops := unfold load, comp2, store2, put1, put2.

(** 71-74 *)
Lemma product_slot ob rb fb sb so s r x y : ob rb = true -> ob fb = true -> ob sb = false -> base rb = 0 -> base fb = 0 -> rb <> fb -> rb <> sb -> (s + 1) * H <= size rb -> H <= size fb -> so + H <= size sb ->
  triple (Some (own_of ob)) [product_accumulate rO radd rmul rsub N (2 * o) rb (s * H) fb 0 sb so] (Some (own_of ob)) [rb; fb]
    (fun m => slot rb s r m /\ slot fb 0 x m /\ forall i, i < H -> view sb so m i = y i)
    (fun m => slot rb s (fun i => cadd (r i) (cmul (x i) (y i))) m /\ slot fb 0 x m).
Proof.
  intros H1 H2 H3 B1 B2 N1 N2 S1 S2 S3. unfold product_accumulate. rewrite threads_eq, opt_eq.
  assert (N1' : (fb =? rb) = false) by (apply Nat.eqb_neq; auto). assert (N2' : (rb =? sb) = false) by (apply Nat.eqb_neq; auto). assert (N3' : (rb =? fb) = false) by (apply Nat.eqb_neq; auto). assert (N4' : (sb =? rb) = false) by (apply Nat.eqb_neq; auto).
  apply (half_phase ob (fun _ => 0) (fun b => if b =? rb then s else 0) _ (fun tid => [Dbl rb (s * H + tid) false; Dbl rb (s * H + tid) true; Dbl fb tid false; Dbl fb tid true])
    (fun tid m c => match c with Dbl b _ im => if b =? rb then Db (part im (cadd (view rb (s * H) m tid) (cmul (view fb 0 m tid) (view sb so m tid)))) else m c | _ => m c end)).
  - intros tid c Hi [<-|[<-|[<-|[<-|[]]]]]; (split; [apply Hdbl; clear - Hi S1 S2; nia|]); (split; [first [exact H1|exact H2]|]); rewrite ?Nat.eqb_refl, ?N1'; auto.
  - intros t tid Hi Hm. unfold X, Y. cbn [Nat.add]. touch; lia.
  - intros t tid m c Hi Hm Hc. unfold CudaFftProofs.view, CudaFftProofs.cmul, CudaFftProofs.cadd. cbn [fst snd]. unfold_ops. steps. change (CudaBlockProofs.solo addr_eqb [] ?x) with x.
    destruct Hc as [<-|[<-|[<-|[<-|[]]]]]; rewrite ?Nat.eqb_refl, ?N1'; cbn [part fst snd]; repeat look1; reflexivity.
  - intros tid m m' c Hi Hc E. assert (Es : view sb so m tid = view sb so m' tid) by (apply view_eq; (apply E; [reflexivity|right; apply own_none, H3])).
    assert (Er : view rb (s * H) m tid = view rb (s * H) m' tid) by (apply view_eq; (apply E; [reflexivity|left; cbn [In]; tauto])).
    assert (Ef : view fb 0 m tid = view fb 0 m' tid) by (apply view_eq; (apply E; [reflexivity|left; cbn [In Nat.add]; tauto])).
    rewrite Es, Er, Ef. destruct Hc as [<-|[<-|[<-|[<-|[]]]]]; rewrite ?Nat.eqb_refl, ?N1'; try reflexivity; (apply E; [reflexivity|left; cbn [In]; tauto]).
  - intros tid c Hi [<-|[<-|[<-|[<-|[]]]]]; cbn [buf_of In]; tauto.
  - intros m m' G1 G2 (Hr & Hf & Hs). split.
    + intros i Hi. rewrite (G1 i (Dbl rb (s * H + i) false) Hi) by (cbn [In]; tauto). rewrite (G1 i (Dbl rb (s * H + i) true) Hi) by (cbn [In]; tauto). rewrite Nat.eqb_refl.
      rewrite (slot_view rb s r m i Hr Hi), Hs by exact Hi. rewrite (slot_view fb 0 x m i Hf Hi : view fb 0 m i = x i). split; reflexivity.
    + intros i Hi. cbn [Nat.mul Nat.add]. rewrite (G1 i (Dbl fb i false) Hi) by (cbn [In]; tauto). rewrite (G1 i (Dbl fb i true) Hi) by (cbn [In]; tauto). rewrite N1'. apply (Hf i Hi).
Qed.
(** 57-61 *)
Lemma init_slot ob rb fb sb so s x y : ob rb = true -> ob fb = true -> ob sb = false -> base rb = 0 -> base fb = 0 -> rb <> fb -> rb <> sb -> (s + 1) * H <= size rb -> H <= size fb -> so + H <= size sb ->
  triple (Some (own_of ob)) [product_init rO radd rmul rsub N (2 * o) rb (s * H) fb 0 sb so] (Some (own_of ob)) [rb; fb]
    (fun m => slot fb 0 x m /\ forall i, i < H -> view sb so m i = y i)
    (fun m => slot rb s (fun i => cmul (x i) (y i)) m /\ slot fb 0 x m).
Proof.
  intros H1 H2 H3 B1 B2 N1 N2 S1 S2 S3. unfold product_init. rewrite threads_eq, opt_eq.
  assert (N1' : (fb =? rb) = false) by (apply Nat.eqb_neq; auto). assert (N2' : (rb =? sb) = false) by (apply Nat.eqb_neq; auto). assert (N3' : (rb =? fb) = false) by (apply Nat.eqb_neq; auto). assert (N4' : (sb =? rb) = false) by (apply Nat.eqb_neq; auto).
  apply (half_phase ob (fun _ => 0) (fun b => if b =? rb then s else 0) _ (fun tid => [Dbl rb (s * H + tid) false; Dbl rb (s * H + tid) true; Dbl fb tid false; Dbl fb tid true])
    (fun tid m c => match c with Dbl b _ im => if b =? rb then Db (part im (cmul (view fb 0 m tid) (view sb so m tid))) else m c | _ => m c end)).
  - intros tid c Hi [<-|[<-|[<-|[<-|[]]]]]; (split; [apply Hdbl; clear - Hi S1 S2; nia|]); (split; [first [exact H1|exact H2]|]); rewrite ?Nat.eqb_refl, ?N1'; auto.
  - intros t tid Hi Hm. unfold X, Y. cbn [Nat.add]. touch; lia.
  - intros t tid m c Hi Hm Hc. unfold CudaFftProofs.view, CudaFftProofs.cmul. cbn [fst snd]. unfold_ops. steps. change (CudaBlockProofs.solo addr_eqb [] ?x) with x.
    destruct Hc as [<-|[<-|[<-|[<-|[]]]]]; rewrite ?Nat.eqb_refl, ?N1'; cbn [part fst snd]; repeat look1; reflexivity.
  - intros tid m m' c Hi Hc E. assert (Es : view sb so m tid = view sb so m' tid) by (apply view_eq; (apply E; [reflexivity|right; apply own_none, H3])).
    assert (Ef : view fb 0 m tid = view fb 0 m' tid) by (apply view_eq; (apply E; [reflexivity|left; cbn [In Nat.add]; tauto])).
    rewrite Es, Ef. destruct Hc as [<-|[<-|[<-|[<-|[]]]]]; rewrite ?Nat.eqb_refl, ?N1'; try reflexivity; (apply E; [reflexivity|left; cbn [In]; tauto]).
  - intros tid c Hi [<-|[<-|[<-|[<-|[]]]]]; cbn [buf_of In]; tauto.
  - intros m m' G1 G2 (Hf & Hs). split.
    + intros i Hi. rewrite (G1 i (Dbl rb (s * H + i) false) Hi) by (cbn [In]; tauto). rewrite (G1 i (Dbl rb (s * H + i) true) Hi) by (cbn [In]; tauto). rewrite Nat.eqb_refl.
      rewrite Hs by exact Hi. rewrite (slot_view fb 0 x m i Hf Hi : view fb 0 m i = x i). split; reflexivity.
    + intros i Hi. cbn [Nat.mul Nat.add]. rewrite (G1 i (Dbl fb i false) Hi) by (cbn [In]; tauto). rewrite (G1 i (Dbl fb i true) Hi) by (cbn [In]; tauto). rewrite N1'. apply (Hf i Hi).
Qed.
(** 83-88 *)
Lemma copy_slot ob rb sb s x : ob rb = true -> ob sb = true -> base rb = 0 -> base sb = 0 -> rb <> sb -> (s + 1) * H <= size sb -> H <= size rb ->
  triple (Some (own_of ob)) [copy rO N (2 * o) rb 0 sb (s * H)] (Some (own_of ob)) [sb; rb] (slot sb s x) (slot rb 0 x).
Proof.
  intros H1 H2 B1 B2 N1 S1 S2. unfold copy. rewrite threads_eq, opt_eq.
  assert (N1' : (rb =? sb) = false) by (apply Nat.eqb_neq; auto). assert (N2' : (sb =? rb) = false) by (apply Nat.eqb_neq; auto).
  apply (half_phase ob (fun _ => 0) (fun b => if b =? sb then s else 0) _ (fun tid => [Dbl sb (s * H + tid) false; Dbl sb (s * H + tid) true; Dbl rb tid false; Dbl rb tid true])
    (fun tid m c => match c with Dbl b _ im => if b =? rb then Db (part im (view sb (s * H) m tid)) else m c | _ => m c end)).
  - intros tid c Hi [<-|[<-|[<-|[<-|[]]]]]; (split; [apply Hdbl; clear - Hi S1 S2; nia|]); (split; [first [exact H1|exact H2]|]); rewrite ?Nat.eqb_refl, ?N1'; auto.
  - intros t tid Hi Hm. unfold X, Y. cbn [Nat.add]. touch; lia.
  - intros t tid m c Hi Hm Hc. unfold CudaFftProofs.view. cbn [fst snd]. unfold_ops. steps. change (CudaBlockProofs.solo addr_eqb [] ?x) with x.
    destruct Hc as [<-|[<-|[<-|[<-|[]]]]]; rewrite ?Nat.eqb_refl, ?N2'; cbn [part fst snd]; repeat look1; reflexivity.
  - intros tid m m' c Hi Hc E.
    assert (Er : view sb (s * H) m tid = view sb (s * H) m' tid) by (apply view_eq; (apply E; [reflexivity|left; cbn [In]; tauto])).
    rewrite Er. destruct Hc as [<-|[<-|[<-|[<-|[]]]]]; rewrite ?Nat.eqb_refl, ?N2'; try reflexivity; (apply E; [reflexivity|left; cbn [In]; tauto]).
  - intros tid c Hi [<-|[<-|[<-|[<-|[]]]]]; cbn [buf_of In]; tauto.
  - intros m m' G1 G2 Hr i Hi. cbn [Nat.mul Nat.add]. rewrite (G1 i (Dbl rb i false) Hi) by (cbn [In]; tauto). rewrite (G1 i (Dbl rb i true) Hi) by (cbn [In]; tauto). rewrite Nat.eqb_refl.
    rewrite (slot_view sb s x m i Hr Hi). split; reflexivity.
Qed.
End Phases.
