(** * The memory-optimised cmux tree computes the selection tree *)
From Verif Require Import Base Word WordFacts PolyModel GlweModel GlweProofs SeededModel WopModel WopSpec.

Lemma upd_length {A} (l : list A) : forall i x, length (upd l i x) = length l.
Proof. induction l as [|a l IH]; intros [|i] x; cbn; congruence. Qed.
Lemma upd_same {A} (l : list A) : forall i x, (i < length l)%nat -> nth_error (upd l i x) i = Some x.
Proof. induction l as [|a l IH]; intros [|i] x H; cbn in *; try lia; [reflexivity|]. apply IH. lia. Qed.
Lemma upd_other {A} (l : list A) : forall i j x, i <> j -> nth_error (upd l i x) j = nth_error l j.
Proof. induction l as [|a l IH]; intros [|i] [|j] x H; cbn; try reflexivity; [lia|]. apply IH. lia. Qed.
Lemma upd_Forall {A} (P : A -> Prop) (l : list A) : forall i x, Forall P l -> P x -> Forall P (upd l i x).
Proof. induction l as [|a l IH]; intros [|i] x H Hx; cbn; [constructor|constructor| |]; inversion H; subst; constructor; auto. Qed.
Lemma at_some {A} (l : list A) i x : nth_error l i = Some x -> at_ l i = Ret x.
Proof. intros H. unfold at_. rewrite H. reflexivity. Qed.
Lemma obind_assoc {A B C} (x : outcome A) (f : A -> outcome B) (g : B -> outcome C) : obind (obind x f) g = obind x (fun a => obind (f a) g).
Proof. destruct x; reflexivity. Qed.

(** ** The abstract machine: a binary counter of pending results *)
Section Counter.
Context {G K : Type} (C : G -> G -> K -> outcome G).

Fixpoint arrive (gs : list K) (st : list (option G)) (out v : G) : outcome (list (option G) * G) :=
  match gs, st with
  | g :: gs', None :: st' => Ret (Some v :: st', out)
  | g :: gs', Some u :: st' => let! r := C u v g in let! (st', out) := arrive gs' st' out r in Ret (None :: st', out)
  | _, _ => Ret (st, v)
  end.
Fixpoint feed (gs : list K) (st : list (option G)) (out : G) (leaves : list G) : outcome (list (option G) * G) :=
  match leaves with
  | [] => Ret (st, out)
  | v :: leaves' => let! (st, out) := arrive gs st out v in feed gs st out leaves'
  end.

Lemma feed_tree h : forall lo hi upper out leaves rest, length lo = h -> length leaves = (2 ^ h)%nat ->
  feed (lo ++ hi) (repeat None h ++ upper) out (leaves ++ rest) =
  (let! v := select_tree C (rev lo) leaves in
   let! (upper, out) := arrive hi upper out v in feed (lo ++ hi) (repeat None h ++ upper) out rest).
Proof.
  induction h as [|h IH]; intros lo hi upper out leaves rest Hlo Hl.
  - destruct lo; [|discriminate]. destruct leaves as [|x [|y l]]; try discriminate. reflexivity.
  - destruct lo as [|g lo _] using rev_ind; [discriminate|]. rewrite app_length in Hlo. cbn in Hlo.
    rewrite rev_app_distr. cbn [rev app select_tree]. rewrite rev_length. replace (length lo) with h by lia.
    assert (Hf : length (firstn (2 ^ h) leaves) = (2 ^ h)%nat) by (rewrite firstn_length, Hl; cbn [Nat.pow]; lia).
    assert (Hs : length (skipn (2 ^ h) leaves) = (2 ^ h)%nat) by (rewrite skipn_length, Hl; cbn [Nat.pow]; lia).
    rewrite <- (firstn_skipn (2 ^ h) leaves) at 1. rewrite <- !app_assoc. cbn [app].
    assert (Er : forall u : list (option G), repeat None (S h) ++ u = repeat None h ++ None :: u).
    { intros u. replace (repeat None (S h)) with (repeat (@None G) h ++ [None]) by (symmetry; apply repeat_cons). rewrite <- app_assoc. reflexivity. }
    rewrite Er, (IH lo (g :: hi) (None :: upper) out _ _ ltac:(lia) Hf).
    destruct (select_tree C (rev lo) (firstn (2 ^ h) leaves)) as [a|]; [|reflexivity]. cbn [obind arrive].
    rewrite (IH lo (g :: hi) (Some a :: upper) out _ _ ltac:(lia) Hs).
    destruct (select_tree C (rev lo) (skipn (2 ^ h) leaves)) as [b|]; [|reflexivity]. cbn [obind arrive].
    destruct (C a b g) as [r|]; [|reflexivity]. cbn [obind].
    destruct (arrive hi upper out r) as [[u' o']|]; [|reflexivity]. cbn [obind]. rewrite Er. reflexivity.
Qed.

Fixpoint asize (a : list (option G)) : nat :=
  match a with [] => 0 | None :: a' => 2 * asize a' | Some _ :: a' => S (2 * asize a') end%nat.
Lemma asize_bound a : (asize a < 2 ^ length a)%nat.
Proof. induction a as [|[x|] a IH]; cbn [asize length Nat.pow]; lia. Qed.
Lemma asize_none h : asize (repeat None h) = 0%nat.
Proof. induction h; cbn; lia. Qed.
Lemma arrive_size gs : forall a out v a' out', length gs = length a -> arrive gs a out v = Ret (a', out') ->
  length a' = length a /\ ((asize a + 1 < 2 ^ length a)%nat -> asize a' = (asize a + 1)%nat /\ out' = out).
Proof.
  induction gs as [|g gs IH]; intros [|[u|] a] out v a' out' Hl E; try discriminate; cbn [arrive] in E.
  - injection E as <- <-. split; [reflexivity|]. cbn. lia.
  - destruct (C u v g) as [r|]; [|discriminate]. cbn [obind] in E. destruct (arrive gs a out r) as [[a1 o1]|] eqn:E1; [|discriminate].
    cbn [obind] in E. injection E as <- <-. apply IH in E1; [|cbn in Hl; lia]. destruct E1 as [L1 E1]. split; [cbn; lia|].
    cbn [asize length Nat.pow]. intros H. destruct E1 as [E1 E2]; [lia|]. split; [lia|exact E2].
  - injection E as <- <-. split; [reflexivity|]. cbn [asize length Nat.pow]. intros _. split; [lia|reflexivity].
Qed.
End Counter.

(** ** The concrete loop follows the machine *)
Section Sim.
Context (w : Z) {K : Type} (ep : list (list Z) -> K -> list (list Z) -> outcome (list (list Z))).
Context (k N : nat) (P : list (list Z) -> Prop) (gall : list K).
Notation flat c := (length (concat c) = (S k * N)%nat).
Notation C := (fun a b g => ep a g (zip_update (zip_update (wsub w)) b a)).
Hypothesis (HPflat : forall c, P c -> flat c)
  (HPep : forall a b g r, In g gall -> P a -> P b -> C a b g = Ret r -> P r).

Definition lvl (st : tree_state) (j : nat) (x : option (list (list Z))) : Prop :=
  match x with
  | None => nth_error (t_fill st) j = Some 0%nat
  | Some u => nth_error (t_fill st) j = Some 1%nat /\ nth_error (t_0 st) j = Some u /\ P u
  end.
Definition sized (nb : nat) (st : tree_state) : Prop :=
  length (t_0 st) = nb /\ length (t_1 st) = nb /\ length (t_fill st) = nb /\
  Forall (fun c => flat c) (t_0 st) /\ Forall (fun c => flat c) (t_1 st) /\ flat (t_out st).

Lemma layers_sim gs : forall nb j st a u v g, incl (g :: gs) gall -> nb = (j + S (length gs))%nat -> length a = length gs -> sized nb st ->
  nth_error (t_0 st) j = Some u -> nth_error (t_1 st) j = Some v -> nth_error (t_fill st) j = Some 2%nat -> P u -> P v ->
  (forall i x, nth_error a i = Some x -> lvl st (S j + i) x) ->
  match (let! r := C u v g in arrive C gs a (t_out st) r) with
  | Panic => tree_layers w ep nb j (g :: gs) st = Panic
  | Ret (a', out') => exists st', tree_layers w ep nb j (g :: gs) st = Ret st' /\ sized nb st' /\ t_out st' = out' /\
      (forall i, (i <= j)%nat -> nth_error (t_0 st') i = nth_error (t_0 st) i /\ nth_error (t_1 st') i = nth_error (t_1 st) i) /\
      (forall i, (i < j)%nat -> nth_error (t_fill st') i = nth_error (t_fill st) i) /\
      ((asize a + 1 < 2 ^ length a)%nat -> nth_error (t_fill st') j = Some 0%nat /\ forall i x, nth_error a' i = Some x -> lvl st' (S j + i) x)
  end.
Proof.
  induction gs as [|g2 gs IH]; intros nb j st a u v g Hin Enb La (L0 & L1 & Lf & F0 & F1 & Fo) H0 H1 Hf Pu Pv Hup.
  - destruct a; [|discriminate]. cbn [tree_layers]. rewrite (at_some _ _ _ Hf), (at_some _ _ _ H0), (at_some _ _ _ H1). cbn [obind Nat.eqb].
    cbn [length] in Enb. replace (nb - 1)%nat with j by lia. rewrite Nat.eqb_refl. cbn [negb].
    unfold copy_glwe. rewrite Fo, (HPflat u Pu), Nat.eqb_refl. cbn [assert_ obind].
    destruct (ep u g _) as [r|] eqn:Er; [|reflexivity]. cbn [obind arrive].
    eexists. split; [reflexivity|]. split.
    { repeat split; cbn [t_0 t_1 t_fill t_out]; try assumption. apply HPflat. apply (HPep u v g r); auto. apply Hin. left. reflexivity. }
    split; [reflexivity|]. cbn [t_0 t_1 t_fill]. split; [intros; split; reflexivity|]. split; [reflexivity|]. cbn. lia.
  - destruct a as [|x a]; [discriminate|]. cbn [length] in *.
    remember (g2 :: gs) as gs2 eqn:Egs. cbn [tree_layers]. rewrite (at_some _ _ _ Hf), (at_some _ _ _ H0), (at_some _ _ _ H1). cbn [obind Nat.eqb].
    destruct (Nat.eqb_spec j (nb - 1)) as [?|_]; [lia|]. cbn [negb].
    assert (Hj : (S j < nb)%nat) by lia.
    destruct (nth_error (t_0 st) (S j)) as [t0n|] eqn:E0; [|apply nth_error_None in E0; lia].
    destruct (nth_error (t_1 st) (S j)) as [t1n|] eqn:E1; [|apply nth_error_None in E1; lia].
    pose proof (Hup 0%nat x eq_refl) as Hx. rewrite Nat.add_0_r in Hx.
    assert (Fl0 : flat t0n) by (rewrite Forall_forall in F0; apply F0; apply (nth_error_In _ _ E0)).
    assert (Fl1 : flat t1n) by (rewrite Forall_forall in F1; apply F1; apply (nth_error_In _ _ E1)).
    rewrite (at_some _ _ _ E0), (at_some _ _ _ E1). cbn [obind].
    destruct x as [u2|].
    + (* the upper level holds one result: it now has two *)
      destruct Hx as (Hx1 & Hx2 & Pu2). rewrite (at_some _ _ _ Hx1). cbn [obind Nat.eqb].
      unfold copy_glwe. rewrite Fl1, (HPflat u Pu), Nat.eqb_refl. cbn [assert_ obind].
      destruct (ep u g _) as [r|] eqn:Er; [|reflexivity]. cbn [obind]. subst gs2. cbn [arrive].
      assert (Pr : P r) by (apply (HPep u v g r); auto; apply Hin; left; reflexivity).
      set (st1 := Tree (t_0 st) (upd (t_1 st) (S j) r) (upd (upd (t_fill st) (S j) 2%nat) j 0%nat) (t_out st)).
      assert (Hsz : sized nb st1).
      { repeat split; cbn [t_0 t_1 t_fill t_out st1]; rewrite ?upd_length; try assumption. apply upd_Forall; [assumption|apply HPflat; exact Pr]. }
      assert (Ef : nth_error (t_fill st1) (S j) = Some 2%nat).
      { cbn [t_fill st1]. rewrite upd_other by lia. apply upd_same. lia. }
      specialize (IH nb (S j) st1 a u2 r g2).
      assert (Hup1 : forall i x, nth_error a i = Some x -> lvl st1 (S (S j) + i) x).
      { intros i y Hy. specialize (Hup (S i) y Hy). replace (S j + S i)%nat with (S (S j) + i)%nat in Hup by lia.
        destruct y as [y|]; unfold lvl in Hup |- *; cbn [t_0 t_fill st1]; rewrite !upd_other by lia; exact Hup. }
      assert (Hin2 : incl (g2 :: gs) gall) by (intros z Hz; apply Hin; right; exact Hz).
      assert (E1' : nth_error (t_1 st1) (S j) = Some r) by (cbn [t_1 st1]; apply upd_same; lia).
      assert (E0' : nth_error (t_0 st1) (S j) = Some u2) by exact Hx2.
      assert (Ela : length a = length gs) by lia. assert (Enb' : nb = (S j + S (length gs))%nat) by lia.
      specialize (IH Hin2 Enb' Ela Hsz E0' E1' Ef Pu2 Pr Hup1).
      change (t_out st1) with (t_out st) in IH.
      destruct (ep u2 g2 _) as [r2|] eqn:Er2; [|exact IH]. cbn [obind] in IH |- *.
      destruct (arrive C gs a (t_out st) r2) as [[a' out']|]; [|exact IH]. cbn [obind].
      destruct IH as (st' & E & Hsz' & Ho & Hlow & Hfl & Hnf). exists st'. split; [exact E|]. split; [exact Hsz'|]. split; [exact Ho|]. split.
      { intros i Hi. destruct (Hlow i ltac:(lia)) as [A B]. split; [exact A|]. rewrite B. cbn [t_1 st1]. apply upd_other. lia. }
      split.
      { intros i Hi. rewrite (Hfl i ltac:(lia)). cbn [t_fill st1]. rewrite !upd_other by lia. reflexivity. }
      intros Hsize. cbn [asize Nat.pow] in Hsize. destruct Hnf as [Hz Hl]; [lia|]. split.
      { rewrite (Hfl j ltac:(lia)). cbn [t_fill st1]. apply upd_same. rewrite upd_length. lia. }
      intros [|i] y Hy.
      * cbn in Hy. injection Hy as <-. rewrite Nat.add_0_r. exact Hz.
      * cbn in Hy. replace (S j + S i)%nat with (S (S j) + i)%nat by lia. apply Hl. exact Hy.
    + (* the upper level is empty *)
      unfold lvl in Hx. rewrite (at_some _ _ _ Hx). cbn [obind Nat.eqb].
      unfold copy_glwe. rewrite Fl0, (HPflat u Pu), Nat.eqb_refl. cbn [assert_ obind].
      destruct (ep u g _) as [r|] eqn:Er; [|reflexivity]. cbn [obind]. subst gs2. cbn [arrive].
      assert (Pr : P r) by (apply (HPep u v g r); auto; apply Hin; left; reflexivity).
      set (st1 := Tree (upd (t_0 st) (S j) r) (t_1 st) (upd (upd (t_fill st) (S j) 1%nat) j 0%nat) (t_out st)).
      assert (Ef : nth_error (t_fill st1) (S j) = Some 1%nat).
      { cbn [t_fill st1]. rewrite upd_other by lia. apply upd_same. lia. }
      exists st1. split.
      { cbn [tree_layers]. rewrite (at_some _ _ _ Ef). reflexivity. }
      split.
      { repeat split; cbn [t_0 t_1 t_fill t_out st1]; rewrite ?upd_length; try assumption. apply upd_Forall; [assumption|apply HPflat; exact Pr]. }
      split; [reflexivity|]. split.
      { intros i Hi. cbn [t_0 t_1 st1]. split; [apply upd_other; lia|reflexivity]. }
      split.
      { intros i Hi. cbn [t_fill st1]. rewrite !upd_other by lia. reflexivity. }
      intros _. split.
      { cbn [t_fill st1]. apply upd_same. rewrite upd_length. lia. }
      intros [|i] y Hy.
      * cbn in Hy. injection Hy as <-. rewrite Nat.add_0_r. split; [exact Ef|]. split; [|exact Pr]. cbn [t_0 st1]. apply upd_same. lia.
      * cbn in Hy. specialize (Hup (S i) y Hy). unfold lvl in Hup |- *. cbn [t_0 t_fill st1].
        destruct y as [y|]; rewrite !upd_other by lia; exact Hup.
Qed.

(** The first layer: a pair of tables. *)
Definition trivial (lut : list Z) : list (list Z) := repeat (repeat 0 N) k ++ [lut].
Definition base_ok (ct : list (list Z)) : Prop := exists body, ct = trivial body /\ length body = N.

Lemma set_body_ok ct lut : base_ok ct -> length lut = N -> set_body ct lut = Ret (trivial lut).
Proof.
  intros (body & -> & Hb) Hl. unfold set_body, trivial. rewrite glwe_split_snoc. cbn [obind]. unfold copy_slice. rewrite Hb, Hl, Nat.eqb_refl. reflexivity.
Qed.
Lemma trivial_flat lut : length lut = N -> flat (trivial lut).
Proof.
  intros Hl. unfold trivial. rewrite concat_app, app_length. cbn [concat]. rewrite app_nil_r, Hl.
  assert (length (concat (repeat (repeat 0 N) k)) = (k * N)%nat); [|lia].
  clear. induction k as [|n IH]; [reflexivity|]. cbn [repeat concat]. rewrite app_length, repeat_length, IH. lia.
Qed.


Lemma loop_sim g0 gs n : incl (g0 :: gs) gall -> forall luts st a, (length luts <= n)%nat ->
  length a = length gs -> sized (S (length gs)) st ->
  (exists c, nth_error (t_0 st) 0 = Some c /\ base_ok c) -> (exists c, nth_error (t_1 st) 0 = Some c /\ base_ok c) ->
  (forall i x, nth_error a i = Some x -> lvl st (S i) x) ->
  Forall (fun lut => length lut = N /\ P (trivial lut)) luts ->
  (length luts + 2 * asize a = 2 * 2 ^ length a)%nat \/ luts = [] ->
  match feed C (g0 :: gs) (None :: a) (t_out st) (map trivial luts) with
  | Panic => tree_loop w ep (S (length gs)) (g0 :: gs) luts st = Panic
  | Ret (_, out') => exists st', tree_loop w ep (S (length gs)) (g0 :: gs) luts st = Ret st' /\ t_out st' = out'
  end.
Proof.
  intros Hin. induction n as [|n IH]; intros luts st a Hn La Hsz (c0 & E0 & B0) (c1 & E1 & B1) Hup HF Hlen.
  { destruct luts; [|cbn in Hn; lia]. cbn. eauto. }
  destruct luts as [|even [|odd luts]].
  - cbn. eauto.
  - destruct Hlen as [Hlen|]; [|discriminate]. cbn [length] in Hlen. lia.
  - destruct Hlen as [Hlen|]; [|discriminate]. cbn [length] in Hlen, Hn.
    apply Forall_cons_iff in HF. destruct HF as [[Le Pe] HF]. apply Forall_cons_iff in HF. destruct HF as [[Lo Po] HF].
    cbn [map feed tree_loop].
    rewrite (at_some _ _ _ E0), (at_some _ _ _ E1). cbn [obind].
    rewrite (set_body_ok _ _ B0 Le), (set_body_ok _ _ B1 Lo). cbn [obind].
    destruct Hsz as (L0 & L1 & Lf & F0 & F1 & Fo).
    set (st1 := Tree (upd (t_0 st) 0 (trivial even)) (upd (t_1 st) 0 (trivial odd)) (upd (t_fill st) 0 2%nat) (t_out st)).
    assert (Hsz1 : sized (S (length gs)) st1).
    { repeat split; cbn [t_0 t_1 t_fill t_out st1]; rewrite ?upd_length; try assumption; apply upd_Forall; try assumption; apply trivial_flat; assumption. }
    assert (X0 : nth_error (t_0 st1) 0 = Some (trivial even)) by (cbn [t_0 st1]; apply upd_same; lia).
    assert (X1 : nth_error (t_1 st1) 0 = Some (trivial odd)) by (cbn [t_1 st1]; apply upd_same; lia).
    assert (Xf : nth_error (t_fill st1) 0 = Some 2%nat) by (cbn [t_fill st1]; apply upd_same; lia).
    assert (Hup1 : forall i x, nth_error a i = Some x -> lvl st1 (1 + i) x).
    { intros i x Hx. specialize (Hup i x Hx). unfold lvl in Hup |- *. cbn [Nat.add]. cbn [t_0 t_fill st1].
      destruct x as [x|]; rewrite !upd_other by lia; exact Hup. }
    pose proof (layers_sim gs (S (length gs)) 0 st1 a (trivial even) (trivial odd) g0 Hin eq_refl La Hsz1 X0 X1 Xf Pe Po Hup1) as HL.
    cbn [arrive obind]. change (t_out st1) with (t_out st) in HL.
    destruct (ep (trivial even) g0 (zip_update (zip_update (wsub w)) (trivial odd) (trivial even))) as [r|]; cbn [obind] in HL |- *.
    2:{ rewrite HL. reflexivity. }
    destruct (arrive C gs a (t_out st) r) as [[a' out']|] eqn:Ea; cbn [obind].
    2:{ rewrite HL. reflexivity. }
    destruct HL as (st' & E & Hsz' & Ho & Hlow & _ & Hnf). rewrite E. cbn [obind].
    apply arrive_size in Ea; [|lia]. destruct Ea as [La' Ea].
    destruct (Hlow 0%nat (le_n _)) as [Z0 Z1].
    destruct luts as [|l1 luts].
    { cbn. eauto. }
    assert (Hs : (asize a + 1 < 2 ^ length a)%nat) by (cbn [length] in Hlen; lia).
    destruct (Ea Hs) as [Ea1 Ea2]. destruct (Hnf Hs) as [_ Hl].
    rewrite <- Ho. apply IH; try assumption.
    + lia.
    + lia.
    + exists (trivial even). split; [congruence|]. exists even. auto.
    + exists (trivial odd). split; [congruence|]. exists odd. auto.
    + left. rewrite Ea1, La'. lia.
Qed.

Lemma debug_true p : debug_assert p true = Ret tt.
Proof. destruct p; reflexivity. Qed.

Lemma cmux_tree_ok p out luts : length out = S k -> Forall (fun q => length q = N) out ->
  Forall (fun lut => length lut = N /\ P (trivial lut)) luts -> length luts = (2 ^ length gall)%nat ->
  cmux_tree p w ep N out luts gall = select_tree C gall (map trivial luts).
Proof.
  intros Lo HFo HF Hl. unfold cmux_tree.
  assert (Ed : (Z.of_nat (length luts) =? 2 ^ Z.of_nat (length gall)) = true).
  { apply Z.eqb_eq. rewrite Hl, Nat2Z.inj_pow. reflexivity. }
  rewrite Ed, debug_true. cbn [obind].
  destruct gall as [|g gs] eqn:Eg.
  - destruct luts as [|lut [|? ?]]; try discriminate. cbn [map select_tree].
    destruct out as [|body mask _] using rev_ind; [discriminate|]. rewrite glwe_split_snoc. cbn [obind].
    apply Forall_app in HFo. destruct HFo as [HFm HFb]. apply Forall_inv in HFb. apply Forall_inv in HF. destruct HF as [HF _].
    cbn [concat]. rewrite app_nil_r. unfold copy_slice. rewrite HFb, HF, Nat.eqb_refl. cbn [assert_ obind]. unfold trivial. repeat f_equal.
    rewrite app_length in Lo. cbn in Lo. replace k with (length mask) by lia. clear -HFm. induction mask as [|m mask IH]; [reflexivity|].
    apply Forall_cons_iff in HFm. destruct HFm as [Hm HFm]. cbn [map length repeat]. f_equal; [|apply IH; exact HFm].
    rewrite <- Hm. clear. induction m; [reflexivity|]. cbn. f_equal. assumption.
  - rewrite <- Eg in *. assert (Hr : exists g0 gr, rev gall = g0 :: gr /\ length gall = S (length gr)).
    { destruct (rev gall) as [|g0 gr] eqn:Er; [apply (f_equal (@length K)) in Er; rewrite rev_length, Eg in Er; discriminate|].
      exists g0, gr. split; [reflexivity|]. rewrite <- (rev_length gall), Er. reflexivity. }
    destruct Hr as (g0 & gr & Er & Lr). rewrite Er, Lo, Lr.
    set (st0 := Tree _ _ _ _).
    assert (Ez : repeat (repeat 0 N) (S k) = trivial (repeat 0 N)).
    { unfold trivial. apply repeat_cons. }
    assert (Fz : flat (repeat (repeat 0 N) (S k))) by (rewrite Ez; apply trivial_flat; apply repeat_length).
    assert (Hb : base_ok (repeat (repeat 0 N) (S k))) by (rewrite Ez; exists (repeat 0 N); split; [reflexivity|apply repeat_length]).
    pose proof (loop_sim g0 gr (length luts)) as HL. rewrite <- Er in HL.
    specialize (HL ltac:(intros x Hx; apply in_rev; exact Hx) luts st0 (repeat None (length gr)) (le_n _) (repeat_length _ _)).
    assert (Hn : forall A (x y : A) n i, nth_error (repeat x n) i = Some y -> y = x).
    { intros A x y n. induction n as [|n IHn]; intros [|i] H; cbn in H; try discriminate; [congruence|eauto]. }
    assert (Hc : forall A (x : A) n i, (i < n)%nat -> nth_error (repeat x n) i = Some x).
    { intros A x n. induction n as [|n IHn]; intros [|i] H; cbn; try lia; [reflexivity|]. apply IHn. lia. }
    assert (Hsz : sized (S (length gr)) st0).
    { unfold sized, st0. cbn [t_0 t_1 t_fill t_out]. rewrite !repeat_length. repeat split.
      - apply Forall_forall. intros c Hc'. apply repeat_spec in Hc'. subst c. exact Fz.
      - apply Forall_forall. intros c Hc'. apply repeat_spec in Hc'. subst c. exact Fz.
      - rewrite <- Lo. clear -HFo. induction out as [|o out IH]; [reflexivity|]. apply Forall_cons_iff in HFo. destruct HFo as [A B].
        cbn [concat length]. rewrite app_length, IH by exact B. cbn. lia. }
    specialize (HL Hsz). cbn [t_0 t_1 t_fill t_out st0] in HL.
    specialize (HL (ex_intro _ _ (conj eq_refl Hb)) (ex_intro _ _ (conj eq_refl Hb))).
    assert (Hlv : forall i x, nth_error (repeat None (length gr)) i = Some x -> lvl st0 (S i) x).
    { intros i x Hx. assert (Hi : (i < length gr)%nat) by (rewrite <- (repeat_length (@None (list (list Z))) (length gr)); apply nth_error_Some; congruence).
      apply Hn in Hx. subst x. unfold lvl. cbn [t_fill st0]. apply Hc. lia. }
    specialize (HL Hlv HF). rewrite asize_none, repeat_length in HL.
    specialize (HL ltac:(left; rewrite Hl, Lr; cbn [Nat.pow]; lia)).
    change (None :: repeat None (length gr)) with (repeat (@None (list (list Z))) (S (length gr))) in HL.
    pose proof (feed_tree C (S (length gr)) (rev gall) [] [] out (map trivial luts) []) as HT.
    rewrite !app_nil_r in HT. specialize (HT ltac:(rewrite rev_length; exact Lr) ltac:(rewrite map_length, Hl, Lr; reflexivity)).
    rewrite HT in HL. rewrite rev_involutive in HL.
    destruct (select_tree C gall (map trivial luts)) as [v|]; cbn [obind arrive feed] in HL.
    + destruct HL as (st' & E & Ho). rewrite Er in E. rewrite E. cbn [obind]. rewrite Ho. reflexivity.
    + rewrite Er in HL. rewrite HL. reflexivity.
Qed.
End Sim.
