(** * C64: whatever sequence of calls is made, what is read back is what the calls computed *)
From Verif Require Import Base Word WordFacts RandomModel RandomProofs PolyModel PolySpec NegaRing LweModel LweSpec LweProofs LweTheorems GlweModel GlweSpec GlweProofs GlweTheorems
  DecompModel DecompProofs KeyswitchModel KeyswitchSpec KeyswitchTheorems SeededModel SeededTheorems EngineModel EngineSpec EngineTheorems EngineGlweTheorems NoiseBounds WopBitsTheorems
  SessionModel SessionSpec.

(** ** Promises *)
Lemma near_add w x y z v v' : near w x v -> near w y v' -> eqm (2 ^ w) z (x + y) -> near w z (vadd v v').
Proof.
  destruct v as [[m E]|]; [|easy]. destruct v' as [[m' E']|]; [|easy]. intros (e & H & Hx) (e' & H' & Hy) Hz. exists (e + e'). split; [lia|].
  rewrite Hz, Hx, Hy. apply eqm_eq. ring.
Qed.
Lemma near_sub w x y z v v' : near w x v -> near w y v' -> eqm (2 ^ w) z (x - y) -> near w z (vsub v v').
Proof.
  destruct v as [[m E]|]; [|easy]. destruct v' as [[m' E']|]; [|easy]. intros (e & H & Hx) (e' & H' & Hy) Hz. exists (e - e'). split; [lia|].
  rewrite Hz, Hx, Hy. apply eqm_eq. ring.
Qed.
Lemma near_opp w x z v : near w x v -> eqm (2 ^ w) z (- x) -> near w z (vopp v).
Proof.
  destruct v as [[m E]|]; [|easy]. intros (e & H & Hx) Hz. exists (- e). split; [lia|]. rewrite Hz, Hx. apply eqm_eq. ring.
Qed.
Lemma near_mul w x z a v : 0 <= w -> near w x v -> eqm (2 ^ w) z (a * x) -> near w z (vmul (signed w a) v).
Proof.
  intros Hw. destruct v as [[m E]|]; [|easy]. intros (e & H & Hx) Hz. exists (signed w a * e). split.
  - rewrite Z.abs_mul. apply Z.mul_le_mono_nonneg_l; [apply Z.abs_nonneg|exact H].
  - rewrite Hz, Hx. change (signed w a) with (sgn w a). rewrite (eqm_sgn w a Hw) at 1. apply eqm_eq. ring.
Qed.
Lemma near_widen w x z B v e : near w x v -> Z.abs e <= B -> eqm (2 ^ w) z (x + e) -> near w z (vwiden B v).
Proof.
  destruct v as [[m E]|]; [|easy]. intros (e' & H & Hx) He Hz. exists (e' + e). split; [lia|]. rewrite Hz, Hx. apply eqm_eq. ring.
Qed.
Lemma near_eqm w x y v : near w x v -> eqm (2 ^ w) y x -> near w y v.
Proof. destruct v as [[m E]|]; [|easy]. intros (e & H & Hx) Hy. exists e. split; [exact H|]. rewrite Hy. exact Hx. Qed.

(** ** Lists *)
Lemma put_length {A} (l : list A) : forall i a, length (put i a l) = length l.
Proof. induction l as [|b l IH]; intros [|i] a; cbn; auto. Qed.
Lemma put_Forall2 {A B} (R : A -> B -> Prop) l r : Forall2 R l r -> forall i a b, R a b -> Forall2 R (put i a l) (put i b r).
Proof. induction 1; intros [|i] a b H1; cbn; constructor; auto. Qed.
Lemma Forall2_snoc {A B} (R : A -> B -> Prop) l r a b : Forall2 R l r -> R a b -> Forall2 R (l ++ [a]) (r ++ [b]).
Proof. intros H H1. apply Forall2_app; auto. Qed.
Lemma Forall2_at {A B} (R : A -> B -> Prop) l r : Forall2 R l r -> forall i,
  match nth_error l i, nth_error r i with Some a, Some b => R a b | None, None => True | _, _ => False end.
Proof. induction 1; intros [|i]; cbn; auto. apply IHForall2. Qed.
Lemma nth_map2_lt (f : Z -> Z -> Z) : forall l r i, (i < length l)%nat -> (i < length r)%nat -> nth i (map2 f l r) 0 = f (nth i l 0) (nth i r 0).
Proof. induction l as [|a l IH]; intros [|b r] [|i] H H1; cbn in *; try lia; auto. apply IH; lia. Qed.
Lemma Forall2_weaken {A B} (R S : A -> B -> Prop) l r : (forall a b, R a b -> S a b) -> Forall2 R l r -> Forall2 S l r.
Proof. intros H. induction 1; constructor; auto. Qed.

(** ** The simulation *)
Section Sim.
Context (p : profile) (w : Z) (gauss : Z -> list Z -> option (Z * Z)) (beta : Z -> Z) (rng : Z -> bgen) (seeds : nat -> Z).

(** [s] can be the secret that [who] uses on a ciphertext of dimension [dim]: the secret of that number once it has been
    drawn, any secret before. *)
Definition denotes (secrets : list (list Z)) (dim : nat) (who : option nat) (s : list Z) : Prop :=
  match who with
  | None => s = []
  | Some i => length s = dim /\ match nth_error secrets i with Some s0 => s = s0 | None => True end
  end.
Definition cipher_ok secrets (c : list Z) (ic : cipher) : Prop :=
  lwe_wf w (c_dim ic) c /\ forall who s, denotes secrets (c_dim ic) who s -> near w (phase w s c) (c_reads ic who).
Definition seeded_ok secrets (c : nat * seeded Z) (ic : cipher) : Prop :=
  exists c', cipher_ok secrets c' ic /\ forall o, length o = S (fst c) -> expand_lwe w rng (snd c) o = Ret c'.
Definition lwe_key_ok (secrets : list (list Z)) (k : list Z) (ik : ideal_lwe_key) : Prop :=
  nth_error secrets (il_secret ik) = Some k /\ length k = il_dim ik /\ binary k.
Definition glwe_key_ok (secrets : list (list Z)) (k : glwe_key) (ik : ideal_glwe_key) : Prop :=
  gk_N k = ig_size ik /\ (0 < ig_size ik)%nat /\ length (gk_polys k) = ig_dim ik /\ Forall (fun s => length s = ig_size ik) (gk_polys k) /\
  nth_error secrets (ig_secret ik) = Some (concat (gk_polys k)) /\ binary (concat (gk_polys k)).
Definition plaintext_ok (m : Z) (v : value) : Prop := is_word w m /\ near w m v.
Definition vector_ok (ms : list Z) (v : nat * values) : Prop :=
  (0 < fst v)%nat /\ length ms = fst v /\ Forall (is_word w) ms /\ forall i, (i < fst v)%nat -> near w (nth i ms 0) (nth_value i (snd v)).
Definition glwe_ok secrets (c : glwe_ct) (ic : gcipher) : Prop :=
  g_N c = gc_size ic /\ (0 < gc_size ic)%nat /\ glwe_wf w (gc_dim ic) (gc_size ic) (g_polys c) /\
  (forall n, (n < gc_size ic)%nat -> near w (nth n (last (g_polys c) []) 0) (nth_value n (gc_reads ic None))) /\
  forall i s, denotes secrets (gc_dim ic * gc_size ic) (Some i) s ->
    forall n, (n < gc_size ic)%nat -> near w (rcoef (gphase (gc_size ic) (chunks (gc_size ic) s) (g_polys c)) (Z.of_nat n)) (nth_value n (gc_reads ic (Some i))).
Definition ks_ok (secrets : list (list Z)) (k : ks_key) (ik : ideal_ks_key) : Prop :=
  exists s key noise bet, nth_error secrets (ik_from ik) = Some s /\ nth_error secrets (ik_to ik) = Some key /\ length s = ik_in ik /\ length key = ik_out ik /\
    binary s /\ dec_wf w (Dec (kk_b k) (kk_l k)) /\ ks_key_for w s key noise k /\
    (forall i j, (i < length s)%nat -> (j < kk_l k)%nat -> Z.abs (noise i j) <= bet) /\
    ik_noise ik = Z.of_nat (length s) * 2 ^ (w - kk_b k * Z.of_nat (kk_l k) - 1) + Z.of_nat (length s) * Z.of_nat (kk_l k) * 2 ^ (kk_b k - 1) * bet.

Record sim (secrets : list (list Z)) (st : store) (s : ideal) : Prop := Sim {
  sim_secrets : i_secrets s = length secrets;
  sim_lwe_keys : Forall2 (lwe_key_ok secrets) (st_lwe_keys st) (i_lwe_keys s);
  sim_glwe_keys : Forall2 (glwe_key_ok secrets) (st_glwe_keys st) (i_glwe_keys s);
  sim_plaintexts : Forall2 plaintext_ok (st_plaintexts st) (i_plaintexts s);
  sim_vectors : Forall2 vector_ok (st_plaintext_vectors st) (i_vectors s);
  sim_cleartexts : Forall2 eq (st_cleartexts st) (i_cleartexts s);
  sim_lwe : Forall2 (cipher_ok secrets) (st_lwe st) (i_lwe s);
  sim_seeded : Forall2 (seeded_ok secrets) (st_seeded st) (i_seeded s);
  sim_glwe : Forall2 (glwe_ok secrets) (st_glwe st) (i_glwe s);
  sim_ks : Forall2 (ks_ok secrets) (st_ks_keys st) (i_ks_keys s) }.

(** Drawing another secret keeps every promise. *)
Lemma nth_error_grow {A} (l l' : list A) i a : nth_error l i = Some a -> nth_error (l ++ l') i = Some a.
Proof. intros H. rewrite nth_error_app1; [exact H|]. apply nth_error_Some. congruence. Qed.
Lemma denotes_grow secrets x dim who s : denotes (secrets ++ [x]) dim who s -> denotes secrets dim who s.
Proof.
  destruct who as [i|]; [|easy]. intros [H H1]. split; [exact H|]. destruct (nth_error secrets i) as [s0|] eqn:E; [|exact I].
  rewrite (nth_error_grow _ _ _ _ E) in H1. exact H1.
Qed.
Lemma cipher_ok_grow secrets x c ic : cipher_ok secrets c ic -> cipher_ok (secrets ++ [x]) c ic.
Proof. intros [H H1]. split; [exact H|]. intros who s D. apply H1. eapply denotes_grow; exact D. Qed.
Lemma lwe_key_ok_grow secrets x k ik : lwe_key_ok secrets k ik -> lwe_key_ok (secrets ++ [x]) k ik.
Proof. intros [H H1]. split; [|exact H1]. apply nth_error_grow. exact H. Qed.
Lemma glwe_key_ok_grow secrets x k ik : glwe_key_ok secrets k ik -> glwe_key_ok (secrets ++ [x]) k ik.
Proof. intros (H & H1 & H2 & H3 & H4 & H5). repeat split; auto. apply nth_error_grow. exact H4. Qed.

Lemma sim_grow secrets x st s : sim secrets st s ->
  sim (secrets ++ [x]) st (Ideal (S (i_secrets s)) (i_lwe_keys s) (i_glwe_keys s) (i_plaintexts s) (i_vectors s) (i_cleartexts s) (i_lwe s) (i_seeded s) (i_glwe s) (i_ks_keys s)).
Proof.
  intros [H1 H2 H3 H4 H5 H6 H7 H8 H9 H10]. constructor; cbn [i_secrets i_lwe_keys i_glwe_keys i_plaintexts i_vectors i_cleartexts i_lwe i_seeded i_glwe i_ks_keys]; auto.
  - rewrite app_length, H1. cbn. lia.
  - eapply Forall2_weaken; [|exact H2]. intros. apply lwe_key_ok_grow; assumption.
  - eapply Forall2_weaken; [|exact H3]. intros. apply glwe_key_ok_grow; assumption.
  - eapply Forall2_weaken; [|exact H7]. intros. apply cipher_ok_grow; assumption.
  - eapply Forall2_weaken; [|exact H8]. intros a b (c' & Hc & He). exists c'. split; [apply cipher_ok_grow|]; assumption.
  - eapply Forall2_weaken; [|exact H9]. intros a b (A1 & A2 & A3 & A4 & A5). split; [exact A1|]. split; [exact A2|]. split; [exact A3|]. split; [exact A4|].
    intros i k D. apply A5. eapply denotes_grow; exact D.
  - eapply Forall2_weaken; [|exact H10]. intros a b (k1 & k2 & noise & bet & A1 & A2 & A3). exists k1, k2, noise, bet.
    split; [apply nth_error_grow; exact A1|]. split; [apply nth_error_grow; exact A2|]. exact A3.
Qed.

(** What a call must achieve. *)
Definition ok (panics : Prop) (o : outcome (reply * engine * store)) (i : ideal_reply * ideal) : Prop :=
  match o with
  | Panic => panics
  | Ret (r, en', st') => agrees w r (fst i) /\ egen_ok (en_enc en') /\ exists secrets', sim secrets' st' (snd i)
  end.

Section One.
Context (secrets : list (list Z)) (en : engine) (st : store) (s : ideal) (HS : sim secrets st s) (HE : egen_ok (en_enc en)).

Lemma arg_ok P {A B} (R : A -> B -> Prop) l il i k ik : Forall2 R l il ->
  (forall a b, nth_error l i = Some a -> nth_error il i = Some b -> R a b -> ok P (k a) (ik b)) -> ok P (arg en st l i k) (iarg s il i ik).
Proof.
  intros H Hk. unfold arg, iarg. pose proof (Forall2_at _ _ _ H i) as Hi.
  destruct (nth_error l i) as [a|] eqn:E1, (nth_error il i) as [b|] eqn:E2; try contradiction.
  - apply Hk; auto.
  - cbn. split; [exact I|]. split; [exact HE|]. exists secrets. exact HS.
Qed.
Lemma answer_ok (P : Prop) {A} (o : outcome (result A)) k good s' :
  (o = Panic -> P) -> (forall e, o = Ret (Err e) -> good = false) ->
  (forall a, o = Ret (Ok a) -> good = true /\ egen_ok (en_enc (fst (k a))) /\ exists secrets', sim secrets' (snd (k a)) s') ->
  ok P (answer en st o k) (when s good s').
Proof.
  intros H1 H2 H3. unfold answer, when. destruct o as [[a|e]|]; cbn [obind].
  - destruct (H3 a eq_refl) as (-> & H4 & H5). destruct (k a) as [en' st']. cbn. auto.
  - rewrite (H2 e eq_refl). cbn. split; [exact I|]. split; [exact HE|]. exists secrets. exact HS.
  - cbn. auto.
Qed.

(** The updates of the two stores *)
Ltac upd := destruct HS as [H1 H2 H3 H4 H5 H6 H7 H8 H9 H10]; constructor; cbn; auto using Forall2_snoc, put_Forall2.
Lemma sim_new_plaintext m v : plaintext_ok m v -> sim secrets (new_plaintext st m) (i_new_plaintext s v).
Proof. intros H. upd. Qed.
Lemma sim_put_plaintext o m v : plaintext_ok m v -> sim secrets (set_plaintexts st (put o m (st_plaintexts st))) (i_set_plain s (put o v (i_plaintexts s)) (i_vectors s) (i_cleartexts s)).
Proof. intros H. upd. Qed.
Lemma sim_new_vector ms n v : vector_ok ms (n, v) -> sim secrets (new_plaintext_vector st ms) (i_new_vector s n v).
Proof. intros H. upd. Qed.
Lemma sim_put_vector o ms v : vector_ok ms v -> sim secrets (set_plaintext_vectors st (put o ms (st_plaintext_vectors st))) (i_set_plain s (i_plaintexts s) (put o v (i_vectors s)) (i_cleartexts s)).
Proof. intros H. upd. Qed.
Lemma sim_new_lwe c ic : cipher_ok secrets c ic -> sim secrets (new_lwe st c) (i_new_lwe s ic).
Proof. intros H. upd. Qed.
Lemma sim_write_lwe o c ic : cipher_ok secrets c ic -> sim secrets (write_lwe st o c) (i_write_lwe s o ic).
Proof. intros H. upd. Qed.
Lemma sim_new_glwe c ic : glwe_ok secrets c ic -> sim secrets (new_glwe st c) (i_new_glwe s ic).
Proof. intros H. upd. Qed.
End One.

(** ** The ciphertext operations *)
Context (Hw : 0 < w).

(** [d] is a ciphertext of dimension [n] whose phases are [val]. *)
Definition result_is (n : nat) (val : list Z -> Z) (good : bool) (o : outcome (result (list Z))) : Prop :=
  if good then exists d, o = Ret (Ok d) /\ lwe_wf w n d /\ forall s, eqm (2 ^ w) (phase w s d) (val s)
  else exists e, o = Ret (Err e).
Lemma lwe_dim_wf n c : lwe_wf w n c -> lwe_dim c = n.
Proof. intros [H _]. unfold lwe_dim. rewrite H. lia. Qed.
Lemma result_run n val (o : outcome (list Z)) :
  (forall s, exists d, o = Ret d /\ lwe_wf w n d /\ phase w s d = val s mod 2 ^ w) -> result_is n val true (run o).
Proof.
  intros H. destruct (H []) as (d & -> & Hd & _). exists d. split; [reflexivity|]. split; [exact Hd|]. intros s.
  destruct (H s) as (d' & E & _ & P). injection E as <-. rewrite P. apply eqm_mod.
Qed.
Lemma copy_same {A} (o c : list A) n : length o = n -> length c = n -> fill_with_copy o c = Ret c.
Proof. intros H1 H2. unfold fill_with_copy. rewrite H1, H2, Nat.eqb_refl. reflexivity. Qed.

Lemma add_result no na nb o a b : lwe_wf w no o -> lwe_wf w na a -> lwe_wf w nb b ->
  result_is no (fun s => phase w s a + phase w s b) (Nat.eqb no na && Nat.eqb no nb) (safe_discard_add p w o a b) /\
  result_is no (fun s => phase w s a - phase w s b) (Nat.eqb no na && Nat.eqb no nb) (safe_discard_sub p w o a b).
Proof.
  intros Ho Ha Hb. unfold safe_discard_add, safe_discard_sub. rewrite (lwe_dim_wf _ _ Ho), (lwe_dim_wf _ _ Ha), (lwe_dim_wf _ _ Hb). unfold neq.
  destruct (Nat.eqb no na) eqn:E1; [|cbn; eauto]. destruct (Nat.eqb no nb) eqn:E2; [|cbn; eauto]. cbn [negb orb andb refuse].
  apply Nat.eqb_eq in E1, E2. subst na nb.
  split; apply result_run; intros s0; [unfold discard_add|unfold discard_sub];
    rewrite (copy_same o a (S no) (proj1 Ho) (proj1 Ha)); cbn [obind];
    [apply C19_addition|apply C19_subtraction]; try apply Ha; try apply Hb; lia.
Qed.
Lemma fuse_result no na o a : lwe_wf w no o -> lwe_wf w na a ->
  result_is no (fun s => phase w s o + phase w s a) (Nat.eqb no na) (safe_fuse_add p w o a) /\
  result_is no (fun s => phase w s o - phase w s a) (Nat.eqb no na) (safe_fuse_sub p w o a).
Proof.
  intros Ho Ha. unfold safe_fuse_add, safe_fuse_sub. rewrite (lwe_dim_wf _ _ Ho), (lwe_dim_wf _ _ Ha). unfold neq.
  destruct (Nat.eqb no na) eqn:E1; [|cbn; eauto]. cbn [negb refuse].
  apply Nat.eqb_eq in E1. subst na.
  split; apply result_run; intros s0; [apply C19_addition|apply C19_subtraction]; try apply Ha; try apply Ho; lia.
Qed.
Lemma unary_result no na o a : lwe_wf w no o -> lwe_wf w na a ->
  result_is no (fun s => - phase w s a) (Nat.eqb no na) (safe_discard_opp w o a) /\
  (forall x, result_is no (fun s => x * phase w s a) (Nat.eqb no na) (safe_discard_mul_cleartext p w o a x)) /\
  (forall m, result_is no (fun s => phase w s a + m) (Nat.eqb no na) (safe_discard_add_plaintext w o a m)) /\
  (forall m, result_is no (fun s => phase w s a - m) (Nat.eqb no na) (safe_discard_sub_plaintext w o a m)).
Proof.
  intros Ho Ha. unfold safe_discard_opp, safe_discard_mul_cleartext, safe_discard_add_plaintext, safe_discard_sub_plaintext.
  rewrite (lwe_dim_wf _ _ Ho), (lwe_dim_wf _ _ Ha). unfold neq. rewrite (Nat.eqb_sym na no).
  destruct (Nat.eqb no na) eqn:E1; [|cbn; repeat split; eauto]. cbn [negb refuse].
  apply Nat.eqb_eq in E1. subst na. assert (W0 : 0 <= w) by lia.
  unfold discard_opp, discard_mul_cleartext, discard_add_plaintext, discard_sub_plaintext. rewrite (copy_same o a (S no) (proj1 Ho) (proj1 Ha)). cbn [obind].
  split; [|split; [|split]].
  - apply result_run. intros s0. eexists. split; [reflexivity|]. apply C19_opposite; [exact W0|apply Ha].
  - intros x. apply result_run. intros s0. destruct (C19_cleartext_multiplication p w no s0 o a x W0 (proj1 Ha) (proj1 Ho)) as (A1 & A2 & A3). eauto.
  - intros m. apply result_run. intros s0. destruct (C19_plaintext_addition w no s0 a m W0 Ha) as [(d & A1 & A2 & _ & A4) _]. eauto.
  - intros m. apply result_run. intros s0. destruct (C19_plaintext_addition w no s0 a m W0 Ha) as [_ (d & A1 & A2 & _ & A4)]. eauto.
Qed.
Lemma in_place_result no o : lwe_wf w no o ->
  result_is no (fun s => - phase w s o) true (run (Ret (lwe_update_neg w o))) /\
  (forall x, result_is no (fun s => x * phase w s o) true (run (Ret (lwe_update_scalar_mul w o x)))) /\
  (forall m, result_is no (fun s => phase w s o + m) true (run (lwe_body_add w o m))) /\
  (forall m, result_is no (fun s => phase w s o - m) true (run (lwe_body_sub w o m))).
Proof.
  intros Ho. assert (W0 : 0 <= w) by lia. split; [|split; [|split]].
  - apply result_run. intros s0. eexists. split; [reflexivity|]. apply C19_opposite; [exact W0|apply Ho].
  - intros x. apply result_run. intros s0. destruct (C19_cleartext_multiplication p w no s0 o o x W0 (proj1 Ho) (proj1 Ho)) as (A1 & A2 & A3). eauto.
  - intros m. apply result_run. intros s0. destruct (C19_plaintext_addition w no s0 o m W0 Ho) as [(d & A1 & A2 & _ & A4) _]. eauto.
  - intros m. apply result_run. intros s0. destruct (C19_plaintext_addition w no s0 o m W0 Ho) as [_ (d & A1 & A2 & _ & A4)]. eauto.
Qed.

Section Ops.
Context (secrets : list (list Z)) (en : engine) (st : store) (s : ideal) (HS : sim secrets st s) (HE : egen_ok (en_enc en)).

Lemma result_ok P o n val good f (r : outcome (result (list Z))) : result_is n val good r ->
  (good = true -> forall who k, denotes secrets n who k -> near w (val k) (f who)) ->
  ok P (answer en st r (fun c => (en, write_lwe st o c))) (when s good (i_write_lwe s o (Cipher n f))).
Proof.
  intros Hr Hf. apply (answer_ok secrets); try assumption.
  - intros ->. destruct good; cbn in Hr; [destruct Hr as (d & E & _)|destruct Hr as (e & E)]; discriminate.
  - intros e ->. destruct good; [|reflexivity]. destruct Hr as (d & E & _). discriminate.
  - intros a ->. destruct good; [|destruct Hr as (e & E); discriminate]. destruct Hr as (d & E & Hd & Hp). injection E as <-.
    split; [reflexivity|]. split; [exact HE|]. exists secrets. apply sim_write_lwe; [exact HS|]. split; [exact Hd|]. cbn [c_dim c_reads]. intros who k D.
    eapply near_eqm; [apply Hf; [reflexivity|exact D]|apply Hp].
Qed.
Lemma both_ok P o a b (op : list Z -> list Z -> list Z -> outcome (result (list Z))) (f : Z -> Z -> Z) g :
  (forall no na nb co ca cb, lwe_wf w no co -> lwe_wf w na ca -> lwe_wf w nb cb ->
     result_is no (fun s => f (phase w s ca) (phase w s cb)) (Nat.eqb no na && Nat.eqb no nb) (op co ca cb)) ->
  (forall x y v v', near w x v -> near w y v' -> near w (f x y) (g v v')) ->
  ok P (arg en st (st_lwe st) o (fun co => arg en st (st_lwe st) a (fun ca => arg en st (st_lwe st) b (fun cb => answer en st (op co ca cb) (fun c => (en, write_lwe st o c))))))
    (both s o a b g).
Proof.
  intros Hop Hg. unfold both. apply (arg_ok secrets en st s HS HE P (cipher_ok secrets)); [apply (sim_lwe _ _ _ HS)|]. intros co ico _ _ [Wo Ro].
  apply (arg_ok secrets en st s HS HE P (cipher_ok secrets)); [apply (sim_lwe _ _ _ HS)|]. intros ca ica _ _ [Wa Ra].
  apply (arg_ok secrets en st s HS HE P (cipher_ok secrets)); [apply (sim_lwe _ _ _ HS)|]. intros cb icb _ _ [Wb Rb].
  eapply result_ok; [apply (Hop _ _ _ _ _ _ Wo Wa Wb)|]. intros G who k D. apply andb_prop in G. destruct G as [G1 G2]. apply Nat.eqb_eq in G1, G2.
  apply Hg; [apply Ra; rewrite <- G1|apply Rb; rewrite <- G2]; exact D.
Qed.
Lemma each_ok P o a (op : list Z -> list Z -> outcome (result (list Z))) (f : Z -> Z) g :
  (forall no na co ca, lwe_wf w no co -> lwe_wf w na ca -> result_is no (fun s => f (phase w s ca)) (Nat.eqb no na) (op co ca)) ->
  (forall x v, near w x v -> near w (f x) (g v)) ->
  ok P (arg en st (st_lwe st) o (fun co => arg en st (st_lwe st) a (fun ca => answer en st (op co ca) (fun c => (en, write_lwe st o c))))) (each s o a g).
Proof.
  intros Hop Hg. unfold each. apply (arg_ok secrets en st s HS HE P (cipher_ok secrets)); [apply (sim_lwe _ _ _ HS)|]. intros co ico _ _ [Wo Ro].
  apply (arg_ok secrets en st s HS HE P (cipher_ok secrets)); [apply (sim_lwe _ _ _ HS)|]. intros ca ica _ _ [Wa Ra].
  eapply result_ok; [apply (Hop _ _ _ _ Wo Wa)|]. intros G who k D. apply Nat.eqb_eq in G. apply Hg, Ra. rewrite <- G. exact D.
Qed.
Lemma arg_dup {A} (l : list A) o (k : A -> A -> outcome (reply * engine * store)) :
  arg en st l o (fun a => k a a) = arg en st l o (fun a => arg en st l o (fun b => k a b)).
Proof. unfold arg. destruct (nth_error l o); reflexivity. Qed.
Lemma arg_in {A B} (l : list A) (r : list B) o i (k : A -> B -> outcome (reply * engine * store)) b : nth_error r i = Some b ->
  arg en st l o (fun a => arg en st r i (fun b => k a b)) = arg en st l o (fun a => k a b).
Proof. intros H. unfold arg. rewrite H. reflexivity. Qed.
End Ops.

(** ** Encryption, decryption and keys *)
Context (H8 : w mod 8 = 0) (H64 : w < 2 ^ 64) (Hgo : forall v, gauss_ok w (gauss v)) (Hgs : forall v, gauss_small w (beta v) (gauss v)) (Hbe : forall v, 0 <= beta v)
        (Hrng : forall x, bytes_ok (bg_table (rng x))).

Lemma binary_safe k : binary k -> safe_key p k.
Proof. intros H. right. exact H. Qed.
Lemma fresh_ok secrets key ik out m x v g c g' : lwe_key_ok secrets key ik -> near w m x -> egen_ok g -> length out = S (length key) ->
  encrypt_lwe p w (gauss v) key out m g = Ret (c, g') -> cipher_ok secrets c (fresh beta ik x v) /\ egen_ok g'.
Proof.
  intros (K1 & K2 & K3) Hm Hg Ho E. apply C18_encrypt_decrypt in E; try assumption; [|apply binary_safe; exact K3].
  destruct E as (e & En & Em & Wc & D). split; [|unfold egen_ok; rewrite Em; exact Hg]. split; [cbn; rewrite <- K2; exact Wc|].
  intros [i|] k; cbn [denotes c_dim c_reads fresh only]; [|easy]. intros [Lk Dk]. destruct (Nat.eqb (il_secret ik) i) eqn:Ei; [|exact I].
  apply Nat.eqb_eq in Ei. subst i. rewrite K1 in Dk. subst k.
  rewrite C18_decryption_is_phase in D; [|lia|exact Wc|apply binary_safe; exact K3]. injection D as D.
  apply (near_widen w m _ _ _ (sgn w e) Hm).
  - assert (Eg : generate_tensor (gaussian_one (gauss v)) 1 (eg_noise g) = Ret ([e], eg_noise g')) by (cbn [generate_tensor]; rewrite En; reflexivity).
    apply (generate_gaussian_small w (beta v) (gauss v) (Hgs v)) in Eg. exact (Forall_inv Eg).
  - rewrite D. rewrite eqm_mod. rewrite <- eqm_sgn by lia. reflexivity.
Qed.
Lemma allocated_length n : length (repeat 0 (S n)) = S n.
Proof. apply repeat_length. Qed.

Lemma phase_words k c : is_word w (phase w k c).
Proof. unfold is_word, phase. apply Z.mod_pos_bound. apply Z.pow_pos_nonneg; lia. Qed.
Lemma decrypt_ok secrets key ik c ic m : lwe_key_ok secrets key ik -> cipher_ok secrets c ic -> decrypt_lwe p w key c = Ret m ->
  plaintext_ok m (read_lwe ik ic).
Proof.
  intros (K1 & K2 & K3) [Wc Rc] E. unfold read_lwe. destruct (Nat.eqb (il_dim ik) (c_dim ic)) eqn:Ed.
  - apply Nat.eqb_eq in Ed. rewrite C18_decryption_is_phase in E; [|lia|rewrite K2, Ed; exact Wc|apply binary_safe; exact K3]. injection E as <-.
    split; [apply phase_words|]. apply Rc. split; [congruence|]. rewrite K1. reflexivity.
  - split; [|exact I]. unfold decrypt_lwe in E. destruct (split_last c) as [[mask body]|]; [|discriminate]. cbn [obind] in E.
    destruct (compute_multisum_ p w mask key) as [t|]; [|discriminate]. injection E as <-. unfold is_word, wsub. apply Z.mod_pos_bound. apply Z.pow_pos_nonneg; lia.
Qed.
Lemma release_multisum : forall mask key acc, multisum_fold Release w acc mask key <> Panic.
Proof. induction mask as [|a mask IH]; intros [|b key] acc; cbn [multisum_fold]; try discriminate. unfold plain. destruct (_ && _); cbn [obind]; apply IH. Qed.
Lemma decrypt_returns secrets key ik c ic : lwe_key_ok secrets key ik -> cipher_ok secrets c ic -> il_dim ik = c_dim ic \/ p = Release ->
  decrypt_lwe p w key c <> Panic.
Proof.
  intros (K1 & K2 & K3) [Wc _] [Ed|Ep].
  - rewrite C18_decryption_is_phase; [discriminate|lia|rewrite K2, Ed; exact Wc|apply binary_safe; exact K3].
  - subst p. unfold decrypt_lwe. destruct Wc as [Lc _]. destruct c as [|x c]; [discriminate|]. unfold split_last, compute_multisum_. cbn [obind ck_dim_eq].
    destruct (multisum_fold Release w 0 (removelast (x :: c)) key) eqn:Em; [discriminate|]. exfalso. revert Em. apply release_multisum.
Qed.

Lemma chunks_secret k N (sk : list Z) : (0 < N)%nat -> length sk = (k * N)%nat ->
  length (chunks N sk) = k /\ Forall (fun s => length s = N) (chunks N sk) /\ concat (chunks N sk) = sk.
Proof. intros HN L. apply chunks_spec; assumption. Qed.
Lemma trivial_ok secrets n m x : plaintext_ok m x -> exists c, new_trivial_encryption (S n) m = Ret c /\ cipher_ok secrets c (Cipher n (fun _ => x)).
Proof.
  intros [Wm Hm]. destruct (C18_trivial p w n (repeat 0 n) m ltac:(lia) Wm (repeat_length _ _)) as (c & E & Wc & _). exists c. split; [exact E|].
  split; [exact Wc|]. cbn [c_dim c_reads]. intros who k _. unfold new_trivial_encryption, fill_with_trivial_encryption in E.
  assert (Es : split_last (repeat 0 (S n)) = Ret (removelast (repeat 0 (S n)), last (repeat 0 (S n)) 0)) by reflexivity.
  rewrite Es in E. cbn [obind] in E. injection E as <-. eapply near_eqm; [exact Hm|].
  unfold phase. rewrite removelast_last, last_last. rewrite eqm_mod.
  assert (Hz : forall (l t : list Z), dot (map (fun _ => 0) l) t = 0).
  { induction l as [|y l IH]; intros [|z t]; cbn; try reflexivity. rewrite IH. reflexivity. }
  change (match n with O => [] | S _ => 0 :: removelast (repeat 0 n) end) with (removelast (repeat 0 (S n))).
  rewrite Hz. apply eqm_eq. lia.
Qed.


Lemma rcoef_nth N (a : list Z) n : (n < N)%nat -> rcoef (R N a) (Z.of_nat n) = nth n a 0.
Proof. intros Hn. rewrite rcoef_R by lia. unfold coef. rewrite Nat2Z.id. reflexivity. Qed.

Lemma glwe_key_gkey secrets k ik : glwe_key_ok secrets k ik -> gkey_ok p (gk_N k) (gk_polys k).
Proof.
  intros (K1 & K2 & K3 & K4 & K5 & K6). rewrite K1. split; [exact K4|]. right. apply Forall_forall. intros a Ha. apply Forall_forall. intros b Hb.
  unfold binary in K6. rewrite Forall_forall in K6. apply K6. apply in_concat. eauto.
Qed.
Lemma denotes_glwe secrets k ik sk : glwe_key_ok secrets k ik -> denotes secrets (ig_dim ik * ig_size ik) (Some (ig_secret ik)) sk -> chunks (ig_size ik) sk = gk_polys k.
Proof. intros (K1 & K2 & K3 & K4 & K5 & K6) [_ D]. rewrite K5 in D. subst sk. apply chunks_concat; assumption. Qed.
Lemma key_denotes secrets k ik : glwe_key_ok secrets k ik -> denotes secrets (ig_dim ik * ig_size ik) (Some (ig_secret ik)) (concat (gk_polys k)).
Proof.
  intros (K1 & K2 & K3 & K4 & K5 & K6). split; [|rewrite K5; reflexivity]. clear - K3 K4. revert K3. generalize (ig_dim ik). induction K4 as [|a l H H1 IH]; intros n E; cbn in *.
  - subst n. reflexivity.
  - subst n. rewrite app_length, (IH (length l) eq_refl). cbn. lia.
Qed.

Lemma glwe_trivial_ok secrets k m n x : vector_ok m (n, x) -> exists c, glwe_new_trivial_encryption p (S k) m = Ret c /\ glwe_ok secrets (GlweCt n c) (GCipher k n (fun _ => x)).
Proof.
  intros (Hn & Lm & Wm & Hm). cbn [fst snd] in *. assert (W0 : 0 <= w) by lia.
  destruct (C23_trivial p w n (repeat (repeat 0 n) k) m W0 Hn (Logic.conj Lm Wm)) as (c & E & Wc & _ & T).
  { apply Forall_forall. intros a Ha. apply repeat_spec in Ha. subst a. apply repeat_length. }
  rewrite repeat_length in E, Wc. exists c. split; [exact E|]. split; [reflexivity|]. split; [exact Hn|]. split; [exact Wc|]. cbn [g_polys gc_size gc_dim gc_reads]. split.
  - intros i Hi. unfold glwe_trivial_decrypt, glwe_split in T. destruct c as [|a c]; [discriminate|]. cbn [obind] in T. injection T as T.
    change (match c with [] => a | _ :: _ => last c [] end) with (last (a :: c) []) in T. rewrite T. apply Hm. exact Hi.
  - intros i sk [Ls _] j Hj. destruct (chunks_secret k n sk Hn Ls) as (C1 & C2 & C3).
    destruct (C23_trivial Release w n (chunks n sk) m W0 Hn (Logic.conj Lm Wm) C2) as (c' & E' & Wc' & D & _).
    assert (c' = c) as ->.
    { rewrite C1 in E'. unfold glwe_new_trivial_encryption, glwe_fill_with_trivial_encryption in E, E'.
      destruct (glwe_split (glwe_allocate (S k) (length m))) as [[ms b]|]; [|discriminate]. cbn [obind] in E, E'.
      destruct (ck_dim_eq Release (length m) (length b)); [|discriminate]. destruct (ck_dim_eq p (length m) (length b)); [|discriminate]. cbn [obind] in E, E'. congruence. }
    destruct (C23_decryption_is_phase Release w n (chunks n sk) c W0 Hn ltac:(split; [exact C2|left; reflexivity]) Wc') as (d & D' & _ & Hr).
    rewrite D in D'. injection D' as <-. eapply near_eqm; [apply (Hm j Hj)|]. rewrite <- (Hr (Z.of_nat j)). rewrite rcoef_nth by exact Hj. reflexivity.
Qed.

Definition widen_values (B : Z) (x : values) : values := match x with Some (ms, E) => Some (ms, E + B) | None => None end.
Lemma near_widen_values i y z B x e : near w y (nth_value i x) -> Z.abs e <= B -> eqm (2 ^ w) z (y + e) -> near w z (nth_value i (widen_values B x)).
Proof. destruct x as [[ms E]|]; [|easy]. cbn [nth_value widen_values]. intros H He Hz. apply (near_widen w y z B (Some (nth i ms 0, E)) e H He Hz). Qed.

Lemma glwe_allocate_wf k N : glwe_wf w k N (glwe_allocate (S k) N).
Proof.
  split; [apply repeat_length|]. apply Forall_forall. intros a Ha. apply repeat_spec in Ha. subst a. split; [apply repeat_length|].
  apply Forall_forall. intros b Hb. apply repeat_spec in Hb. subst b. split; [lia|]. apply Z.pow_pos_nonneg; lia.
Qed.
Lemma glwe_fresh_ok secrets key ik ms n x v g c g' : glwe_key_ok secrets key ik -> n = ig_size ik -> vector_ok ms (n, x) -> egen_ok g ->
  encrypt_glwe p w (gauss v) (gk_polys key) (glwe_allocate (S (gk_dim key)) (gk_N key)) ms g = Ret (c, g') ->
  glwe_ok secrets (GlweCt (gk_N key) c) (GCipher (ig_dim ik) (ig_size ik) (gonly (ig_secret ik) (widen_values (beta v) x))) /\ egen_ok g'.
Proof.
  intros HK -> (Hn & Lm & Wm & Hm) Hg E. cbn [fst snd] in *. pose proof HK as (K1 & K2 & K3 & K4 & K5 & K6). pose proof (glwe_key_gkey _ _ _ HK) as HG.
  rewrite K1 in *. apply (C23_encrypt_decrypt p w (gauss v) (ig_size ik)) in E; try assumption; [|apply Hgo|apply glwe_allocate_wf].
  destruct E as (es & En & Em & _ & Wc & D). split; [|unfold egen_ok; rewrite Em; exact Hg]. rewrite K3 in Wc.
  split; [reflexivity|]. split; [exact K2|]. split; [exact Wc|]. cbn [g_polys gc_size gc_dim gc_reads gonly]. split; [intros; exact I|].
  intros i sk Dn j Hj. destruct (Nat.eqb (ig_secret ik) i) eqn:Ei; [|exact I]. apply Nat.eqb_eq in Ei. subst i.
  rewrite (denotes_glwe _ _ _ _ HK Dn).
  destruct (C23_decryption_is_phase p w (ig_size ik) (gk_polys key) c ltac:(lia) K2 HG ltac:(rewrite K3; exact Wc)) as (d & D' & _ & Hr).
  rewrite D in D'. injection D' as <-. apply (gaussian_tensor_small w (beta v) (gauss v) (Hgs v)) in En. destruct En as [Le He].
  apply (near_widen_values j (nth j ms 0) _ _ _ (sgn w (nth j es 0))); [apply Hm; exact Hj| |].
  - rewrite Forall_forall in He. apply He, nth_In. lia.
  - rewrite <- (Hr (Z.of_nat j)). rewrite rcoef_nth by exact Hj. unfold padd. rewrite nth_map2_lt by lia. rewrite eqm_mod. rewrite <- eqm_sgn by lia. reflexivity.
Qed.
Lemma glwe_decrypt_ok secrets key ik c ic d : glwe_key_ok secrets key ik -> glwe_ok secrets c ic -> fits ik ic = true ->
  poly_wf w (gk_N key) d -> req (2 ^ w) (R (gk_N key) d) (gphase (gk_N key) (gk_polys key) (g_polys c)) ->
  vector_ok d (gc_size ic, gc_reads ic (Some (ig_secret ik))).
Proof.
  intros HK (G1 & G2 & G3 & G4 & G5) F [Ld Wd] Hr. unfold fits in F. apply andb_prop in F. destruct F as [F1 F2]. apply Nat.eqb_eq in F1, F2.
  pose proof HK as (K1 & _). pose proof (key_denotes _ _ _ HK) as Dn. split; [exact G2|]. cbn [fst snd]. split; [congruence|]. split; [exact Wd|]. intros j Hj.
  specialize (G5 _ _ ltac:(rewrite <- F1, <- F2; exact Dn) j Hj). eapply near_eqm; [exact G5|].
  rewrite <- F2 in *. rewrite (denotes_glwe _ _ _ _ HK Dn). rewrite K1 in Hr. rewrite <- (Hr (Z.of_nat j)). rewrite rcoef_nth by exact Hj. reflexivity.
Qed.

Lemma glwe_key_wf_ok secrets k ik : glwe_key_ok secrets k ik -> glwe_key_wf k.
Proof. intros (K1 & K2 & K3 & K4 & _). split; rewrite K1; assumption. Qed.
Lemma glwe_ct_wf_ok secrets c ic : glwe_ok secrets c ic -> glwe_ct_wf c.
Proof.
  intros (G1 & G2 & [L W] & _). split; [lia|]. split; [destruct (g_polys c); discriminate|]. rewrite G1. eapply Forall_impl; [|exact W]. intros a [H _]. exact H.
Qed.
Lemma glwe_words secrets c ic : glwe_ok secrets c ic -> Forall (Forall (is_word w)) (g_polys c).
Proof. intros (G1 & G2 & [L W] & _). eapply Forall_impl; [|exact W]. intros a [_ H]. exact H. Qed.
Lemma fits_sizes secrets k ik c ic : glwe_key_ok secrets k ik -> glwe_ok secrets c ic -> (g_dim c = gk_dim k /\ g_N c = gk_N k) <-> fits ik ic = true.
Proof.
  intros (K1 & _ & K3 & _) (G1 & _ & [L _] & _). unfold fits, g_dim, gk_dim. rewrite L, K1, K3, G1, andb_true_iff, !Nat.eqb_eq. lia.
Qed.

Lemma ks_generation_egen gs b l key : dec_wf w (Dec b l) -> binary key -> forall sk g ksk g', egen_ok g ->
  fill_with_keyswitch_key p w gs b l key sk (repeat (repeat (repeat 0 (S (length key))) l) (length sk)) g = Ret (ksk, g') -> egen_ok g'.
Proof.
  intros Hd Hk. induction sk as [|x sk IH]; intros g ksk g' Hg E; cbn [length repeat fill_with_keyswitch_key] in E.
  - injection E as <- <-. exact Hg.
  - rewrite ks_messages_ok in E by assumption. cbn [obind] in E.
    destruct (encrypt_lwe_list p w gs key _ _ g) as [[block g1]|] eqn:E1; [|discriminate]. cbn [obind] in E.
    destruct (fill_with_keyswitch_key p w gs b l key sk _ g1) as [[rest g2]|] eqn:E2; [|discriminate]. cbn [obind] in E. injection E as <- <-.
    apply LweVectorTheorems.C21_vector_encryption in E1; try assumption.
    + destruct E1 as (es & _ & Em & _). apply IH in E2; [exact E2|]. unfold egen_ok. rewrite Em. exact Hg.
    + apply binary_safe; exact Hk.
    + rewrite repeat_length, map_length, seq_length. reflexivity.
    + apply Forall_forall. intros o Ho. apply repeat_spec in Ho. subst o. cbn. rewrite repeat_length. reflexivity.
Qed.

Lemma run_ok {A} (o : outcome A) r : run o = Ret r -> exists a, o = Ret a /\ r = Ok a.
Proof. unfold run. destruct o; [|discriminate]. cbn. intros E. injection E as <-. eauto. Qed.
Lemma run_err {A} (o : outcome A) e : run o = Ret (Err e) -> False.
Proof. intros E. destruct (run_ok _ _ E) as (a & _ & H). discriminate. Qed.
Lemma run_inv {A} (o : outcome A) a : run o = Ret (Ok a) -> o = Ret a.
Proof. intros E. destruct (run_ok _ _ E) as (b & H & H1). injection H1 as ->. exact H. Qed.
Lemma run_panic {A} (o : outcome A) : run o = Panic -> o = Panic.
Proof. unfold run. destruct o; [discriminate|reflexivity]. Qed.

(** ** One call *)
Section Step.
Context (secrets : list (list Z)) (en : engine) (st : store) (s : ideal) (HS : sim secrets st s) (HE : egen_ok (en_enc en)).
Ltac arglwe := refine (arg_ok secrets en st s HS HE _ (cipher_ok secrets) _ _ _ _ _ (sim_lwe _ _ _ HS) _).
Ltac argkey := refine (arg_ok secrets en st s HS HE _ (lwe_key_ok secrets) _ _ _ _ _ (sim_lwe_keys _ _ _ HS) _).
Ltac arggkey := refine (arg_ok secrets en st s HS HE _ (glwe_key_ok secrets) _ _ _ _ _ (sim_glwe_keys _ _ _ HS) _).
Ltac argpt := refine (arg_ok secrets en st s HS HE _ plaintext_ok _ _ _ _ _ (sim_plaintexts _ _ _ HS) _).
Ltac argvec := refine (arg_ok secrets en st s HS HE _ vector_ok _ _ _ _ _ (sim_vectors _ _ _ HS) _).
Ltac argclear := refine (arg_ok secrets en st s HS HE _ eq _ _ _ _ _ (sim_cleartexts _ _ _ HS) _).
Ltac argseeded := refine (arg_ok secrets en st s HS HE _ (seeded_ok secrets) _ _ _ _ _ (sim_seeded _ _ _ HS) _).
Ltac argglwe := refine (arg_ok secrets en st s HS HE _ (glwe_ok secrets) _ _ _ _ _ (sim_glwe _ _ _ HS) _).
Ltac argks := refine (arg_ok secrets en st s HS HE _ (ks_ok secrets) _ _ _ _ _ (sim_ks _ _ _ HS) _).

Lemma step_ok c : sensible w c -> ok (may_panic p s c) (exec p w gauss rng seeds en st c) (ideal_step w beta s c).
Proof.
  intros Hc. destruct c; cbn [exec ideal_step].
  - (* GenerateLweKey *)
    destruct (C43_secret_key_generation n 0 0 (en_secret en)) as [[[V E]|[V (e & E & _)]] _]; apply (answer_ok secrets); try assumption.
    + intros _. exact I.
    + intros e. rewrite E. destruct (generate_new_lwe_secret_key n (en_secret en)); discriminate.
    + intros [k g]. rewrite E. destruct (generate_new_lwe_secret_key n (en_secret en)) as [[k0 g0]|] eqn:Eg; [|discriminate]. intros X. injection X as <- <-.
      split; [apply Nat.ltb_lt; exact V|]. split; [exact HE|]. exists (secrets ++ [k0]). cbn [snd].
      destruct (C18_generated_keys_are_safe Debug n _ _ _ Eg) as [[?|Hb] L]; [discriminate|].
      pose proof (sim_grow secrets k0 st s HS) as HG. destruct HG as [G1 G2 G3 G4 G5 G6 G7 G8 G9 G10]. constructor; try assumption.
      cbn. apply Forall2_snoc; [exact G2|]. split; [|split; [exact L|exact Hb]]. cbn. rewrite (sim_secrets _ _ _ HS), nth_error_app2, Nat.sub_diag by lia. reflexivity.
    + intros _. exact I.
    + intros e'. rewrite E. intros _. apply Nat.ltb_ge. lia.
    + intros a. rewrite E. discriminate.
  - (* GenerateGlweKey *)
    destruct (C43_secret_key_generation 0 k N (en_secret en)) as [_ [[V E]|[V (e & E & _)]]]; apply (answer_ok secrets); try assumption.
    + intros _. exact I.
    + intros e. rewrite E. destruct (generate_new_glwe_secret_key k N (en_secret en)); discriminate.
    + intros [key g]. rewrite E. destruct (generate_new_glwe_secret_key k N (en_secret en)) as [[k0 g0]|] eqn:Eg; [|discriminate]. intros X. injection X as <- <-.
      split; [apply andb_true_intro; split; [apply Nat.ltb_lt|apply Nat.leb_le]; lia|]. split; [exact HE|]. exists (secrets ++ [concat k0]). cbn [snd].
      destruct (C23_generated_keys_are_safe Debug k N _ _ _ ltac:(lia) Eg) as ([Hl _] & L & Hb).
      pose proof (sim_grow secrets (concat k0) st s HS) as HG. destruct HG as [G1 G2 G3 G4 G5 G6 G7 G8 G9 G10]. constructor; try assumption.
      cbn. apply Forall2_snoc; [exact G3|]. split; [reflexivity|]. split; [cbn; lia|]. split; [exact L|]. split; [exact Hl|]. split; [|exact Hb].
      cbn. rewrite (sim_secrets _ _ _ HS), nth_error_app2, Nat.sub_diag by lia. reflexivity.
    + intros _. exact I.
    + intros e'. rewrite E. intros _. apply andb_false_iff. rewrite Nat.ltb_ge, Nat.leb_gt. lia.
    + intros a. rewrite E. discriminate.
  - (* GlweKeyToLweKey *)
    arggkey. intros key ik _ _ HK. apply (answer_ok secrets); try assumption; [discriminate|discriminate|]. intros a X. injection X as <-.
    split; [reflexivity|]. split; [exact HE|]. exists secrets. cbn [snd]. pose proof HK as (K1 & K2 & K3 & K4 & K5 & K6).
    destruct HS as [G1 G2 G3 G4 G5 G6 G7 G8 G9 G10]. constructor; try assumption. cbn. apply Forall2_snoc; [exact G2|]. split; [exact K5|]. split; [|exact K6].
    apply (key_denotes _ _ _ HK).
  - (* LweKeyToGlweKey *)
    argkey. intros key ik _ _ HK. pose proof HK as (K1 & K2 & K3). pose proof (C43_key_transformation key N) as HT. unfold engine_spec in HT. apply (answer_ok secrets); try assumption.
    + intros X. rewrite X in HT. contradiction.
    + intros e X. rewrite X in HT. destruct HT as [HT _]. apply andb_false_iff. destruct (Nat.leb 2 N) eqn:EN; [right|left; reflexivity]. apply Nat.leb_le in EN.
      apply Nat.eqb_neq. intros E0. apply HT. split; [exact EN|]. exists (il_dim ik / N)%nat. rewrite K2. rewrite (Nat.div_mod (il_dim ik) N) at 1 by lia. rewrite E0. lia.
    + intros polys X. rewrite X in HT. destruct HT as [[HN (k & Lk)] [Hcat Hl]].
      assert (Hk : (il_dim ik = k * N)%nat) by congruence.
      split; [apply andb_true_intro; split; [apply Nat.leb_le; exact HN|]; rewrite Hk, Nat.mod_mul by lia; reflexivity|]. split; [exact HE|]. exists secrets. cbn [snd].
      destruct HS as [G1 G2 G3 G4 G5 G6 G7 G8 G9 G10]. constructor; try assumption. cbn. apply Forall2_snoc; [exact G3|].
      rewrite Hk, Nat.div_mul by lia. split; [reflexivity|]. cbn [ig_size ig_dim ig_secret gk_polys]. split; [lia|]. split; [|split; [exact Hl|rewrite Hcat; split; assumption]].
      rewrite <- Hcat in Lk. clear - Hl Lk HN. assert (L : length (concat polys) = (length polys * N)%nat) by (clear Lk; induction Hl as [|a l H H1 IH]; cbn; [reflexivity|rewrite app_length, IH; lia]).
      nia.
  - (* GenerateKeyswitchKey *)
    argkey. intros key ik _ _ HK. argkey. intros key2 ik2 _ _ HK2. cbn [sensible] in Hc. destruct Hc as (Hb & Hm & Hbl).
    destruct (refuse_decomposition_cases p w b l (run (generate_new_lwe_keyswitch_key p w (gauss v) b l key key2 (en_enc en))) Hb Hm) as [[V E]|[V (e & E & _)]];
      apply (answer_ok secrets); try assumption.
    + intros _. exact I.
    + intros e X. unfold safe_generate_keyswitch_key in X. rewrite E in X. destruct (run_err _ _ X).
    + intros [ksk g'] X. unfold safe_generate_keyswitch_key in X. rewrite E in X. apply run_inv in X.
      assert (Hd : dec_wf w (Dec b l)) by (unfold dec_wf; cbn; lia). pose proof HK as (K1 & K2 & K3). pose proof HK2 as (L1 & L2 & L3).
      split; [rewrite (proj2 (Z.eqb_neq b 0)) by lia; rewrite (proj2 (Nat.ltb_lt 0 l)) by lia; rewrite (proj2 (Z.leb_le _ _)) by lia; reflexivity|].
      split; [exact (ks_generation_egen _ _ _ _ Hd L3 _ _ _ _ HE X)|]. exists secrets. cbn [snd].
      destruct (C41_generated_key p w (gauss v) b l key key2 (en_enc en) ksk g' (beta v) Hd H8 (binary_safe _ L3) HE (Hgs v) (Hbe v) X) as (noise & Henc & Hsm).
      destruct HS as [G1 G2 G3 G4 G5 G6 G7 G8 G9 G10]. constructor; try assumption. cbn. apply Forall2_snoc; [exact G10|].
      exists key, key2, noise, (beta v). cbn [ik_from ik_to ik_in ik_out ik_noise kk_b kk_l]. rewrite <- K2. repeat (split; [first [assumption|reflexivity]|]). split; [split; [reflexivity|exact Henc]|]. split; [exact Hsm|reflexivity].
    + intros _. exact I.
    + intros e' _. apply not_true_is_false. intros G. apply V. apply andb_prop in G. destruct G as [G G3]. apply andb_prop in G. destruct G as [G1 G2].
      apply negb_true_iff, Z.eqb_neq in G1. apply Nat.ltb_lt in G2. apply Z.leb_le in G3. lia.
    + intros a X. unfold safe_generate_keyswitch_key in X. rewrite E in X. discriminate.
  - (* CreatePlaintext *)
    apply (answer_ok secrets); try assumption; [discriminate|discriminate|]. intros a X. injection X as <-. split; [reflexivity|]. split; [exact HE|]. exists secrets.
    apply sim_new_plaintext; [exact HS|]. split; [exact Hc|]. exists 0. split; [cbn; lia|]. apply eqm_eq. lia.
  - (* CreatePlaintextVector *)
    unfold safe_create_plaintext_vector, refuse. destruct ms as [|m ms]; cbn [length Nat.eqb].
    + apply (answer_ok secrets); try assumption; [discriminate| |discriminate]. reflexivity.
    + apply (answer_ok secrets); try assumption; [discriminate|discriminate|]. intros a X. injection X as <-. split; [reflexivity|]. split; [exact HE|]. exists secrets.
      apply sim_new_vector; [exact HS|]. split; [cbn; lia|]. split; [reflexivity|]. split; [exact Hc|]. intros i Hi. exists 0. split; [cbn; lia|]. cbn [fst snd nth_value]. apply eqm_eq. lia.
  - (* CreateCleartext *)
    apply (answer_ok secrets); try assumption; [discriminate|discriminate|]. intros x X. injection X as <-. split; [reflexivity|]. split; [exact HE|]. exists secrets.
    destruct HS as [G1 G2 G3 G4 G5 G6 G7 G8 G9 G10]. constructor; try assumption. cbn. apply Forall2_snoc; auto.
  - (* RetrievePlaintext *)
    argpt. intros m x _ _ [Wm Hm]. cbn. split; [split; assumption|]. split; [exact HE|]. exists secrets. exact HS.
  - (* RetrievePlaintextVector *)
    argvec. intros ms [n x] _ _ (Hn & Lm & Wm & Hm). cbn. split; [split; [exact Lm|]; split; assumption|]. split; [exact HE|]. exists secrets. exact HS.
  - (* TriviallyEncrypt *)
    argpt. intros m x _ _ Hm. destruct size as [|n].
    + cbn. reflexivity.
    + destruct (trivial_ok secrets n m x Hm) as (c & E & Hok). apply (answer_ok secrets); try assumption.
      * intros X. apply run_panic in X. congruence.
      * intros e X. destruct (run_err _ _ X).
      * intros a X. apply run_inv in X. rewrite E in X. injection X as <-. split; [reflexivity|]. split; [exact HE|]. exists secrets. apply sim_new_lwe; [exact HS|].
        replace (S n - 1)%nat with n by lia. exact Hok.
  - (* TriviallyDecrypt *)
    arglwe. intros ct ic _ _ [Wc Rc]. pose proof Wc as [Lc _]. destruct ct as [|a ct]; [discriminate|]. apply (answer_ok secrets); try assumption; [discriminate|discriminate|].
    intros m X. apply run_inv in X. unfold split_last in X. cbn [obind] in X. injection X as X. split; [reflexivity|]. split; [exact HE|]. exists secrets. apply sim_new_plaintext; [exact HS|].
    change (match ct with [] => a | _ :: _ => last ct 0 end) with (last (a :: ct) 0) in X.
    assert (Wm : is_word w m). { rewrite <- X. destruct Wc as [_ Wf]. rewrite Forall_forall in Wf. apply Wf. destruct (@exists_last _ (a :: ct) ltac:(discriminate)) as (l' & z & Ez). rewrite Ez, last_last. apply in_or_app. right. left. reflexivity. }
    split; [exact Wm|]. eapply near_eqm; [apply (Rc None []); reflexivity|]. unfold phase. rewrite eqm_mod, X. apply eqm_eq.
    assert (dot (removelast (a :: ct)) [] = 0) as -> by (destruct (removelast (a :: ct)); reflexivity). lia.
  - (* Encrypt *)
    argkey. intros key ik _ _ HK. argpt. intros m x _ _ [Wm Hm]. apply (answer_ok secrets); try assumption.
    + intros _. exact I.
    + intros e X. destruct (run_err _ _ X).
    + intros [c g'] X. apply run_inv in X. destruct (fresh_ok secrets _ _ _ _ _ _ _ _ _ HK Hm HE (allocated_length _) X) as [Hok Hg].
      split; [reflexivity|]. split; [exact Hg|]. exists secrets. apply sim_new_lwe; assumption.
  - (* DiscardEncrypt *)
    argkey. intros key ik _ _ HK. arglwe. intros out io _ _ [Wo _]. argpt. intros m x _ _ [Wm Hm]. unfold safe_discard_encrypt, neq. pose proof HK as (_ & K2 & _). rewrite (lwe_dim_wf _ _ Wo), K2.
    destruct (Nat.eqb (il_dim ik) (c_dim io)) eqn:Ed; cbn [negb refuse]; apply (answer_ok secrets); try assumption.
    + intros _. exact I.
    + intros e X. destruct (run_err _ _ X).
    + intros [c g'] X. apply run_inv in X. apply Nat.eqb_eq in Ed. assert (Lo : length out = S (length key)) by (rewrite K2, Ed; apply Wo).
      destruct (fresh_ok secrets _ _ _ _ _ _ _ _ _ HK Hm HE Lo X) as [Hok Hg].
      split; [reflexivity|]. split; [exact Hg|]. exists secrets. apply sim_write_lwe; assumption.
    + intros _. exact I.
    + reflexivity.
    + discriminate.
  - (* ZeroEncrypt *)
    argkey. intros key ik _ _ HK. apply (answer_ok secrets); try assumption.
    + intros _. exact I.
    + intros e X. destruct (run_err _ _ X).
    + intros [c g'] X. apply run_inv in X. assert (Hm : near w 0 (Some (0, 0))) by (exists 0; split; [cbn; lia|reflexivity]).
      destruct (fresh_ok secrets _ _ _ _ _ _ _ _ _ HK Hm HE (allocated_length _) X) as [Hok Hg].
      split; [reflexivity|]. split; [exact Hg|]. exists secrets. apply sim_new_lwe; assumption.
  - (* EncryptSeeded *)
    argkey. intros key ik _ _ HK. argpt. intros m x _ _ [Wm Hm]. apply (answer_ok secrets); try assumption.
    + intros _. exact I.
    + intros e X. destruct (run_err _ _ X).
    + intros sd X. apply run_inv in X. split; [reflexivity|]. split; [exact HE|]. exists secrets. cbn [snd].
      pose proof (fun o Ho => C33_lwe p w (gauss v) rng key (repeat 0 (S (length key))) o m (seeds (en_taken en)) (seeds (S (en_taken en))) 0 (allocated_length _) Ho) as HX.
      rewrite X in HX. cbn [obind] in HX.
      destruct (encrypt_lwe p w (gauss v) key (repeat 0 (S (length key))) m (EG (rng (seeds (en_taken en))) (rng (seeds (S (en_taken en)))))) as [[c g']|] eqn:Ec.
      * cbn [obind] in HX. destruct HS as [G1 G2 G3 G4 G5 G6 G7 G8 G9 G10]. constructor; try assumption. cbn. apply Forall2_snoc; [exact G8|].
        exists c. split; [|exact HX]. refine (proj1 (fresh_ok secrets _ _ _ _ _ _ _ _ _ HK Hm _ (allocated_length _) Ec)). exact (Hrng _).
      * exfalso. rewrite encrypt_lwe_fill in Ec by apply allocated_length. unfold encrypt_seeded_lwe, new_egen in X. cbn [sd_seed] in X.
        destruct (debug_assert p _); [|discriminate]. cbn [obind] in X. destruct (fill_mask_and_body _ _ _ _ _ _ _) as [[[mask body] g1]|]; discriminate.
  - (* ExpandSeeded *)
    argseeded. intros [n sd] ic _ _ (c' & Hok & Hx). cbn [fst snd] in Hx. specialize (Hx _ (allocated_length n)). apply (answer_ok secrets); try assumption.
    + intros X. apply run_panic in X. congruence.
    + intros e X. destruct (run_err _ _ X).
    + intros a X. apply run_inv in X. rewrite Hx in X. injection X as <-. split; [reflexivity|]. split; [exact HE|]. exists secrets. apply sim_new_lwe; assumption.
  - (* Decrypt *)
    argkey. intros key ik E1 E1' HK. arglwe. intros ct ic E2 E2' Hct. apply (answer_ok secrets); try assumption.
    + intros X. apply run_panic in X. cbn [may_panic]. pose proof (fun H => decrypt_returns _ _ _ _ _ HK Hct H X) as HR.
      split; [destruct p; [reflexivity|exfalso; apply HR; right; reflexivity]|]. exists ik, ic. split; [exact E1'|]. split; [exact E2'|]. intros Ed. apply HR. left. exact Ed.
    + intros e X. destruct (run_err _ _ X).
    + intros m X. apply run_inv in X. split; [reflexivity|]. split; [exact HE|]. exists secrets. apply sim_new_plaintext; [exact HS|]. eapply decrypt_ok; eassumption.
  - (* DiscardDecrypt *)
    argkey. intros key ik _ _ HK. argpt. intros m0 x0 _ _ _. arglwe. intros ct ic _ _ Hct. unfold safe_discard_decrypt, neq. pose proof HK as (_ & K2 & _). rewrite (lwe_dim_wf _ _ (proj1 Hct)), K2.
    destruct (Nat.eqb (il_dim ik) (c_dim ic)) eqn:Ed; cbn [negb refuse]; apply (answer_ok secrets); try assumption.
    + intros X. apply run_panic in X. apply Nat.eqb_eq in Ed. exact (decrypt_returns _ _ _ _ _ HK Hct (or_introl Ed) X).
    + intros e X. destruct (run_err _ _ X).
    + intros m X. apply run_inv in X. split; [reflexivity|]. split; [exact HE|]. exists secrets. apply sim_put_plaintext; [exact HS|]. eapply decrypt_ok; eassumption.
    + discriminate.
    + reflexivity.
    + discriminate.
  - (* DiscardAdd *)
    apply (both_ok secrets en st s HS HE _ o a b (safe_discard_add p w) Z.add); [intros; apply add_result; assumption|]. intros. eapply near_add; try eassumption. reflexivity.
  - (* DiscardSub *)
    apply (both_ok secrets en st s HS HE _ o a b (safe_discard_sub p w) Z.sub); [intros; apply add_result; assumption|]. intros. eapply near_sub; try eassumption. reflexivity.
  - (* DiscardOpposite *)
    apply (each_ok secrets en st s HS HE _ o a (safe_discard_opp w) Z.opp); [intros; apply unary_result; assumption|]. intros. eapply near_opp; try eassumption. reflexivity.
  - (* DiscardMulCleartext *)
    arglwe. intros co ico E1 E1' [Wo Ro]. arglwe. intros ca ica E2 E2' [Wa Ra]. argclear. intros x x' _ _ <-. unfold each, iarg. rewrite E1', E2'.
    eapply (result_ok secrets en st s HS HE); [apply (unary_result _ _ _ _ Wo Wa)|]. intros G who k D. apply Nat.eqb_eq in G. rewrite G in D. eapply near_mul; [lia|apply Ra; exact D|reflexivity].
  - (* DiscardAddPlaintext *)
    arglwe. intros co ico E1 E1' [Wo Ro]. arglwe. intros ca ica E2 E2' [Wa Ra]. argpt. intros m x _ _ [_ Hm]. unfold each, iarg. rewrite E1', E2'.
    eapply (result_ok secrets en st s HS HE); [apply (unary_result _ _ _ _ Wo Wa)|]. intros G who k D. apply Nat.eqb_eq in G. rewrite G in D. eapply near_add; [apply Ra; exact D|exact Hm|reflexivity].
  - (* DiscardSubPlaintext *)
    arglwe. intros co ico E1 E1' [Wo Ro]. arglwe. intros ca ica E2 E2' [Wa Ra]. argpt. intros m x _ _ [_ Hm]. unfold each, iarg. rewrite E1', E2'.
    eapply (result_ok secrets en st s HS HE); [apply (unary_result _ _ _ _ Wo Wa)|]. intros G who k D. apply Nat.eqb_eq in G. rewrite G in D. eapply near_sub; [apply Ra; exact D|exact Hm|reflexivity].
  - (* FuseAdd *)
    unfold both. arglwe. intros co ico E1 E1' [Wo Ro]. unfold iarg at 1. rewrite E1'. arglwe. intros ca ica E2 E2' [Wa Ra]. rewrite Nat.eqb_refl. cbn [andb].
    eapply (result_ok secrets en st s HS HE); [apply (fuse_result _ _ _ _ Wo Wa)|]. intros G who k D. apply Nat.eqb_eq in G. eapply near_add; [apply Ro; exact D|apply Ra; rewrite <- G; exact D|reflexivity].
  - (* FuseSub *)
    unfold both. arglwe. intros co ico E1 E1' [Wo Ro]. unfold iarg at 1. rewrite E1'. arglwe. intros ca ica E2 E2' [Wa Ra]. rewrite Nat.eqb_refl. cbn [andb].
    eapply (result_ok secrets en st s HS HE); [apply (fuse_result _ _ _ _ Wo Wa)|]. intros G who k D. apply Nat.eqb_eq in G. eapply near_sub; [apply Ro; exact D|apply Ra; rewrite <- G; exact D|reflexivity].
  - (* FuseOpposite *)
    unfold each. arglwe. intros co ico E1 E1' [Wo Ro]. unfold iarg at 1. rewrite E1', Nat.eqb_refl.
    eapply (result_ok secrets en st s HS HE); [apply (in_place_result _ _ Wo)|]. intros _ who k D. eapply near_opp; [apply Ro; exact D|reflexivity].
  - (* FuseMulCleartext *)
    arglwe. intros co ico E1 E1' [Wo Ro]. argclear. intros x x' _ _ <-. unfold each, iarg. rewrite E1', Nat.eqb_refl.
    eapply (result_ok secrets en st s HS HE); [apply (in_place_result _ _ Wo)|]. intros _ who k D. eapply near_mul; [lia|apply Ro; exact D|reflexivity].
  - (* FuseAddPlaintext *)
    arglwe. intros co ico E1 E1' [Wo Ro]. argpt. intros m x _ _ [_ Hm]. unfold each, iarg. rewrite E1', Nat.eqb_refl.
    eapply (result_ok secrets en st s HS HE); [apply (in_place_result _ _ Wo)|]. intros _ who k D. eapply near_add; [apply Ro; exact D|exact Hm|reflexivity].
  - (* FuseSubPlaintext *)
    arglwe. intros co ico E1 E1' [Wo Ro]. argpt. intros m x _ _ [_ Hm]. unfold each, iarg. rewrite E1', Nat.eqb_refl.
    eapply (result_ok secrets en st s HS HE); [apply (in_place_result _ _ Wo)|]. intros _ who k D. eapply near_sub; [apply Ro; exact D|exact Hm|reflexivity].
  - (* DiscardKeyswitch *)
    arglwe. intros co ico _ _ [Wo _]. arglwe. intros ca ica _ _ [Wa Ra]. argks. intros kk ik _ _ (sk & key & noise & bet & A1 & A2 & A3 & A4 & A5 & A6 & A7 & A8 & A9).
    pose proof (C43_keyswitch p w sk key noise bet kk co ca A6 A7 A5 A8 ltac:(destruct Wo as [Lo _]; destruct co; discriminate) ltac:(destruct Wa as [La _]; destruct ca; discriminate) (proj2 Wa)) as HK.
    unfold engine_spec in HK. rewrite (proj1 Wo), (proj1 Wa), A3, A4 in HK. apply (answer_ok secrets); try assumption.
    + intros X. rewrite X in HK. contradiction.
    + intros e X. rewrite X in HK. destruct HK as [HK _]. apply not_true_is_false. intros G. apply HK. apply andb_prop in G. destruct G as [G1 G2]. apply Nat.eqb_eq in G1, G2. lia.
    + intros d X. rewrite X in HK. destruct HK as [[V1 V2] [Wd HD]]. injection V1 as V1. injection V2 as V2. rewrite V1, V2, !Nat.eqb_refl. split; [reflexivity|]. split; [exact HE|]. exists secrets.
      apply sim_write_lwe; [exact HS|]. split; [cbn; exact Wd|]. cbn [c_dim c_reads]. intros [i|] kx D; cbn [only]; [|exact I]. destruct (Nat.eqb (ik_to ik) i) eqn:Ei; [|exact I].
      apply Nat.eqb_eq in Ei. subst i. destruct D as [_ D]. rewrite A2 in D. subst kx. destruct (torus_dist_witness w _ _ _ ltac:(lia) HD) as (e & He & Hq).
      eapply near_widen; [apply (Ra (Some (ik_from ik)) sk)| |exact Hq].
      * split; [congruence|]. rewrite A1. reflexivity.
      * rewrite A9, A3. exact He.
  - (* TriviallyEncryptGlwe *)
    argvec. intros ms [n x] _ _ Hm. pose proof Hm as (_ & Lm & _). cbn [fst] in Lm. destruct size as [|k].
    + cbn. reflexivity.
    + destruct (glwe_trivial_ok secrets k ms n x Hm) as (c & E & Hok). apply (answer_ok secrets); try assumption.
      * intros X. apply run_panic in X. congruence.
      * intros e X. destruct (run_err _ _ X).
      * intros a X. apply run_inv in X. rewrite E in X. injection X as <-. split; [reflexivity|]. split; [exact HE|]. exists secrets. apply sim_new_glwe; [exact HS|].
        replace (S k - 1)%nat with k by lia. rewrite Lm. exact Hok.
  - (* TriviallyDecryptGlwe *)
    argglwe. intros [N0 polys] ic _ _ (G1 & G2 & G3 & G4 & G5). cbn [g_N g_polys] in *. pose proof G3 as [Lp Wp]. destruct polys as [|a polys]; [discriminate|].
    apply (answer_ok secrets); try assumption; [discriminate|discriminate|].
    intros m X. apply run_inv in X. unfold glwe_trivial_decrypt, glwe_split in X. cbn [obind] in X. injection X as X. split; [reflexivity|]. split; [exact HE|]. exists secrets. apply sim_new_vector; [exact HS|].
    change (match polys with [] => a | _ :: _ => last polys [] end) with (last (a :: polys) []) in X.
    assert (Wm : poly_wf w (gc_size ic) m). { rewrite <- X. rewrite Forall_forall in Wp. apply Wp. destruct (@exists_last _ (a :: polys) ltac:(discriminate)) as (l' & z & Ez). rewrite Ez, last_last. apply in_or_app. right. left. reflexivity. }
    destruct Wm as [Lm Wm]. split; [exact G2|]. split; [exact Lm|]. split; [exact Wm|]. cbn [fst snd]. intros j Hj. rewrite <- X. apply G4. exact Hj.
  - (* EncryptGlwe *)
    arggkey. intros key ik _ _ HK. argvec. intros ms [n x] _ _ Hm. pose proof HK as (K1 & _). pose proof Hm as (_ & Lm & _). cbn [fst] in Lm. unfold safe_encrypt_glwe, neq. rewrite K1, Lm.
    destruct (Nat.eqb (ig_size ik) n) eqn:Ed; cbn [negb refuse]; apply (answer_ok secrets); try assumption.
    + intros _. exact I.
    + intros e X. destruct (run_err _ _ X).
    + intros [c g'] X. apply run_inv in X. apply Nat.eqb_eq in Ed. rewrite <- K1 in X.
      destruct (glwe_fresh_ok secrets _ _ _ _ _ _ _ _ _ HK (eq_sym Ed) Hm HE X) as [Hok Hg].
      split; [reflexivity|]. split; [exact Hg|]. exists secrets. rewrite <- K1. apply sim_new_glwe; [exact HS|]. rewrite K1 in *. exact Hok.
    + intros _. exact I.
    + reflexivity.
    + discriminate.
  - (* ZeroEncryptGlwe *)
    arggkey. intros key ik _ _ HK. pose proof HK as (K1 & K2 & K3 & K4 & _). apply (answer_ok secrets); try assumption.
    + intros _. exact I.
    + intros e X. destruct (run_err _ _ X).
    + intros [c g'] X. apply run_inv in X.
      rewrite (C23_zero_encryption p w (gauss v) (gk_N key)) in X; try assumption; [|lia|apply Hgo|eapply glwe_key_gkey; exact HK|apply glwe_allocate_wf].
      assert (Hm : vector_ok (repeat 0 (gk_N key)) (gk_N key, Some (repeat 0 (gk_N key), 0))).
      { split; [cbn; lia|]. split; [apply repeat_length|]. split; [apply Forall_forall; intros y Hy; apply repeat_spec in Hy; subst y; split; [lia|apply Z.pow_pos_nonneg; lia]|].
        intros i _. exists 0. split; [cbn; lia|]. apply eqm_eq. cbn [snd nth_value]. lia. }
      destruct (glwe_fresh_ok secrets _ _ _ _ _ _ _ _ _ HK K1 Hm HE X) as [Hok Hg].
      split; [reflexivity|]. split; [exact Hg|]. exists secrets. apply sim_new_glwe; [exact HS|]. cbn [widen_values] in Hok. rewrite Z.add_0_l in Hok. rewrite K1 in *. exact Hok.
  - (* DecryptGlwe *)
    arggkey. intros key ik _ _ HK. argglwe. intros ct ic _ _ HG. pose proof HK as (K1 & K2 & K3 & K4 & _). pose proof HG as (G1 & G2 & G3 & _).
    destruct (C43_glwe_decryption p w ltac:(lia) key ct (glwe_key_wf_ok _ _ _ HK) (glwe_ct_wf_ok _ _ _ HG) (glwe_words _ _ _ HG) (glwe_key_gkey _ _ _ HK)) as [HD _].
    cbv zeta in HD. unfold engine_spec in HD. pose proof (fits_sizes _ _ _ _ _ HK HG) as HF. apply (answer_ok secrets); try assumption.
    + intros X. rewrite X in HD. contradiction.
    + intros e X. rewrite X in HD. apply not_true_is_false. intros G. apply (proj1 HD), HF, G.
    + intros d X. rewrite X in HD. destruct HD as [F [Wd Hr]]. apply HF in F. split; [exact F|]. split; [exact HE|]. exists secrets. apply sim_new_vector; [exact HS|]. eapply glwe_decrypt_ok; eassumption.
  - (* DiscardDecryptGlwe *)
    arggkey. intros key ik _ _ HK. argvec. intros out [n x] _ _ Ho. argglwe. intros ct ic _ _ HG. pose proof Ho as (_ & Lo & _). cbn [fst] in Lo.
    destruct (C43_glwe_decryption p w ltac:(lia) key ct (glwe_key_wf_ok _ _ _ HK) (glwe_ct_wf_ok _ _ _ HG) (glwe_words _ _ _ HG) (glwe_key_gkey _ _ _ HK)) as [_ HD].
    specialize (HD out). cbv zeta in HD. unfold engine_spec in HD. pose proof (fits_sizes _ _ _ _ _ HK HG) as HF. rewrite Lo in HD. apply (answer_ok secrets); try assumption.
    + intros X. rewrite X in HD. contradiction.
    + intros e X. rewrite X in HD. apply not_true_is_false. intros G. apply (proj1 HD). apply andb_prop in G. destruct G as [G1 G2]. apply Nat.eqb_eq in G2. split; [apply HF; exact G1|]. rewrite (proj1 HG). exact G2.
    + intros d X. rewrite X in HD. destruct HD as [[F Fn] [Wd Hr]]. apply HF in F. rewrite (proj1 HG) in Fn. split; [rewrite F, Fn, Nat.eqb_refl; reflexivity|]. split; [exact HE|]. exists secrets. apply sim_put_vector; [exact HS|]. eapply glwe_decrypt_ok; eassumption.
  - (* DiscardExtract *)
    arglwe. intros co ico _ _ [Wo _]. argglwe. intros ct ic _ _ HG. pose proof HG as (G1 & G2 & G3 & _ & G5).
    assert (Hd : g_dim ct = gc_dim ic) by (unfold g_dim; rewrite (proj1 G3); lia).
    unfold safe_discard_extract, neq. rewrite (lwe_dim_wf _ _ Wo), G1, Hd, (Nat.mul_comm (gc_size ic)).
    destruct (Nat.eqb (c_dim ico) (gc_dim ic * gc_size ic)) eqn:E1; cbn [negb refuse andb].
    2: { apply (answer_ok secrets); try assumption; [discriminate|reflexivity|discriminate]. }
    apply Nat.eqb_eq in E1. destruct (Nat.leb (gc_size ic) n) eqn:E2; cbn [refuse].
    + apply Nat.leb_le in E2. rewrite (proj2 (Nat.ltb_ge n (gc_size ic)) E2). apply (answer_ok secrets); try assumption; [discriminate|reflexivity|discriminate].
    + apply Nat.leb_gt in E2. rewrite (proj2 (Nat.ltb_lt n (gc_size ic)) E2). apply (answer_ok secrets); try assumption.
      * intros X. apply run_panic in X.
        destruct (C24_extraction_phase w (gc_size ic) (repeat (repeat 0 (gc_size ic)) (gc_dim ic)) (g_polys ct) co n ltac:(lia) E2) as (l & El & _); [| | |congruence].
        -- apply Forall_forall. intros a Ha. apply repeat_spec in Ha. subst a. apply repeat_length.
        -- rewrite repeat_length. exact G3.
        -- rewrite repeat_length, <- E1. apply Wo.
      * intros e X. destruct (run_err _ _ X).
      * intros d X. apply run_inv in X. split; [reflexivity|]. split; [exact HE|]. exists secrets. apply sim_write_lwe; [exact HS|].
        assert (HP : forall sk, length sk = (gc_dim ic * gc_size ic)%nat -> lwe_wf w (gc_dim ic * gc_size ic) d /\ phase w sk d = rcoef (gphase (gc_size ic) (chunks (gc_size ic) sk) (g_polys ct)) (Z.of_nat n) mod 2 ^ w).
        { intros sk Ls. destruct (chunks_secret _ _ sk G2 Ls) as (C1 & C2 & C3).
          destruct (C24_extraction_phase w (gc_size ic) (chunks (gc_size ic) sk) (g_polys ct) co n ltac:(lia) E2 C2) as (l & El & Wl & Pl).
          - rewrite C1. exact G3.
          - rewrite C1, <- E1. apply Wo.
          - rewrite X in El. injection El as <-. rewrite C1 in Wl. split; [exact Wl|]. unfold glwe_key_into_lwe_key in Pl. rewrite C3 in Pl. exact Pl. }
        split; [cbn [c_dim]; rewrite E1; apply (HP (repeat 0 (gc_dim ic * gc_size ic)%nat)); apply repeat_length|].
        cbn [c_dim c_reads]. intros [i|] k D; [|exact I]. rewrite E1 in D. eapply near_eqm; [apply (G5 i k D n E2)|]. destruct (HP k (proj1 D)) as [_ ->]. apply eqm_mod.
Qed.
End Step.

(** ** Sessions *)
Lemma session_ok : forall cs secrets en st s, sim secrets st s -> egen_ok (en_enc en) -> Forall (sensible w) cs ->
  forall rs en' st', session p w gauss rng seeds en st cs = Ret (rs, en', st') ->
  Forall2 (agrees w) rs (fst (ideal_session w beta s cs)) /\ egen_ok (en_enc en') /\ exists secrets', sim secrets' st' (snd (ideal_session w beta s cs)).
Proof.
  induction cs as [|c cs IH]; intros secrets en st s HS HE Hc rs en' st' E; cbn [session ideal_session] in *.
  - injection E as <- <- <-. split; [constructor|]. split; [exact HE|]. exists secrets. exact HS.
  - pose proof (step_ok secrets en st s HS HE c (Forall_inv Hc)) as H1. destruct (exec p w gauss rng seeds en st c) as [[[r en1] st1]|]; [|discriminate]. cbn [obind ok] in E, H1.
    destruct (ideal_step w beta s c) as [ir s1]. cbn [fst snd] in H1. destruct H1 as (A1 & A2 & sec1 & A3).
    destruct (session p w gauss rng seeds en1 st1 cs) as [[[rs1 en2] st2]|] eqn:E2; [|discriminate]. cbn [obind] in E. injection E as <- <- <-.
    specialize (IH sec1 en1 st1 s1 A3 A2 (Forall_inv_tail Hc) _ _ _ E2). destruct (ideal_session w beta s1 cs) as [irs s2]. cbn [fst snd] in *. destruct IH as (B1 & B2). split; [constructor; assumption|exact B2].
Qed.
Lemma empty_sim : sim [] empty_store nothing.
Proof. constructor; try constructor; reflexivity. Qed.
End Sim.

(** ** The theorems *)
(** The noise samplers give words, with small representatives; the generators give bytes. *)
Definition samplers_ok (w : Z) (beta : Z -> Z) (gauss : Z -> list Z -> option (Z * Z)) : Prop :=
  forall v, gauss_ok w (gauss v) /\ gauss_small w (beta v) (gauss v) /\ 0 <= beta v.
Definition generators_ok (rng : Z -> bgen) (en : engine) : Prop := egen_ok (en_enc en) /\ forall x, bytes_ok (bg_table (rng x)).

(** Every sequence of calls on a new engine, whatever the calls and their arguments: each call is accepted or refused as
    the ideal session says, and each value read back is the ideal one, up to the noise announced by the ideal session. *)
Theorem C64_history : forall p w gauss beta rng seeds en cs replies en' st',
  0 < w < 2 ^ 64 -> w mod 8 = 0 -> samplers_ok w beta gauss -> generators_ok rng en -> Forall (sensible w) cs ->
  session p w gauss rng seeds en empty_store cs = Ret (replies, en', st') ->
  Forall2 (agrees w) replies (fst (ideal_session w beta nothing cs)).
Proof.
  intros p w gauss beta rng seeds en cs replies en' st' Hw H8 Hs [Hg Hr] Hc E.
  refine (proj1 (session_ok p w gauss beta rng seeds (proj1 Hw) H8 (proj2 Hw) _ _ _ Hr cs [] en empty_store nothing (empty_sim w rng) Hg Hc _ _ _ E)); intros v; apply Hs.
Qed.
Print Assumptions C64_history.

(** Decoding: when the announced noise is below half of the distance between two messages, rounding what was read gives
    the message.  The message space is Z / 2^d; [k] is the ideal message, computed over the integers. *)
Theorem C64_decodes : forall p w gauss beta rng seeds en cs replies en' st' i d k E,
  0 < w < 2 ^ 64 -> w mod 8 = 0 -> samplers_ok w beta gauss -> generators_ok rng en -> Forall (sensible w) cs ->
  session p w gauss rng seeds en empty_store cs = Ret (replies, en', st') ->
  nth_error (fst (ideal_session w beta nothing cs)) i = Some (IValue (Some (k * 2 ^ (w - d), E))) ->
  0 <= d < w -> E < 2 ^ (w - d - 1) ->
  exists x, nth_error replies i = Some (Value x) /\ (x + 2 ^ (w - d - 1)) mod 2 ^ w / 2 ^ (w - d) = k mod 2 ^ d.
Proof.
  intros p w gauss beta rng seeds en cs replies en' st' i d k E Hw H8 Hs Hg Hc Es Ei Hd HE.
  pose proof (C64_history p w gauss beta rng seeds en cs replies en' st' Hw H8 Hs Hg Hc Es) as H. pose proof (Forall2_at _ _ _ H i) as Hi. rewrite Ei in Hi.
  destruct (nth_error replies i) as [[| |x| |]|]; try contradiction. destruct Hi as [Wx (e & He & Hx)]. exists x. split; [reflexivity|].
  assert (P : 0 < 2 ^ d) by (apply Z.pow_pos_nonneg; lia).
  rewrite <- (C18_decoding w d (k mod 2 ^ d) e Hd); [|apply Z.mod_pos_bound; exact P|clear - He HE; lia].
  f_equal. f_equal. f_equal. assert (x = x mod 2 ^ w) as -> by (symmetry; apply Z.mod_small; exact Wx).
  change (eqm (2 ^ w) x (k mod 2 ^ d * 2 ^ (w - d) + e)). rewrite Hx. apply eqm_k with (k := k / 2 ^ d).
  assert (Ew : 2 ^ w = 2 ^ d * 2 ^ (w - d)) by (rewrite <- Z.pow_add_r by lia; f_equal; lia).
  rewrite Ew. rewrite (Z.div_mod k (2 ^ d)) at 1 by lia. ring.
Qed.
Print Assumptions C64_decodes.

(** After any session, the next call answers, unless it draws randomness (its generator may be exhausted), makes a trivial
    ciphertext without a body, or, in a checked build, decrypts with a key of another dimension. *)
Theorem C64_progress : forall p w gauss beta rng seeds en cs c replies en' st',
  0 < w < 2 ^ 64 -> w mod 8 = 0 -> samplers_ok w beta gauss -> generators_ok rng en -> Forall (sensible w) cs -> sensible w c ->
  session p w gauss rng seeds en empty_store cs = Ret (replies, en', st') ->
  exec p w gauss rng seeds en' st' c = Panic -> may_panic p (snd (ideal_session w beta nothing cs)) c.
Proof.
  intros p w gauss beta rng seeds en cs c replies en' st' Hw H8 Hs [Hg Hr] Hc Hc1 E Ep.
  destruct (session_ok p w gauss beta rng seeds (proj1 Hw) H8 (proj2 Hw) (fun v => proj1 (Hs v)) (fun v => proj1 (proj2 (Hs v))) (fun v => proj2 (proj2 (Hs v))) Hr cs [] en empty_store nothing (empty_sim w rng) Hg Hc _ _ _ E) as (_ & HE & sec & HS).
  pose proof (step_ok p w gauss beta rng seeds (proj1 Hw) H8 (proj2 Hw) (fun v => proj1 (Hs v)) (fun v => proj1 (proj2 (Hs v))) (fun v => proj2 (proj2 (Hs v))) Hr sec en' st' _ HS HE c Hc1) as H.
  rewrite Ep in H. exact H.
Qed.
Print Assumptions C64_progress.

(** ** A concrete session: 32-bit words, messages of 4 bits *)
Definition demo_engine : engine :=
  Engine (BG (fun q => (q * 37 + 11) mod 256) 0 1000) (EG (BG (fun q => (q * 29 + 5) mod 256) 0 10000) (BG (fun q => (q * 7 + 130) mod 256) 0 10000)) 0.
Definition demo_rng (x : Z) : bgen := BG (fun q => (q * 41 + x) mod 256) 0 1000.
Definition demo_session : list command :=
  [ GenerateLweKey 3; GenerateGlweKey 1 4;
    CreatePlaintext (3 * 2 ^ 28); CreatePlaintext (5 * 2 ^ 28); CreateCleartext (2 ^ 32 - 2);
    Encrypt 0 0 0; EncryptSeeded 0 1 0; ExpandSeeded 0;
    FuseMulCleartext 0 0;        (* -2 * 3 *)
    FuseSub 0 1;                 (* -6 - 5 *)
    FuseAddPlaintext 0 0;        (* -11 + 3 *)
    Decrypt 0 0; RetrievePlaintext 2;
    CreatePlaintextVector [2 ^ 28; 0; 7 * 2 ^ 28; 0]; EncryptGlwe 0 0 0;
    TriviallyEncrypt 5 0; DiscardExtract 2 0 2;
    GlweKeyToLweKey 0; GenerateKeyswitchKey 1 0 4 4 0;
    DiscardAdd 0 0 2;            (* refused: the dimensions differ *)
    DiscardKeyswitch 1 2 0; FuseAdd 0 1;   (* -8 + 7 *)
    DiscardDecrypt 0 1 0; RetrievePlaintext 1; RetrievePlaintext 9 ].

(** Its hypotheses hold, and the ideal session announces -8 then -1, with small noises. *)
Example C64_case :
  samplers_ok 32 (fun _ => 255) (fun _ => demo_gauss_word) /\ generators_ok demo_rng demo_engine /\ Forall (sensible 32) demo_session /\
  (exists replies en' st',
     session Debug 32 (fun _ => demo_gauss_word) demo_rng (fun i => Z.of_nat i) demo_engine empty_store demo_session = Ret (replies, en', st') /\
     match replies with
     | [Done; Done; Done; Done; Done; Done; Done; Done; Done; Done; Done; Done; Value x; Done; Done; Done; Done; Done; Done; Refused LweDimensionMismatch; Done; Done; Done; Value y; NoSuchEntity] =>
         (x + 2 ^ 27) mod 2 ^ 32 / 2 ^ 28 = (- 8) mod 16 /\ (y + 2 ^ 27) mod 2 ^ 32 / 2 ^ 28 = (- 1) mod 16
     | _ => False
     end) /\
  (exists E1 E2, E1 < 2 ^ 27 /\ E2 < 2 ^ 27 /\
     nth_error (fst (ideal_session 32 (fun _ => 255) nothing demo_session)) 12 = Some (IValue (Some (- 8 * 2 ^ (32 - 4), E1))) /\
     nth_error (fst (ideal_session 32 (fun _ => 255) nothing demo_session)) 23 = Some (IValue (Some (- 1 * 2 ^ (32 - 4), E2)))).
Proof.
  split; [|split; [|split; [|split]]].
  - intros v. split; [apply demo_gauss_word_ok; lia|]. split; [apply BootstrapTheorems.demo_gauss_word_small; lia|lia].
  - split; [intros q; cbn; lia|]. intros x q. cbn. lia.
  - repeat constructor; cbn; try lia.
  - eexists _, _, _. split; [vm_compute; reflexivity|]. vm_compute. split; reflexivity.
  - eexists _, _. split; [|split; [|split; vm_compute; reflexivity]]; vm_compute; reflexivity.
Qed.
