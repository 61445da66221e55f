(** * C64: the seeds of a session *)
From Verif Require Import Base Word RandomModel LweModel SeededModel EngineModel SessionModel.
From Verif Require GlweTheorems SessionTheorems.

Section Fresh.
Context (p : profile) (w : Z) (gauss : Z -> list Z -> option (Z * Z)) (rng : Z -> bgen) (seeds : nat -> Z).
(** What one call does to the seeder and to the seeded ciphertexts *)
Definition seeder_step (en : engine) (st : store) (en' : engine) (st' : store) : Prop :=
  (st_seeded st' = st_seeded st /\ en_taken en' = en_taken en) \/
  (exists n c, st_seeded st' = st_seeded st ++ [(n, c)] /\ sd_seed c = seeds (en_taken en) /\ en_taken en' = S (S (en_taken en))).
Lemma arg_inv en st {A} (l : list A) i k R : arg en st l i k = Ret R -> R = (NoSuchEntity, en, st) \/ exists a, k a = Ret R.
Proof. unfold arg. destruct (nth_error l i) as [a|]; intros H; [right; exists a; exact H|left; congruence]. Qed.
Lemma answer_inv en st {A} (o : outcome (result A)) k r en' st' : answer en st o k = Ret (r, en', st') ->
  (en' = en /\ st' = st) \/ exists a, o = Ret (Ok a) /\ k a = (en', st').
Proof.
  unfold answer. destruct o as [[a|e]|]; cbn [obind]; [|intros [= <- <- <-]; auto|discriminate].
  destruct (k a) as [en1 st1] eqn:E. intros [= <- <- <-]. right. exists a. split; [reflexivity|exact E].
Qed.
Lemma exec_seeder en st c r en' st' : exec p w gauss rng seeds en st c = Ret (r, en', st') -> seeder_step en st en' st'.
Proof.
  assert (Hid : seeder_step en st en st) by (left; auto).
  destruct c; cbn [exec]; intros H;
    repeat match goal with
    | H : arg _ _ _ _ _ = Ret _ |- _ => apply arg_inv in H; destruct H as [H|(? & H)]; [injection H; intros -> -> _; exact Hid|]
    | H : (let '(_, _) := ?x in _) = Ret _ |- _ => destruct x
    | H : answer _ _ _ _ = Ret _ |- _ => apply answer_inv in H; destruct H as [[-> ->]|(? & ? & H)]; [exact Hid|]
    | H : (let '(_, _) := ?x in _) = (_, _) |- _ => destruct x
    | H : Ret (_, _, _) = Ret _ |- _ => injection H as <- <- <-; exact Hid
    | H : (_, _) = (_, _) |- _ => injection H as <- <-
    end; try (left; split; reflexivity); try exact Hid.
  right. eexists _, _. split; [reflexivity|]. split; [|reflexivity].
  unfold run, encrypt_seeded_lwe in H0. destruct (debug_assert _ _); [|discriminate]. cbn [obind] in H0.
  destruct (fill_mask_and_body _ _ _ _ _ _ _) as [[[? ?] ?]|]; [|discriminate]. cbn [obind] in H0. injection H0 as <-. reflexivity.
Qed.
End Fresh.

(** Two draws for every seeded ciphertext, one for the mask and one for the noise: whatever the session does, the ciphertext number i holds the
    seed of a draw which no other ciphertext, and no noise, uses. *)
Theorem C64_fresh_seeds : forall p w gauss rng seeds cs en replies en' st',
  session p w gauss rng seeds en empty_store cs = Ret (replies, en', st') ->
  map (fun d => sd_seed (snd d)) (st_seeded st') = map (fun i => seeds (en_taken en + 2 * i)%nat) (seq 0 (length (st_seeded st'))) /\
  en_taken en' = (en_taken en + 2 * length (st_seeded st'))%nat.
Proof.
  intros p w gauss rng seeds cs en.
  assert (G : forall en1 st1, 
    map (fun d => sd_seed (snd d)) (st_seeded st1) = map (fun i => seeds (en_taken en + 2 * i)%nat) (seq 0 (length (st_seeded st1))) /\
    en_taken en1 = (en_taken en + 2 * length (st_seeded st1))%nat -> forall rs en' st', session p w gauss rng seeds en1 st1 cs = Ret (rs, en', st') ->
    map (fun d => sd_seed (snd d)) (st_seeded st') = map (fun i => seeds (en_taken en + 2 * i)%nat) (seq 0 (length (st_seeded st'))) /\
    en_taken en' = (en_taken en + 2 * length (st_seeded st'))%nat).
  { induction cs as [|c cs IH]; intros en1 st1 H1 rs en' st' Hs; cbn [session] in Hs.
    - injection Hs as <- <- <-. exact H1.
    - destruct (exec p w gauss rng seeds en1 st1 c) as [[[r en2] st2]|] eqn:E; [|discriminate]. cbn [obind] in Hs.
      destruct (session p w gauss rng seeds en2 st2 cs) as [[[rs3 en3] st3]|] eqn:E3; [|discriminate]. cbn [obind] in Hs. injection Hs as _ <- <-.
      refine (IH en2 st2 _ _ _ _ E3). apply exec_seeder in E. destruct H1 as [Hm Ht]. destruct E as [[-> ->]|(n & d & -> & Hd & ->)]; [auto|].
      rewrite map_app, app_length, seq_app, map_app, Hm. cbn [map length seq snd]. rewrite Hd, Ht. split; [reflexivity|lia]. }
  intros replies en' st' Hs. apply (G en empty_store) in Hs; [exact Hs|]. cbn. split; [reflexivity|lia].
Qed.
Print Assumptions C64_fresh_seeds.

(** Two seeded encryptions of the same session take the draws 0 and 2. *)
Example C64_fresh_seeds_case : exists replies en' st',
  session Debug 32 (fun _ => GlweTheorems.demo_gauss_word) SessionTheorems.demo_rng (fun i => Z.of_nat i) SessionTheorems.demo_engine empty_store
    [GenerateLweKey 3; CreatePlaintext 5; EncryptSeeded 0 0 0; Encrypt 0 0 0; EncryptSeeded 0 0 0] = Ret (replies, en', st') /\
  map (fun d => sd_seed (snd d)) (st_seeded st') = [0; 2].
Proof. eexists _, _, _. split; [vm_compute; reflexivity|reflexivity]. Qed.
