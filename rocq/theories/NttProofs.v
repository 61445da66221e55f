(** * Proofs about the transform: from the loops on the buffer to recursive functions *)
From Verif Require Import Base Word WordFacts NegaRing PolySpec DecompModel PolyModel GlweModel SeededModel NttModel NttSpec.

(** ** Lists *)
Lemma nth_error_mid {A} (a : list A) x b j : j = length a -> nth_error (a ++ x :: b) j = Some x.
Proof. intros ->. rewrite nth_error_app2 by lia. rewrite Nat.sub_diag. reflexivity. Qed.
Lemma get_mid a x b j : j = length a -> get_element (a ++ x :: b) j = Ret x.
Proof. intros H. unfold get_element. rewrite nth_error_mid by assumption. reflexivity. Qed.
Lemma set_mid a x y b j : j = length a -> set_element (a ++ x :: b) j y = Ret (a ++ y :: b).
Proof.
  intros ->. unfold set_element. rewrite app_length. cbn [length].
  destruct (Nat.ltb_spec (length a) (length a + S (length b))); [|lia].
  rewrite firstn_app, Nat.sub_diag, firstn_all, firstn_O, app_nil_r.
  replace (S (length a)) with (length a + 1)%nat by lia.
  rewrite <- (firstn_skipn 1 (skipn (length a + 1) (a ++ x :: b))) at 1.
  rewrite firstn_skipn. rewrite skipn_app, skipn_all2 by lia. replace (length a + 1 - length a)%nat with 1%nat by lia. reflexivity.
Qed.
Lemma get_nth l j : (j < length l)%nat -> get_element l j = Ret (nth j l 0).
Proof. intros H. unfold get_element. rewrite (nth_error_nth' l 0 H). reflexivity. Qed.

Fixpoint mapi {A B} (F : nat -> A -> B) (k : nat) (l : list A) : list B :=
  match l with [] => [] | a :: l' => F k a :: mapi F (S k) l' end.
Lemma mapi_length {A B} (F : nat -> A -> B) k l : length (mapi F k l) = length l.
Proof. revert k. induction l as [|a l IH]; intros k; cbn; [reflexivity|]. rewrite IH. reflexivity. Qed.
Lemma mapi_ext {A B} (F G : nat -> A -> B) k l : (forall i a, In a l -> F i a = G i a) -> mapi F k l = mapi G k l.
Proof. revert k. induction l as [|a l IH]; intros k H; cbn; [reflexivity|]. rewrite H, IH by (try (intros; apply H; right; assumption); left; reflexivity). reflexivity. Qed.

Lemma for_app {S} js js' (body : nat -> S -> outcome S) s : for_ (js ++ js') body s = let! s := for_ js body s in for_ js' body s.
Proof. revert s. induction js as [|j js IH]; intros s; [reflexivity|]. cbn [for_ app]. destruct (body j s); [apply IH|reflexivity]. Qed.

(** ** Butterflies *)
Section Blocks.
(** [bf s t j] replaces the elements u, x at j and j + t by [f s u x] and [g s u x], for residues. *)
Context (q : Z) (bf : Z -> nat -> nat -> list Z -> outcome (list Z)) (f g : Z -> Z -> Z -> Z).
Hypothesis Hbf : forall s t j a u b x c, residue q s -> residue q u -> residue q x ->
  j = length a -> (j + t)%nat = length (a ++ u :: b) ->
  bf s t j (a ++ u :: b ++ x :: c) = Ret (a ++ f s u x :: b ++ g s u x :: c).

Lemma butterflies s t : residue q s -> forall a b pre a0 b0 post, length a = length b -> length a0 = length b0 ->
  (length a0 + length a)%nat = t -> Forall (residue q) a -> Forall (residue q) b ->
  for_ (seq (length pre + length a0) (length a)) (bf s t) (pre ++ a0 ++ a ++ b0 ++ b ++ post)
  = Ret (pre ++ a0 ++ map2 (f s) a b ++ b0 ++ map2 (g s) a b ++ post).
Proof.
  intros Hs. induction a as [|u a IH]; intros [|x b] pre a0 b0 post Hl H0 Ht Ha Hb; try discriminate; [reflexivity|].
  cbn [length seq for_ map2] in *.
  replace (pre ++ a0 ++ (u :: a) ++ b0 ++ (x :: b) ++ post) with ((pre ++ a0) ++ u :: (a ++ b0) ++ x :: (b ++ post))
    by (cbn [app]; rewrite <- !app_assoc; reflexivity).
  rewrite Hbf; [|assumption|apply (Forall_inv Ha)|apply (Forall_inv Hb)|rewrite app_length; reflexivity|].
  2:{ rewrite !app_length. cbn [length]. rewrite app_length. lia. }
  cbn [obind].
  specialize (IH b pre (a0 ++ [f s u x]) (b0 ++ [g s u x]) post). rewrite !app_length in IH. cbn [length] in IH.
  replace (S (length pre + length a0)) with (length pre + (length a0 + 1))%nat by lia.
  replace ((pre ++ a0) ++ f s u x :: (a ++ b0) ++ g s u x :: b ++ post)
    with (pre ++ (a0 ++ [f s u x]) ++ a ++ (b0 ++ [g s u x]) ++ b ++ post) by (rewrite <- !app_assoc; reflexivity).
  rewrite IH; [|lia|lia|lia|apply (Forall_inv_tail Ha)|apply (Forall_inv_tail Hb)].
  f_equal. rewrite <- !app_assoc. reflexivity.
Qed.

(** One block of 2t elements *)
Definition blk (table : list Z) (t k : nat) (l : list Z) : list Z :=
  map2 (f (nth k table 0)) (firstn t l) (skipn t l) ++ map2 (g (nth k table 0)) (firstn t l) (skipn t l).

Lemma blk_length table t k l : length l = (2 * t)%nat -> length (blk table t k l) = (2 * t)%nat.
Proof. clear - f g. intros H. unfold blk. rewrite app_length, !map2_length, !firstn_length, !skipn_length. lia. Qed.

Lemma blocks_loop table (idx : nat -> nat) m t : (forall i, idx i = (2 * t * i)%nat) -> Forall (residue q) table ->
  forall rest done i, length done = i -> (m + i + length rest <= length table)%nat ->
  Forall (residues q (2 * t)) rest -> Forall (fun l => length l = (2 * t)%nat) done ->
  for_ (seq i (length rest)) (fun i buf => let! s := get_element table (m + i) in for_ (seq (idx i) t) (bf s t) buf) (concat done ++ concat rest)
  = Ret (concat done ++ concat (mapi (blk table t) (m + i) rest)).
Proof.
  intros Hidx Htab. induction rest as [|l rest IH]; intros done i Hd Ht Hr Hdl; [reflexivity|].
  cbn [length seq for_ concat mapi] in *. rewrite get_nth by lia. cbn [obind].
  pose proof (Forall_inv Hr) as [Hl Hlr]. rewrite Hidx.
  assert (Hdlen : length (concat done) = (2 * t * i)%nat).
  { clear - Hdl Hd. subst i. induction Hdl as [|x done Hx _ IH]; cbn; [lia|]. rewrite app_length, Hx, IH. lia. }
  assert (Hs : residue q (nth (m + i) table 0)) by (rewrite Forall_forall in Htab; apply Htab; apply nth_In; lia).
  rewrite <- (firstn_skipn t l) at 1. rewrite <- app_assoc.
  pose proof (butterflies (nth (m + i) table 0) t Hs (firstn t l) (skipn t l) (concat done) [] [] (concat rest)) as HB.
  rewrite firstn_length, skipn_length in HB. cbn [length app] in HB. rewrite Nat.add_0_r in HB.
  replace (Nat.min t (length l)) with t in HB by lia. rewrite Hdlen in HB. rewrite HB; [|lia|reflexivity|lia| |].
  2,3: clear - Hlr; rewrite <- (firstn_skipn t l) in Hlr; apply Forall_app in Hlr; apply Hlr.
  cbn [obind]. rewrite (app_assoc (map2 _ _ _)). change (map2 (f (nth (m + i) table 0)) (firstn t l) (skipn t l) ++ map2 (g (nth (m + i) table 0)) (firstn t l) (skipn t l)) with (blk table t (m + i) l).
  specialize (IH (done ++ [blk table t (m + i) l]) (S i)). rewrite app_length, concat_app in IH. cbn [length concat] in IH.
  rewrite app_nil_r in IH. rewrite <- !app_assoc in IH. rewrite IH; [| | |apply (Forall_inv_tail Hr)|].
  - f_equal. f_equal. rewrite Nat.add_succ_r. reflexivity.
  - lia.
  - lia.
  - apply Forall_app. split; [assumption|]. constructor; [|constructor]. apply blk_length. assumption.
Qed.
End Blocks.

(** ** Arithmetic modulo q *)
Section ModQ.
Context (p : profile) (W q : Z).
Hypothesis (Hq : 1 < q) (HqW : q * q <= 2 ^ W).

Lemma rem_q_ok x : rem_q q x = Ret (x mod q).
Proof. unfold rem_q. destruct (Z.eqb_spec q 0); [lia|reflexivity]. Qed.
Lemma residue_mod x : residue q (x mod q).
Proof. clear HqW. apply Z.mod_pos_bound. lia. Qed.
Lemma mq_add_ok a b : residue q a -> residue q b -> mq_add p W q a b = Ret ((a + b) mod q).
Proof. intros Ha Hb. unfold mq_add, residue in *. rewrite plain_ok by nia. apply rem_q_ok. Qed.
Lemma mq_mul_ok a b : residue q a -> residue q b -> mq_mul p W q a b = Ret ((a * b) mod q).
Proof. intros Ha Hb. unfold mq_mul, residue in *. rewrite plain_ok by nia. apply rem_q_ok. Qed.
Lemma mq_sub_ok a b : residue q a -> residue q b -> mq_sub p W q a b = Ret ((a - b) mod q).
Proof.
  intros Ha Hb. unfold mq_sub, mq_neg. rewrite plain_ok by (unfold residue in *; nia). cbn [obind]. rewrite rem_q_ok. cbn [obind].
  rewrite mq_add_ok by (try assumption; apply residue_mod). cbn [obind]. rewrite rem_q_ok. f_equal.
  rewrite Z.mod_mod by lia. rewrite Zplus_mod_idemp_r. replace (a + (q - b)) with (a - b + 1 * q) by ring. apply Z_mod_plus_full.
Qed.

Definition ff (s u x : Z) : Z := (u + x * s) mod q.
Definition fg (s u x : Z) : Z := (u - x * s) mod q.
Definition bf_ (s u v : Z) : Z := (u + v) mod q.
Definition bg_ (s u v : Z) : Z := ((u - v) * s) mod q.

Lemma fwd_butterfly_ok s t j a u b x c : residue q s -> residue q u -> residue q x ->
  j = length a -> (j + t)%nat = length (a ++ u :: b) ->
  fwd_butterfly p W q s t j (a ++ u :: b ++ x :: c) = Ret (a ++ ff s u x :: b ++ fg s u x :: c).
Proof.
  intros Hs Hu Hx Hj Ht. unfold fwd_butterfly. rewrite get_mid by assumption. cbn [obind].
  replace (a ++ u :: b ++ x :: c) with ((a ++ u :: b) ++ x :: c) at 1 by (rewrite <- app_assoc; reflexivity).
  rewrite get_mid by assumption. cbn [obind]. rewrite mq_mul_ok by assumption. cbn [obind].
  rewrite mq_add_ok by (try assumption; apply residue_mod). cbn [obind]. rewrite set_mid by assumption. cbn [obind].
  rewrite mq_sub_ok by (try assumption; apply residue_mod). cbn [obind].
  replace (a ++ (u + (x * s) mod q) mod q :: b ++ x :: c) with ((a ++ (u + (x * s) mod q) mod q :: b) ++ x :: c) by (rewrite <- app_assoc; reflexivity).
  rewrite set_mid by (rewrite app_length in *; cbn [length] in *; assumption). rewrite <- app_assoc. unfold ff, fg.
  rewrite Zplus_mod_idemp_r, Zminus_mod_idemp_r. reflexivity.
Qed.
Lemma bwd_butterfly_ok s t j a u b x c : residue q s -> residue q u -> residue q x ->
  j = length a -> (j + t)%nat = length (a ++ u :: b) ->
  bwd_butterfly p W q s t j (a ++ u :: b ++ x :: c) = Ret (a ++ bf_ s u x :: b ++ bg_ s u x :: c).
Proof.
  intros Hs Hu Hx Hj Ht. unfold bwd_butterfly. rewrite get_mid by assumption. cbn [obind].
  replace (a ++ u :: b ++ x :: c) with ((a ++ u :: b) ++ x :: c) at 1 by (rewrite <- app_assoc; reflexivity).
  rewrite get_mid by assumption. cbn [obind].
  rewrite mq_add_ok by assumption. cbn [obind]. rewrite set_mid by assumption. cbn [obind].
  rewrite mq_sub_ok by assumption. cbn [obind]. rewrite mq_mul_ok by (try assumption; apply residue_mod). cbn [obind].
  replace (a ++ (u + x) mod q :: b ++ x :: c) with ((a ++ (u + x) mod q :: b) ++ x :: c) by (rewrite <- app_assoc; reflexivity).
  rewrite set_mid by (rewrite app_length in *; cbn [length] in *; assumption). rewrite <- app_assoc. unfold bf_, bg_.
  rewrite Zmult_mod_idemp_l. reflexivity.
Qed.

Lemma map2_residues (h : Z -> Z -> Z) a b : (forall x y, residue q (h x y)) -> Forall (residue q) (map2 h a b).
Proof. intros H. revert b. induction a as [|x a IH]; intros [|y b]; cbn; constructor; auto. Qed.
Lemma fblk_residues table t k l : length l = (2 * t)%nat -> residues q (2 * t) (blk ff fg table t k l).
Proof. clear HqW.
  intros H. split; [apply blk_length; assumption|]. unfold blk. apply Forall_app. split; apply map2_residues; intros; apply residue_mod.
Qed.
Lemma bblk_residues table t k l : length l = (2 * t)%nat -> residues q (2 * t) (blk bf_ bg_ table t k l).
Proof. clear HqW.
  intros H. split; [apply blk_length; assumption|]. unfold blk. apply Forall_app. split; apply map2_residues; intros; apply residue_mod.
Qed.

(** ** The transforms, recursively *)
Fixpoint fwd (roots : list Z) (d k : nat) (l : list Z) : list Z :=
  match d with
  | O => l
  | S d' =>
      let l' := blk ff fg roots (2 ^ d') k l in
      fwd roots d' (2 * k) (firstn (2 ^ d') l') ++ fwd roots d' (2 * k + 1) (skipn (2 ^ d') l')
  end.
Fixpoint bwd (roots_inv : list Z) (d k : nat) (l : list Z) : list Z :=
  match d with
  | O => l
  | S d' =>
      blk bf_ bg_ roots_inv (2 ^ d') k
        (bwd roots_inv d' (2 * k) (firstn (2 ^ d') l) ++ bwd roots_inv d' (2 * k + 1) (skipn (2 ^ d') l))
  end.

Definition halves (t : nat) (l : list Z) : list (list Z) := [firstn t l; skipn t l].
Lemma concat_halves t ls : concat (flat_map (halves t) ls) = concat ls.
Proof. induction ls as [|l ls IH]; [reflexivity|]. cbn. rewrite IH, app_assoc, firstn_skipn. reflexivity. Qed.
Lemma halves_length t ls : length (flat_map (halves t) ls) = (2 * length ls)%nat.
Proof. clear HqW. induction ls as [|l ls IH]; [reflexivity|]. cbn [flat_map length halves app]. rewrite IH. lia. Qed.
Lemma firstn_residues t l : residues q (2 * t) l -> residues q t (firstn t l) /\ residues q t (skipn t l).
Proof. clear HqW.
  intros [H1 H2]. rewrite <- (firstn_skipn t l) in H2. apply Forall_app in H2.
  split; (split; [rewrite ?firstn_length, ?skipn_length; lia|apply H2]).
Qed.
Lemma halves_residues t ls : Forall (residues q (2 * t)) ls -> Forall (residues q t) (flat_map (halves t) ls).
Proof. clear HqW.
  induction 1 as [|l ls Hl _ IH]; [constructor|]. cbn. apply firstn_residues in Hl. destruct Hl. constructor; [assumption|]. constructor; assumption.
Qed.
Lemma mapi_halves (G : nat -> list Z -> list Z) t ls : forall m,
  concat (mapi G (2 * m) (flat_map (halves t) ls)) = concat (mapi (fun k l => G (2 * k)%nat (firstn t l) ++ G (2 * k + 1)%nat (skipn t l)) m ls).
Proof.
  induction ls as [|l ls IH]; intros m; [reflexivity|]. cbn [flat_map halves app mapi concat]. rewrite <- app_assoc.
  replace (S (2 * m)) with (2 * m + 1)%nat by lia. replace (S (2 * m + 1)) with (2 * S m)%nat by lia. rewrite IH. reflexivity.
Qed.
Lemma mapi_mapi {A B C} (F : nat -> A -> B) (G : nat -> B -> C) k l : mapi G k (mapi F k l) = mapi (fun k a => G k (F k a)) k l.
Proof. revert k. induction l as [|a l IH]; intros k; cbn; [reflexivity|]. rewrite IH. reflexivity. Qed.
Lemma mapi_Forall {A B} (P : A -> Prop) (Q : B -> Prop) (F : nat -> A -> B) k l : (forall k a, P a -> Q (F k a)) -> Forall P l -> Forall Q (mapi F k l).
Proof. intros H Hl. revert k. induction Hl; intros k; cbn; constructor; auto. Qed.

Lemma fwd_scale_ok roots L scale ls : (scale < L)%nat -> length roots = (2 ^ L)%nat -> Forall (residue q) roots ->
  length ls = (2 ^ scale)%nat -> Forall (residues q (2 * 2 ^ (L - 1 - scale))) ls ->
  fwd_scale p W q roots L scale (concat ls) = Ret (concat (mapi (blk ff fg roots (2 ^ (L - 1 - scale))) (2 ^ scale) ls)).
Proof.
  intros Hsc Hr Hrr Hl Hls. unfold fwd_scale. rewrite <- Hl.
  pose proof (blocks_loop q (fwd_butterfly p W q) ff fg fwd_butterfly_ok roots (fun i => 2 * i * 2 ^ (L - 1 - scale))%nat (length ls) (2 ^ (L - 1 - scale))) as HB.
  specialize (HB ltac:(intros; cbv beta; generalize (2 ^ (L - 1 - scale))%nat; clear; intros; nia) Hrr ls [] O eq_refl). cbn [concat app] in HB. rewrite Nat.add_0_r in HB. unfold fwd_block. apply HB; [|assumption|constructor].
  rewrite Hl, Hr. replace (2 ^ L)%nat with (2 * 2 ^ (L - 1))%nat by (replace L with (S (L - 1)) at 2 by lia; reflexivity).
  assert (2 ^ scale <= 2 ^ (L - 1))%nat by (apply Nat.pow_le_mono_r; lia). lia.
Qed.

Lemma forward_loop roots L : length roots = (2 ^ L)%nat -> Forall (residue q) roots ->
  forall d scale ls, (scale + d = L)%nat -> length ls = (2 ^ scale)%nat -> Forall (residues q (2 ^ d)) ls ->
  for_ (seq scale d) (fwd_scale p W q roots L) (concat ls) = Ret (concat (mapi (fwd roots d) (2 ^ scale) ls)).
Proof.
  intros Hr Hrr. induction d as [|d IH]; intros scale ls HL Hl Hls.
  - cbn [seq for_]. f_equal. f_equal. symmetry. generalize (2 ^ scale)%nat. clear. induction ls as [|l ls IH]; intros k; cbn; [reflexivity|]. rewrite IH. reflexivity.
  - cbn [seq for_]. assert (Et : (L - 1 - scale = d)%nat) by lia.
    rewrite fwd_scale_ok by (try assumption; rewrite ?Et; try assumption; lia). cbn [obind]. rewrite Et.
    rewrite <- (concat_halves (2 ^ d)). rewrite IH.
    + f_equal. change (2 ^ S scale)%nat with (2 * 2 ^ scale)%nat. rewrite mapi_halves, mapi_mapi. reflexivity.
    + lia.
    + rewrite halves_length, mapi_length, Hl. reflexivity.
    + apply halves_residues. eapply mapi_Forall; [|exact Hls]. intros k l [Hk _]. apply fblk_residues. exact Hk.
Qed.

Lemma bwd_scale_ok roots L scale ls : (scale < L)%nat -> length roots = (2 ^ L)%nat -> Forall (residue q) roots ->
  length ls = (2 ^ (L - 1 - scale))%nat -> Forall (residues q (2 * 2 ^ scale)) ls ->
  bwd_scale p W q roots L scale (concat ls) = Ret (concat (mapi (blk bf_ bg_ roots (2 ^ scale)) (2 ^ (L - 1 - scale)) ls)).
Proof.
  intros Hsc Hr Hrr Hl Hls. unfold bwd_scale. rewrite <- Hl.
  pose proof (blocks_loop q (bwd_butterfly p W q) bf_ bg_ bwd_butterfly_ok roots (fun i => 2 * 2 ^ scale * i)%nat (length ls) (2 ^ scale)) as HB.
  specialize (HB ltac:(intros; cbv beta; generalize (2 ^ scale)%nat; clear; intros; nia) Hrr ls [] O eq_refl). cbn [concat app] in HB. rewrite Nat.add_0_r in HB. unfold bwd_block. apply HB; [|assumption|constructor].
  rewrite Hl, Hr. replace (2 ^ L)%nat with (2 * 2 ^ (L - 1))%nat by (replace L with (S (L - 1)) at 2 by lia; reflexivity).
  assert (2 ^ (L - 1 - scale) <= 2 ^ (L - 1))%nat by (apply Nat.pow_le_mono_r; lia). lia.
Qed.

Lemma fwd_residues roots : forall d k l, residues q (2 ^ d) l -> residues q (2 ^ d) (fwd roots d k l).
Proof. clear HqW.
  induction d as [|d IH]; intros k l H; [exact H|]. cbn [fwd]. pose proof (fblk_residues roots (2 ^ d) k l ltac:(apply H)) as Hb.
  apply firstn_residues in Hb. destruct Hb as [H1 H2]. apply (IH (2 * k)%nat) in H1. apply (IH (2 * k + 1)%nat) in H2.
  destruct H1, H2. split; [rewrite app_length; cbn [Nat.pow]; lia|]. apply Forall_app. auto.
Qed.
Lemma bwd_residues roots : forall d k l, residues q (2 ^ d) l -> residues q (2 ^ d) (bwd roots d k l).
Proof. clear HqW.
  induction d as [|d IH]; intros k l H; [exact H|]. cbn [bwd]. apply bblk_residues. rewrite app_length.
  apply (firstn_residues (2 ^ d)) in H. destruct H as [H1 H2]. apply (IH (2 * k)%nat) in H1. apply (IH (2 * k + 1)%nat) in H2.
  destruct H1 as [-> _], H2 as [-> _]. lia.
Qed.

Lemma backward_loop roots L : length roots = (2 ^ L)%nat -> Forall (residue q) roots ->
  forall d ls, (d <= L)%nat -> length ls = (2 ^ (L - d))%nat -> Forall (residues q (2 ^ d)) ls ->
  for_ (seq 0 d) (bwd_scale p W q roots L) (concat ls) = Ret (concat (mapi (bwd roots d) (2 ^ (L - d)) ls)).
Proof.
  intros Hr Hrr. induction d as [|d IH]; intros ls HL Hl Hls.
  - cbn [seq for_]. f_equal. f_equal. symmetry. generalize (2 ^ (L - 0))%nat. clear. induction ls as [|l ls IH]; intros k; cbn; [reflexivity|]. rewrite IH. reflexivity.
  - rewrite seq_S, for_app. cbn [plus]. rewrite <- (concat_halves (2 ^ d)).
    assert (E2 : (2 ^ (L - d) = 2 * 2 ^ (L - S d))%nat) by (replace (L - d)%nat with (S (L - S d)) by lia; reflexivity).
    rewrite IH; [|lia| |apply halves_residues; exact Hls].
    2:{ rewrite halves_length, Hl. lia. }
    cbn [obind for_]. rewrite E2, mapi_halves.
    rewrite bwd_scale_ok; [|lia|assumption|assumption| |].
    + cbn [obind]. replace (L - 1 - d)%nat with (L - S d)%nat by lia. rewrite mapi_mapi. reflexivity.
    + rewrite mapi_length, Hl. f_equal. lia.
    + eapply mapi_Forall; [|exact Hls]. intros k l H. apply (firstn_residues (2 ^ d)) in H. destruct H as [H1 H2].
      apply (bwd_residues roots d (2 * k)) in H1. apply (bwd_residues roots d (2 * k + 1)) in H2. destruct H1, H2.
      split; [rewrite app_length; lia|]. apply Forall_app. auto.
Qed.

(** ** Inversion *)
Definition mulc (c x : Z) : Z := (c * x) mod q.

Lemma firstn_app_exact {A} n (a b : list A) : length a = n -> firstn n (a ++ b) = a.
Proof. intros <-. rewrite firstn_app, Nat.sub_diag, firstn_all, firstn_O, app_nil_r. reflexivity. Qed.
Lemma skipn_app_exact {A} n (a b : list A) : length a = n -> skipn n (a ++ b) = b.
Proof. intros <-. rewrite skipn_app, Nat.sub_diag, skipn_all. reflexivity. Qed.

Lemma blk_app (f g : Z -> Z -> Z -> Z) table t k a b : length a = t ->
  blk f g table t k (a ++ b) = map2 (f (nth k table 0)) a b ++ map2 (g (nth k table 0)) a b.
Proof. intros H. unfold blk. rewrite firstn_app_exact, skipn_app_exact by assumption. reflexivity. Qed.

Lemma eqm_mod_eq2 a b : eqm q a b -> a mod q = b mod q.
Proof. auto. Qed.

Lemma map2_map2_same (F f g : Z -> Z -> Z) (h : Z -> Z) (P : Z -> Prop) a b : length a = length b -> Forall P a -> Forall P b ->
  (forall x y, P x -> P y -> F (f x y) (g x y) = h x) -> map2 F (map2 f a b) (map2 g a b) = map h a.
Proof.
  intros Hl Ha. revert b Hl. induction Ha as [|x a Hx Ha IH]; intros [|y b] Hl Hb H; try discriminate; [reflexivity|].
  cbn [map2 map]. inversion Hb; subst. rewrite H by assumption. rewrite IH; auto.
Qed.
Lemma map2_map2_same_r (F f g : Z -> Z -> Z) (h : Z -> Z) (P : Z -> Prop) a b : length a = length b -> Forall P a -> Forall P b ->
  (forall x y, P x -> P y -> F (f x y) (g x y) = h y) -> map2 F (map2 f a b) (map2 g a b) = map h b.
Proof.
  intros Hl Ha. revert b Hl. induction Ha as [|x a Hx Ha IH]; intros [|y b] Hl Hb H; try discriminate; [reflexivity|].
  cbn [map2 map]. inversion Hb; subst. rewrite H by assumption. rewrite IH; auto.
Qed.

Lemma halves_of d l : residues q (2 ^ S d) l ->
  exists a b, l = a ++ b /\ residues q (2 ^ d) a /\ residues q (2 ^ d) b.
Proof. clear HqW.
  intros H. exists (firstn (2 ^ d) l), (skipn (2 ^ d) l). split; [symmetry; apply firstn_skipn|]. apply firstn_residues. exact H.
Qed.

Lemma map_mulc_1 l : Forall (residue q) l -> map (mulc 1) l = l.
Proof.
  induction 1 as [|x l Hx _ IH]; [reflexivity|]. cbn. rewrite IH. f_equal. unfold mulc. rewrite Z.mul_1_l. apply Z.mod_small. exact Hx.
Qed.
Lemma map_mulc_mulc c c' l : map (mulc c) (map (mulc c') l) = map (mulc (c * c')) l.
Proof. rewrite map_map. apply map_ext. intros x. unfold mulc. rewrite Zmult_mod_idemp_r. f_equal. ring. Qed.
Lemma map_mulc_residues c l n : length l = n -> residues q n (map (mulc c) l).
Proof. intros <-. split; [apply map_length|]. rewrite Forall_map. apply Forall_forall. intros. apply residue_mod. Qed.

(** Inverse roots for the nodes k, 2k, 2k+1, ... of depth at most d. *)
Definition inverse_below (roots roots_inv : list Z) (n : nat) : Prop :=
  forall k, (k < n)%nat -> eqm q (nth k roots 0 * nth k roots_inv 0) 1.

Ltac zmod := unfold mulc, ff, fg, bf_, bg_; apply eqm_mod_eq2; rewrite ?eqm_mod.

Lemma node_lt k d n : ((k + 1) * (2 * 2 ^ d) <= 2 * n)%nat -> (k < n)%nat.
Proof. clear. intros H. assert (2 ^ d <> 0)%nat by (apply Nat.pow_nonzero; lia). nia. Qed.

Lemma bwd_fwd roots roots_inv n : inverse_below roots roots_inv n ->
  forall d k l, residues q (2 ^ d) l -> ((k + 1) * 2 ^ d <= 2 * n)%nat ->
  bwd roots_inv d k (fwd roots d k l) = map (mulc (2 ^ Z.of_nat d)) l.
Proof. clear HqW.
  intros Hinv. induction d as [|d IH]; intros k l Hl Hk.
  - cbn [bwd fwd]. symmetry. apply map_mulc_1. apply Hl.
  - destruct (halves_of d l Hl) as (a & b & -> & Ha & Hb). cbn [fwd bwd].
    pose proof (fblk_residues roots (2 ^ d) k (a ++ b) ltac:(apply Hl)) as Hr. apply firstn_residues in Hr. destruct Hr as [Hr1 Hr2].
    rewrite firstn_app_exact, skipn_app_exact by (apply fwd_residues; assumption).
    cbn [Nat.pow] in Hk. rewrite !IH by (try assumption; lia).
    rewrite (blk_app ff fg roots) by apply Ha.
    rewrite firstn_app_exact, skipn_app_exact by (rewrite map2_length; destruct Ha as [-> _], Hb as [-> _]; lia).
    rewrite blk_app by (rewrite map_length, map2_length; destruct Ha as [-> _], Hb as [-> _]; lia).
    rewrite !map2_map_l, !map2_map_r, map_app.
    assert (Hs : eqm q (nth k roots 0 * nth k roots_inv 0) 1) by (apply Hinv; apply (node_lt k d n); exact Hk).
    assert (E2 : 2 ^ Z.of_nat (S d) = 2 * 2 ^ Z.of_nat d) by (rewrite Nat2Z.inj_succ, Z.pow_succ_r by lia; reflexivity).
    assert (Hab : length a = length b) by (destruct Ha as [-> _], Hb as [-> _]; reflexivity).
    f_equal.
    + apply (map2_map2_same _ _ _ _ (residue q)); [exact Hab|apply Ha|apply Hb|].
      intros x y _ _. rewrite E2. zmod. apply eqm_eq. ring.
    + apply (map2_map2_same_r _ _ _ _ (residue q)); [exact Hab|apply Ha|apply Hb|].
      intros x y _ _. rewrite E2. zmod.
      replace ((2 ^ Z.of_nat d * (x + y * nth k roots 0) - 2 ^ Z.of_nat d * (x - y * nth k roots 0)) * nth k roots_inv 0)
        with (2 * 2 ^ Z.of_nat d * y * (nth k roots 0 * nth k roots_inv 0)) by ring.
      rewrite Hs. apply eqm_eq. ring.
Qed.

Lemma fwd_mulc roots c : forall d k l, residues q (2 ^ d) l -> fwd roots d k (map (mulc c) l) = map (mulc c) (fwd roots d k l).
Proof. clear HqW.
  induction d as [|d IH]; intros k l Hl; [reflexivity|].
  destruct (halves_of d l Hl) as (a & b & -> & Ha & Hb). cbn [fwd]. rewrite !map_app.
  pose proof (fblk_residues roots (2 ^ d) k (a ++ b) ltac:(apply Hl)) as Hr. apply firstn_residues in Hr. destruct Hr as [Hr1 Hr2].
  rewrite <- !IH by assumption. rewrite !firstn_map, !skipn_map || idtac.
  rewrite !(blk_app ff fg roots) by (rewrite ?map_length; apply Ha).
  assert (Hab : length a = length b) by (destruct Ha as [-> _], Hb as [-> _]; reflexivity).
  assert (Hla : length a = (2 ^ d)%nat) by apply Ha.
  rewrite !firstn_app_exact, !skipn_app_exact by (rewrite ?map2_length, ?map_length; lia).
  rewrite !map_map2, !map2_map_l, !map2_map_r.
  assert (Hext : forall f g : Z -> Z -> Z, (forall x y, f x y = g x y) -> map2 f a b = map2 g a b).
  { intros f g H. clear - H. revert b. induction a as [|x a IH]; intros [|y b]; cbn; [reflexivity..|]. rewrite H, IH. reflexivity. }
  f_equal; f_equal; apply Hext; intros x y; zmod; apply eqm_eq; ring.
Qed.

Lemma fwd_bwd roots roots_inv n : inverse_below roots roots_inv n ->
  forall d k l, residues q (2 ^ d) l -> ((k + 1) * 2 ^ d <= 2 * n)%nat ->
  fwd roots d k (bwd roots_inv d k l) = map (mulc (2 ^ Z.of_nat d)) l.
Proof. clear HqW.
  intros Hinv. induction d as [|d IH]; intros k l Hl Hk.
  - cbn [bwd fwd]. symmetry. apply map_mulc_1. apply Hl.
  - destruct (halves_of d l Hl) as (a & b & -> & Ha & Hb). cbn [fwd bwd].
    rewrite firstn_app_exact, skipn_app_exact by apply Ha.
    pose proof (bwd_residues roots_inv d (2 * k) a Ha) as Ha'. pose proof (bwd_residues roots_inv d (2 * k + 1) b Hb) as Hb'.
    set (a' := bwd roots_inv d (2 * k) a) in *. set (b' := bwd roots_inv d (2 * k + 1) b) in *.
    rewrite (blk_app bf_ bg_) by apply Ha'. rewrite (blk_app ff fg) by (rewrite map2_length; destruct Ha' as [-> _], Hb' as [-> _]; lia).
    rewrite firstn_app_exact, skipn_app_exact by (rewrite !map2_length; destruct Ha' as [-> _], Hb' as [-> _]; lia).
    assert (Hab : length a' = length b') by (destruct Ha' as [-> _], Hb' as [-> _]; reflexivity).
    assert (Hs : eqm q (nth k roots 0 * nth k roots_inv 0) 1) by (apply Hinv; apply (node_lt k d n); exact Hk).
    rewrite (map2_map2_same _ _ _ (mulc 2) (residue q)); [|exact Hab|apply Ha'|apply Hb'|].
    2:{ intros x y _ _. zmod. replace (x + y + (x - y) * nth k roots_inv 0 * nth k roots 0) with (x + y + (x - y) * (nth k roots 0 * nth k roots_inv 0)) by ring.
        rewrite Hs. apply eqm_eq. ring. }
    rewrite (map2_map2_same_r _ _ _ (mulc 2) (residue q)); [|exact Hab|apply Ha'|apply Hb'|].
    2:{ intros x y _ _. zmod. replace (x + y - (x - y) * nth k roots_inv 0 * nth k roots 0) with (x + y - (x - y) * (nth k roots 0 * nth k roots_inv 0)) by ring.
        rewrite Hs. apply eqm_eq. ring. }
    rewrite !fwd_mulc by assumption. unfold a', b'. cbn [Nat.pow] in Hk. rewrite !IH by (try assumption; lia).
    rewrite !map_mulc_mulc, map_app. replace (2 ^ Z.of_nat (S d)) with (2 * 2 ^ Z.of_nat d) by (rewrite Nat2Z.inj_succ, Z.pow_succ_r by lia; reflexivity). reflexivity.
Qed.
End ModQ.
