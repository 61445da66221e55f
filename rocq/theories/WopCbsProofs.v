(** * The circuit bootstrap, for any bootstrap and functional keyswitches with bounded errors *)
From Verif Require Import Base Word WordFacts NegaRing PolySpec PolyModel PolyProofs RingSum LweSpec LweModel LweProofs LweTheorems
  GlweSpec GlweModel GlweProofs GlweTheorems GgswSpec SeededModel WopModel WopSpec WopTreeProofs WopBitsProofs.

Lemma homomorphic_shift_ok p w N gs s_small s_big M Ebs pbs out lwe level b delta m err e0 :
  2 < w -> w < 2 ^ 64 -> 0 <= M -> sign_bootstraps w N gs s_small s_big M Ebs pbs ->
  0 <= delta < w -> 0 <= b -> 0 <= level -> b * level < w ->
  length out = S (length s_big) -> lwe_wf w (length s_small) lwe ->
  eqm (2 ^ w) (phase w s_small lwe) (m * 2 ^ delta + err) -> Z.abs err <= e0 -> e0 * 2 ^ (w - delta - 1) + M < 2 ^ (w - 2) ->
  exists l e, homomorphic_shift_boolean p w pbs N gs out lwe level b delta = Ret l /\ lwe_wf w (length s_big) l /\
    Z.abs e <= Ebs /\ eqm (2 ^ w) (phase w s_big l) (m mod 2 * 2 ^ (w - b * level) + e).
Proof.
  intros Hw Hw64 HM Hpbs Hd Hb Hl Hbl Lo Wl Hph Herr Hmar. unfold homomorphic_shift_boolean.
  change (2 ^ 64) with (2 ^ usize_bits) in Hw64. assert (H0 : 0 <= b * level) by nia.
  set (sh := w - delta - 1) in *. rewrite plain_ok by lia. cbn [obind]. rewrite plain_ok by (fold sh; lia). cbn [obind]. fold sh.
  rewrite shl_ok by lia. cbn [obind]. rewrite shl_ok by lia. cbn [obind].
  assert (Ws : lwe_wf w (length s_small) (map (fun x => wmul w x (shl w 1 sh)) lwe)).
  { split; [rewrite map_length; apply Wl|]. apply words_map. intros a. apply wmul_word. lia. }
  assert (Hps : eqm (2 ^ w) (phase w s_small (map (fun x => wmul w x (shl w 1 sh)) lwe)) (m * 2 ^ (w - 1) + err * 2 ^ sh)).
  { rewrite phase_eqm. rewrite (raw_map (2 ^ w) _ (2 ^ sh) (length s_small)); [|intros; rewrite wmul_eqm, shl_eqm; apply eqm_eq; ring|apply Wl].
    rewrite <- (phase_eqm w s_small lwe), Hph. apply eqm_eq.
    replace (2 ^ (w - 1)) with (2 ^ sh * 2 ^ delta) by (rewrite <- Z.pow_add_r by (unfold sh; lia); f_equal; unfold sh; lia). ring. }
  destruct (add_to_body_ok w s_small _ (length s_small) (shl w 1 (w - 2)) ltac:(lia) Ws) as (c & -> & Wc & Hc). cbn [obind].
  rewrite plain_ok by lia. cbn [obind]. rewrite plain_ok by lia. cbn [obind]. rewrite shl_ok by lia. cbn [obind].
  set (al := w - 1 - b * level).
  destruct (sign_of_bit w N gs s_small s_big M Ebs pbs c out (wsub w 0 (shl w 1 al)) m (err * 2 ^ sh) (e0 * 2 ^ sh)) as (l & e & E2 & Wl2 & He & Hp2);
    try assumption.
  { apply wsub_word. lia. }
  { rewrite Hc, Hps, shl_eqm. apply eqm_eq. ring. }
  { rewrite Z.abs_mul, (Z.abs_eq (2 ^ sh)) by (apply Z.pow_nonneg; lia). apply Z.mul_le_mono_nonneg_r; [apply Z.pow_nonneg; lia|exact Herr]. }
  rewrite E2. cbn [obind].
  destruct (add_to_body_ok w s_big l (length s_big) (shl w 1 al) ltac:(lia) Wl2) as (l3 & E3 & W3 & Hp3).
  exists l3, e. split; [exact E3|]. split; [exact W3|]. split; [exact He|].
  rewrite Hp3, Hp2, wsub_eqm, !shl_eqm. apply eqm_eq.
  replace (w - b * level) with (1 + al) by (unfold al; lia). rewrite Z.pow_add_r by (unfold al; lia). ring.
Qed.

(** A functional keyswitch to GLWE that multiplies the message by [P]. *)
Definition multiplies (w : Z) (N : nat) (key : list (list Z)) (s : list Z) (P : rp N) (E : Z)
    (pf : list (list Z) -> list Z -> outcome (list (list Z))) : Prop :=
  forall out lwe, length out = S (length key) -> Forall (fun a => length a = N) out -> lwe_wf w (length s) lwe ->
  exists res, pf out lwe = Ret res /\ glwe_wf w (length key) N res /\ rbound (2 ^ w) E (rsub (gphase N key res) (rscal (phase w s lwe) P)).

(** The coefficients of an element of the ring *)
Definition coefs {N} (x : rp N) : list Z := map (fun i => rcoef x (Z.of_nat i)) (seq 0 N).
Lemma R_coefs_list {N} q (x : rp N) : req q x (R N (coefs x)).
Proof.
  apply R_coefs. intros k Hk. unfold coef, coefs. apply eqm_eq.
  rewrite (nth_indep _ _ (rcoef x (Z.of_nat 0))) by (rewrite map_length, seq_length; lia).
  rewrite (map_nth (fun i => rcoef x (Z.of_nat i))), seq_nth by lia. f_equal. lia.
Qed.

Section Cbs.
Context (p : profile) (w : Z) (N gs : nat) (s_small s_big : list Z) (M Ebs : Z) (pbs : list Z -> list Z -> list (list Z) -> outcome (list Z)).
Hypothesis (Hw : 2 < w) (Hw64 : w < 2 ^ 64) (HM : 0 <= M) (Hpbs : sign_bootstraps w N gs s_small s_big M Ebs pbs).
Context {PF : Type} (pfks : PF -> list (list Z) -> list Z -> outcome (list (list Z))) (No : nat) (key : list (list Z)) (Epf : Z).
Notation k := (length key).

Definition row_shape (o : list (list Z)) : Prop := length o = S k /\ Forall (fun a => length a = No) o.

Lemma cbs_keys_ok lwe : lwe_wf w (length s_big) lwe -> forall (keys : list PF) (P : nat -> rp No) lev rest,
  (forall u kk, nth_error keys u = Some kk -> multiplies w No key s_big (P u) Epf (pfks kk)) ->
  length lev = length keys -> Forall row_shape lev ->
  exists done, cbs_keys pfks keys (lev ++ rest) lwe = Ret (done, rest) /\ length done = length keys /\
    forall u row, nth_error done u = Some row -> glwe_wf w k No row /\
      rbound (2 ^ w) Epf (rsub (gphase No key row) (rscal (phase w s_big lwe) (P u))).
Proof.
  intros Wl. induction keys as [|kk keys IH]; intros P lev rest HP Ll Fl.
  - destruct lev; [|discriminate]. exists []. split; [reflexivity|]. split; [reflexivity|]. intros [|u]; discriminate.
  - destruct lev as [|o lev]; [discriminate|]. cbn [app cbs_keys]. destruct (Forall_inv Fl) as [Lo Fo].
    destruct (HP O kk eq_refl o lwe Lo Fo Wl) as (res & -> & Wr & Hr). cbn [obind].
    destruct (IH (fun u => P (S u)) lev rest) as (done & -> & Ld & Hd).
    + intros u kk' Hu. apply (HP (S u) kk' Hu).
    + cbn in Ll. lia.
    + exact (Forall_inv_tail Fl).
    + cbn [obind]. exists (res :: done). split; [reflexivity|]. split; [cbn; lia|].
      intros [|u] row Hu; cbn in Hu; [injection Hu as <-; auto|apply Hd; exact Hu].
Qed.

Context (keys : list PF) (P : nat -> rp No) (MP : Z).
Hypothesis (HP : forall u kk, nth_error keys u = Some kk -> multiplies w No key s_big (P u) Epf (pfks kk)) (Lkeys : length keys = S k)
  (HMP : 0 <= MP) (HPb : forall u, (u <= k)%nat -> rbound (2 ^ w) MP (P u)).
Context (b delta m err e0 : Z) (lwe : list Z).
Hypothesis (Hdelta : 0 <= delta < w) (Hb : 0 <= b) (Wlwe : lwe_wf w (length s_small) lwe)
  (Hph : eqm (2 ^ w) (phase w s_small lwe) (m * 2 ^ delta + err)) (Herr : Z.abs err <= e0)
  (Hmar : e0 * 2 ^ (w - delta - 1) + M < 2 ^ (w - 2)).

Lemma cbs_levels_ok : forall levs level buf,
  0 <= level -> b * (level + Z.of_nat (length levs) - 1) < w -> length buf = S (length s_big) ->
  Forall (fun lev => length lev = S k /\ Forall row_shape lev) levs ->
  exists res, cbs_levels p w pbs pfks N gs lwe b delta keys (length levs) level (concat levs) buf = Ret (concat res) /\
    length res = length levs /\ Forall (fun lev => length lev = S k) res /\
    forall j lev u row, nth_error res j = Some lev -> nth_error lev u = Some row -> glwe_wf w k No row /\
      rbound (2 ^ w) (Ebs * MP + Epf)
        (rsub (gphase No key row) (rscal (m mod 2 * 2 ^ (w - b * (level + Z.of_nat j))) (P u))).
Proof using All.
  induction levs as [|lev levs IH]; intros level buf Hlv Hbl Lb Fl.
  - exists []. split; [reflexivity|]. split; [reflexivity|]. split; [constructor|]. intros [|j]; discriminate.
  - cbn [length cbs_levels concat]. cbn [length] in Hbl. rewrite Nat2Z.inj_succ in Hbl.
    assert (Hbl0 : b * level < w) by nia.
    destruct (homomorphic_shift_ok p w N gs s_small s_big M Ebs pbs buf lwe level b delta m err e0) as (buf' & e & -> & Wb & He & Hpb); try assumption.
    cbn [obind]. destruct (Forall_inv Fl) as [Llev Flev].
    destruct (cbs_keys_ok buf' Wb keys P lev (concat levs) HP ltac:(congruence) Flev) as (done & -> & Ld & Hd). cbn [obind].
    destruct (IH (level + 1) buf') as (res & -> & Lr & Fr & Hr); [lia| |apply Wb|exact (Forall_inv_tail Fl)|].
    { replace (level + 1 + Z.of_nat (length levs) - 1) with (level + Z.succ (Z.of_nat (length levs)) - 1) by lia. exact Hbl. }
    cbn [obind]. exists (done :: res). split; [reflexivity|]. split; [cbn; congruence|]. split; [constructor; [congruence|exact Fr]|].
    intros [|j] lev' u row Hj Hu; cbn in Hj.
    + injection Hj as <-. destruct (Hd u row Hu) as [Wr Hrow]. split; [exact Wr|].
      change (Z.of_nat 0) with 0. rewrite Z.add_0_r.
      assert (Hu' : (u <= k)%nat) by (assert ((u < length done)%nat) by (apply nth_error_Some; congruence); lia).
      eapply rbound_req; [|apply (rbound_add _ (Ebs * MP) Epf); [eapply rbound_le; [|apply (rbound_scal (2 ^ w) MP e (P u)); apply HPb; exact Hu']|exact Hrow]].
      * intros x. change (eqm (2 ^ w) (e * rcoef (P u) x + (rcoef (gphase No key row) x - phase w s_big buf' * rcoef (P u) x))
          (rcoef (gphase No key row) x - m mod 2 * 2 ^ (w - b * level) * rcoef (P u) x)).
        rewrite Hpb. apply eqm_eq. ring.
      * apply Z.mul_le_mono_nonneg_r; assumption.
    + replace (level + Z.of_nat (S j)) with (level + 1 + Z.of_nat j) by lia. apply (Hr j lev' u row); assumption.
Qed.

Lemma circuit_bootstrap_ok levs : No <> 0%nat ->
  (1 <= length levs)%nat -> 1 <= b -> b * Z.of_nat (length levs) < w -> length s_big = ((gs - 1) * N)%nat ->
  Forall (fun lev => length lev = S k /\ Forall row_shape lev) levs ->
  exists G, circuit_bootstrap_boolean p w pbs pfks N gs No (S k) (length s_big) No k lwe levs b delta keys = Ret G /\
    length G = length levs /\ Forall (fun lev => length lev = S k) G /\
    forall j lev u row, nth_error G j = Some lev -> nth_error lev u = Some row -> glwe_wf w k No row /\
      rbound (2 ^ w) (Ebs * MP + Epf)
        (rsub (gphase No key row) (rscal (m mod 2 * 2 ^ (w - b * Z.of_nat (S j))) (P u))).
Proof using All.
  intros HNo Hl1 Hb1 Hbl Hsb Fl. unfold circuit_bootstrap_boolean.
  replace (Nat.leb 1 (length levs)) with true by (symmetry; apply Nat.leb_le; exact Hl1). rewrite debug_true. cbn [obind].
  replace (1 <=? b) with true by (symmetry; apply Z.leb_le; exact Hb1). rewrite debug_true. cbn [obind].
  replace (Nat.eqb (length s_big) ((gs - 1) * N)) with true by (symmetry; apply Nat.eqb_eq; exact Hsb). rewrite debug_true. cbn [obind]. rewrite Nat.eqb_refl, debug_true. cbn [obind].
  replace (Nat.eqb (S k - 1) k) with true by (symmetry; apply Nat.eqb_eq; lia). rewrite debug_true. cbn [obind].
  rewrite Lkeys, Nat.eqb_refl, debug_true. cbn [obind].
  destruct (cbs_levels_ok levs 1 (repeat 0 (S ((gs - 1) * N)))) as (res & -> & Lr & Fr & Hr).
  - lia.
  - replace (1 + Z.of_nat (length levs) - 1) with (Z.of_nat (length levs)) by lia. exact Hbl.
  - rewrite repeat_length. lia.
  - exact Fl.
  - cbn [obind]. exists res. rewrite chunks_concat by (try exact Fr; lia). split; [reflexivity|]. split; [exact Lr|]. split; [exact Fr|].
    intros j lev u row Hj Hu. replace (Z.of_nat (S j)) with (1 + Z.of_nat j) by lia. apply (Hr j lev u row); assumption.
Qed.
End Cbs.

