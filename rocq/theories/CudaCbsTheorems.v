(** * C71: the circuit bootstrap of the CUDA backend *)
From Coq Require Import Reals Lra Permutation.
From Verif Require Import Base Word WordFacts DecompModel DecompProofs NegaRing RingSum PolySpec LweSpec LweModel LweProofs LweTheorems GlweSpec GlweModel GlweProofs GgswSpec ExtProdModel ExtProdSpec ExtProdTheorems
  BootstrapSpec BootstrapModel BootstrapTheorems KeyswitchSpec KeyswitchModel KeyswitchTheorems WopModel WopSpec WopTreeProofs WopBitsProofs WopBitsTheorems WopCbsProofs
  CudaBlockModel CudaBlockProofs CudaFftModel CudaFftSpec CudaFftAlgebra CudaFftProofs CudaFftFacts CudaFftTheorems CudaFftRealTheorems
  CudaPbsModel CudaPbsSpec CudaPbsLink CudaPbsTheorems CudaPbsRealModel CudaPbsReal CudaPbsRealBackend CudaPbsRealTheorems
  CudaSpec CudaKsModel CudaKsTheorems CudaGatesModel CudaGatesTheorems CudaBitsModel CudaBitsProofs CudaBitsTheorems CudaFpksModel CudaFpksProofs CudaFpksTheorems CudaCbsModel CudaCbsProofs.
From Verif Require CudaModel CudaFacts CudaTheorems.
Local Open Scope Z_scope.
Notation phase := LweSpec.phase.

(** ** The circuit bootstrap of the CPU, given what its bootstraps and keyswitches return *)
Section Cpu.
Context (p : profile) (w : Z) (pbs : list Z -> list Z -> list (list Z) -> outcome (list Z)) {PF : Type} (pfks : PF -> list (list Z) -> list Z -> outcome (list (list Z))).
Context (k N : nat) (keys : list PF).
Definition shape_of_row (o : list (list Z)) : Prop := length o = S k /\ Forall (fun a => length a = N) o.
Lemma cbs_keys_value lwe : forall (ks : list PF) (row : nat -> list (list Z)) lev rest,
  (forall u key out, nth_error ks u = Some key -> shape_of_row out -> pfks key out lwe = Ret (row u)) -> length lev = length ks -> Forall shape_of_row lev ->
  cbs_keys pfks ks (lev ++ rest) lwe = Ret (map row (seq 0 (length ks)), rest).
Proof.
  induction ks as [|key ks IH]; intros row lev rest Hr Ll Fl.
  - destruct lev; [|discriminate]. reflexivity.
  - destruct lev as [|o lev]; [discriminate|]. cbn [app cbs_keys]. rewrite (Hr 0%nat key o eq_refl (Forall_inv Fl)). cbn [obind].
    rewrite (IH (fun u => row (S u)) lev rest); [|intros u key' out Hu; apply (Hr (S u)); exact Hu|cbn in Ll; lia|exact (Forall_inv_tail Fl)].
    cbn [obind length seq map]. rewrite <- seq_shift, map_map. reflexivity.
Qed.
Lemma cbs_levels_value gs lwe b delta m : forall levs level (X : nat -> list Z) (Rw : nat -> nat -> list (list Z)) buf, length buf = m ->
  (forall t buf, (t < length levs)%nat -> length buf = m -> homomorphic_shift_boolean p w pbs N gs buf lwe (level + Z.of_nat t) b delta = Ret (X t) /\ length (X t) = m) ->
  (forall t u key out, (t < length levs)%nat -> nth_error keys u = Some key -> shape_of_row out -> pfks key out (X t) = Ret (Rw t u)) ->
  Forall (fun lev => length lev = length keys /\ Forall shape_of_row lev) levs ->
  cbs_levels p w pbs pfks N gs lwe b delta keys (length levs) level (concat levs) buf = Ret (concat (map (fun t => map (Rw t) (seq 0 (length keys))) (seq 0 (length levs)))).
Proof.
  induction levs as [|lev levs IH]; intros level X Rw buf Lb HX HR Fl; [reflexivity|].
  cbn [length cbs_levels concat]. destruct (HX 0%nat buf ltac:(cbn; lia) Lb) as [E0 L0]. rewrite Z.add_0_r in E0. rewrite E0. cbn [obind]. destruct (Forall_inv Fl) as [Ll Fr].
  rewrite (cbs_keys_value (X 0%nat) keys (Rw 0%nat)) by (try assumption; intros u key out; apply HR; cbn; lia). cbn [obind].
  rewrite (IH (level + 1) (fun t => X (S t)) (fun t => Rw (S t))).
  - cbn [obind seq map concat]. rewrite <- seq_shift, map_map. reflexivity.
  - exact L0.
  - intros t buf' Ht Lb'. replace (level + 1 + Z.of_nat t) with (level + Z.of_nat (S t)) by lia. apply HX; [cbn; lia|exact Lb'].
  - intros t u key out Ht. apply HR. cbn. lia.
  - exact (Forall_inv_tail Fl).
Qed.
Lemma circuit_bootstrap_value lwe b delta levs X Rw : length keys = S k -> (1 <= length levs)%nat -> 1 <= b ->
  (forall t buf, (t < length levs)%nat -> length buf = S (k * N) -> homomorphic_shift_boolean p w pbs N (S k) buf lwe (1 + Z.of_nat t) b delta = Ret (X t) /\ length (X t) = S (k * N)) ->
  (forall t u key out, (t < length levs)%nat -> nth_error keys u = Some key -> shape_of_row out -> pfks key out (X t) = Ret (Rw t u)) ->
  Forall (fun lev => length lev = S k /\ Forall shape_of_row lev) levs ->
  circuit_bootstrap_boolean p w pbs pfks N (S k) N (S k) (k * N) N k lwe levs b delta keys = Ret (map (fun t => map (Rw t) (seq 0 (S k))) (seq 0 (length levs))).
Proof.
  intros Lk Hl1 Hb1 HX HR Fl. unfold circuit_bootstrap_boolean.
  replace (Nat.leb 1 (length levs)) with true by (symmetry; apply Nat.leb_le; exact Hl1). rewrite debug_true. cbn [obind].
  replace (1 <=? b) with true by (symmetry; apply Z.leb_le; exact Hb1). rewrite debug_true. cbn [obind]. replace (S k - 1)%nat with k by lia.
  rewrite !Nat.eqb_refl, !debug_true. cbn [obind]. rewrite Lk, Nat.eqb_refl, debug_true. cbn [obind].
  rewrite (cbs_levels_value (S k) lwe b delta (S (k * N)) levs 1 X Rw); try assumption; [|apply repeat_length|rewrite Lk; exact Fl].
  cbn [obind]. rewrite Lk. rewrite chunks_concat; [reflexivity|lia|]. apply Forall_map, Forall_forall. intros t _. rewrite map_length. apply seq_length.
Qed.
End Cpu.

Lemma concat_rows (l : list (list Z)) : concat l = rows (length l) (fun i => nth i l []).
Proof. unfold rows. f_equal. apply (nth_ext _ _ [] []); [rewrite map_length, seq_length; reflexivity|]. intros i Hi. rewrite nth_seq_map by exact Hi. reflexivity. Qed.
Definition flat_ggsw (G : list (list (list (list Z)))) : list Z := concat (concat (concat G)).

Section Cbs.
Context (w : Z) (ok : addr -> bool) (size : nat -> nat) (H T opt : nat) (partial : bool) (s : list Z) (key : list (list Z)).
Context (pbs_b : Z) (pbs_l : nat) (beta : Z) (bsk : list (list (list (list (list Z))))) (M : Z).
Notation n := (length s).
Notation k := (length key).
Notation N := (2 * H)%nat.
Notation big := (glwe_key_into_lwe_key key).
(** The bootstrap key, for the key [s] of the input under the GLWE key, and the memory of the bootstrap *)
Hypothesis (Hw : w = 32 \/ w = 64) (Hshape : shape H T opt) (Hvars : has_variables ok) (Hmem : has_memory ok size).
Hypothesis (Hb31 : pbs_b <= 31) (Hd : dec_wf w (Dec pbs_b pbs_l)) (HN4 : 4 * Z.of_nat N < 2 ^ 32).
Hypothesis (Hidx : 2 * Z.of_nat n * Z.of_nat pbs_l * (Z.of_nat k + 1) * (Z.of_nat k + 1) * Z.of_nat H < 2 ^ 32).
Hypothesis (Hbeta : 0 <= beta) (Hkey : binary_key N key) (Hk0 : (0 < k)%nat) (Hs : Forall (fun x => x = 0 \/ x = 1) s) (Hbsk : bsk_encrypts w pbs_b N pbs_l key beta bsk s).
(** The base of the GGSW ciphertexts, their levels, and the memory for as many tables *)
Context (cbs_b : Z) (cbs_l : nat).
Hypothesis (Hcb : 1 <= cbs_b) (Hcl : (0 < cbs_l)%nat) (Hcw : cbs_b * Z.of_nat cbs_l < w).
Hypothesis (Hsize : forall index, (index < cbs_l)%nat -> enough_memory H k pbs_l n (index * N * (k + 1)) 0 size).

(** Any order of the threads, any content of the buffers, and the bootstrap key in memory *)
Definition cbs_hardware_ok (inputs : nat) (y : cbs_hardware) : Prop :=
  (forall j, any_order (y_order y j)) /\
  (forall j, key_at w 0%R 1%R Rplus Rmult Ropp H k pbs_l (key_to_double w) exact_twiddle bsk (y_memory y j)) /\
  length (y_shifted y) = (inputs * cbs_l * S n)%nat /\ length (y_fp_input y) = (inputs * cbs_l * S k * S (k * N))%nat.
(** The bootstrap of the CPU, with the products of polynomials of the GPU, of the ciphertext converted to doubles (C61) *)
Definition cpu_bootstrap (p : profile) (out lwe : list Z) (acc : list (list Z)) : outcome (list Z) :=
  fft_bootstrap p w (real_backend w H) N pbs_b (bsk_forward_fourier (real_backend w H) bsk) out (map (as_double w) lwe) acc.
Definition cbs_bootstrap_noise : Z := Z.of_nat n * ep_error w pbs_b k N pbs_l 1 beta (gpu_error w N pbs_b (pbs_l * S k)).

Lemma cw32 : 32 <= w.
Proof. destruct Hw as [-> | ->]; lia. Qed.
Lemma cH1 : (1 <= H)%nat.
Proof. destruct Hshape as (_ & _ & _ & n0 & _ & ->). pose proof (Nat.pow_nonzero 2 n0). lia. Qed.
Lemma cLbig : length big = (k * N)%nat.
Proof. apply length_big. eapply Forall_impl; [|exact Hkey]. intros a Ha. apply Ha. Qed.
Lemma cT : (0 < T)%nat /\ (opt * T = H)%nat.
Proof. destruct Hshape as (H1 & H2 & _). split; [exact H1|]. lia. Qed.
Lemma cLbsk : length bsk = n.
Proof. pose proof Hbsk as HB. unfold bsk_encrypts in HB. clear - HB. revert HB. generalize bsk s. intros b0 s0 HB. induction HB; cbn; congruence. Qed.
Lemma table_in_rows (v : nat -> Z) index m : (index < cbs_l)%nat ->
  test_vector_at H (index * N * (k + 1)) (repeat (repeat 0 N) k ++ [repeat (v index) N]) (copied_words LUT (rows cbs_l (fun r => concat (const_accumulator N (S k) (v r)))) m).
Proof.
  intros Hi z i Hz Hc. rewrite app_length, repeat_length in Hz. cbn [length] in Hz. set (NN := N) in *.
  assert (L : forall r, (r < cbs_l)%nat -> length (concat (const_accumulator NN (S k) (v r))) = (S k * NN)%nat) by (intros r _; rewrite concat_const, app_length, !repeat_length; lia).
  assert (B : (z * NN + i < S k * NN)%nat) by (assert (S z * NN <= S k * NN)%nat by (apply Nat.mul_le_mono_r; lia); lia).
  pose proof (nth_rows cbs_l (S k * NN) (fun r => concat (const_accumulator NN (S k) (v r))) index (z * NN + i) L Hi B) as E. cbv beta in E.
  replace (index * NN * (k + 1) + z * NN + i)%nat with (index * (S k * NN) + (z * NN + i))%nat by ring. set (pos := (index * (S k * NN) + (z * NN + i))%nat) in *.
  unfold copied_words. rewrite Nat.eqb_refl. cbn [andb]. assert (P : (pos < length (rows cbs_l (fun r => concat (const_accumulator NN (S k) (v r)))))%nat) by (apply nth_error_Some; congruence).
  destruct (Nat.ltb_spec pos (length (rows cbs_l (fun r => concat (const_accumulator NN (S k) (v r)))))) as [_|]; [|lia]. f_equal. rewrite (nth_error_nth _ _ _ E).
  apply nth_error_nth. unfold const_accumulator. replace (S k - 1)%nat with k by lia.
  rewrite (CudaKsFacts.nth_error_concat_gen NN _ z i []); [|apply Forall_app; split; [apply Forall_forall; intros a Ha; apply repeat_spec in Ha; subst; apply repeat_length|constructor; [apply repeat_length|constructor]]|exact Hc|rewrite app_length, repeat_length; cbn; lia].
  apply nth_error_nth'. destruct (Nat.ltb_spec z k) as [Hlt|Hge].
  - rewrite app_nth1 by (rewrite repeat_length; exact Hlt). rewrite (nth_indep _ [] (repeat 0 NN)) by (rewrite repeat_length; exact Hlt). rewrite nth_repeat, repeat_length. exact Hc.
  - rewrite app_nth2, repeat_length by (rewrite repeat_length; exact Hge). replace (z - k)%nat with 0%nat by lia. cbn [nth]. rewrite repeat_length. exact Hc.
Qed.
(** The bootstrap of block [j] is that of the CPU. *)
Lemma cbs_pbs_lookup y inputs (v : nat -> Z) index j lwe : cbs_hardware_ok inputs y -> (index < cbs_l)%nat -> (forall r, is_word w (v r)) -> lwe_wf w n lwe ->
  exists res, cbs_pbs w y ok H T opt k partial pbs_b pbs_l n (rows cbs_l (fun r => concat (const_accumulator N (S k) (v r)))) j lwe index = Ret res /\ lwe_wf w (k * N) res /\
    (forall p before, length before = S (k * N) -> cpu_bootstrap p before lwe (const_accumulator N (S k) (v index)) = Ret res) /\
    exists e, Z.abs e <= Z.of_nat (nonzeros (removelast (map (as_double w) lwe))) * ep_error w pbs_b k N pbs_l 1 beta (gpu_error w N pbs_b (pbs_l * S k)) /\
      forall val, (forall x, 2 * Z.abs (2 ^ w * x - 2 * Z.of_nat N * LweSpec.phase w s (map (as_double w) lwe)) <= 2 ^ w * (Z.of_nat n + 1) -> lut_at N (repeat (v index) N) x = val) ->
        LweSpec.phase w big res = (val + e) mod 2 ^ w.
Proof.
  intros (_ & Hmk & _) Hi Hv Wl. pose proof cH1 as HH. pose proof cw32 as W32. pose proof cLbsk as Lb.
  set (m := copied_words LUT (rows cbs_l (fun r => concat (const_accumulator N (S k) (v r)))) (y_memory y j)).
  assert (Hk' : key_at w 0%R 1%R Rplus Rmult Ropp H k pbs_l (key_to_double w) exact_twiddle bsk m) by exact (Hmk j).
  pose proof (table_in_rows v index (y_memory y j) Hi) as Ht. fold m in Ht.
  assert (Wp : poly_wf w N (repeat (v index) N)) by (split; [apply repeat_length|apply Forall_forall; intros a Ha; apply repeat_spec in Ha; subst; apply Hv]).
  destruct (C61_lookup w ok size H T opt Hw Hshape Hvars Hmem pbs_b pbs_l key beta bsk s (repeat (v index) N) lwe partial (index * N * (k + 1)) 0 (y_pbs y j) m) as (m' & r & e & El & Hr & Wr & He & _ & Hval); try assumption; [apply Hsize; exact Hi|].
  exists r. assert (Lr : length r = S (k * N)) by apply Wr. split; [|split; [exact Wr|split; [|exists e; split; [exact He|exact Hval]]]].
  - unfold cbs_pbs. fold m. rewrite El. cbn [obind]. f_equal. apply (nth_ext _ _ 0 0); [rewrite map_length, seq_length; lia|]. rewrite map_length, seq_length. intros c Hc.
    rewrite nth_seq_map by exact Hc. rewrite <- (Nat.add_0_l c) at 1. rewrite Hr by lia. reflexivity.
  - intros p before Lbf. assert (Hh : copies 0%R Rplus H (/ INR H)%R = 1%R) by (apply copies_inv, HH).
    assert (Wb : Forall (ggsw_wf w k N pbs_l) bsk) by (pose proof Hbsk as HB; unfold bsk_encrypts in HB; clear - HB; revert HB; generalize bsk s; intros bsk0 s0 HB; induction HB as [|G si b0 s1 (HG & _) Hb IH]; constructor; assumption).
    assert (Wt : glwe_wf w k N (repeat (repeat 0 N) k ++ [repeat (v index) N])).
    { apply GlweProofs.glwe_wf_snoc. split; [apply repeat_length|]. split; [|exact Wp]. apply Forall_forall. intros x Hx. apply repeat_spec in Hx. subst x. apply GgswTheorems.zero_poly_wf. lia. }
    destruct (C61_amortized 0%R 1%R Rplus Rmult Rminus Ropp R_ring w ok size H T opt exact_twiddle (/ sqrt 2)%R (/ INR H)%R IZR (key_to_double w) (torus_first w) (torus_second w)
      Hshape Hvars Hmem (exact_table H) exact_first Hh eq_refl (first_zero w Hw) (second_zero w Hw)
      p pbs_b k pbs_l bsk lwe (repeat (repeat 0 N) k ++ [repeat (v index) N]) partial (index * N * (k + 1))%nat 0%nat before (y_pbs y j) m) as (m2 & r2 & El2 & Eb & L2 & Hr2 & _); try assumption.
    + rewrite Lb. exact Hidx.
    + rewrite Lb. apply Wl.
    + apply Wl.
    + rewrite Lb. apply Hsize, Hi.
    + rewrite Lb in El2. rewrite El in El2. injection El2 as <-.
      assert (r2 = r) as <-. { apply (nth_ext _ _ 0 0); [congruence|]. intros c Hc. rewrite L2 in Hc. specialize (Hr c ltac:(lia)). specialize (Hr2 c ltac:(lia)). rewrite Hr in Hr2. injection Hr2 as ->. reflexivity. }
      unfold cpu_bootstrap, const_accumulator. replace (S k - 1)%nat with k by lia. exact Eb.
Qed.
Lemma cbs_pbs_ok y inputs (v : nat -> Z) index j lwe : cbs_hardware_ok inputs y -> (index < cbs_l)%nat -> (forall r, is_word w (v r)) -> lwe_wf w n lwe ->
  exists res, cbs_pbs w y ok H T opt k partial pbs_b pbs_l n (rows cbs_l (fun r => concat (const_accumulator N (S k) (v r)))) j lwe index = Ret res /\ lwe_wf w (k * N) res /\
    forall p before, length before = S (k * N) -> cpu_bootstrap p before lwe (const_accumulator N (S k) (v index)) = Ret res.
Proof. intros Hy Hi Hv Wl. destruct (cbs_pbs_lookup y inputs v index j lwe Hy Hi Hv Wl) as (res & E1 & E2 & E3 & _). exists res. auto. Qed.

Lemma one_shl_eq m s' : 0 <= s' < w -> (m = 2 ^ 32 \/ m = 2 ^ 64) -> one_shl w (s' mod m) = Ret (shl w 1 s').
Proof.
  intros Hs' Hm. assert (w <= 64) by (destruct Hw; lia). assert (X : 64 < m) by (destruct Hm as [-> | ->]; reflexivity). rewrite Z.mod_small by lia.
  unfold one_shl, shl. destruct (Z.ltb_spec s' 64); [|lia]. rewrite Z.mul_1_l. reflexivity.
Qed.
Lemma level_shift r : (r < cbs_l)%nat -> 0 <= w - 1 - cbs_b * Z.of_nat (r + 1) < w.
Proof. intros Hr. assert (cbs_b * Z.of_nat (r + 1) <= cbs_b * Z.of_nat cbs_l) by (apply Z.mul_le_mono_nonneg_l; lia). assert (0 <= cbs_b * Z.of_nat (r + 1)) by (apply Z.mul_nonneg_nonneg; lia). lia. Qed.
Lemma wneg_wsub x : wneg w x = wsub w 0 x.
Proof. reflexivity. Qed.
Lemma cbs_blocks lut (row : nat -> list Z) (f : nat -> list Z) count inputs y : count = (inputs * cbs_l)%nat -> (forall r, (r < count)%nat -> length (row r) = S n) ->
  (forall j, (j < count)%nat -> cbs_pbs w y ok H T opt k partial pbs_b pbs_l n lut j (row j) (j mod cbs_l) = Ret (f j)) ->
  cbs_pbs_blocks w y ok H T opt k partial pbs_b pbs_l n lut (rows count row) (cbs_lut_indexes cbs_l inputs) (seq 0 count) = Ret (rows count f).
Proof.
  intros Ec Hl Hf. unfold rows at 2. assert (G : forall blocks, (forall j, In j blocks -> (j < count)%nat) ->
    cbs_pbs_blocks w y ok H T opt k partial pbs_b pbs_l n lut (rows count row) (cbs_lut_indexes cbs_l inputs) blocks = Ret (concat (map f blocks))).
  { induction blocks as [|j blocks IH]; intros Hb; [reflexivity|]. assert (Hj : (j < count)%nat) by (apply Hb; left; reflexivity). cbn [cbs_pbs_blocks].
    rewrite (CudaFacts.get_some _ _ (j mod cbs_l)%nat).
    2:{ unfold cbs_lut_indexes. rewrite nth_error_map, (nth_error_nth' _ 0%nat) by (rewrite seq_length; lia). rewrite seq_nth by lia. reflexivity. }
    cbn [obind]. rewrite Nat.add_1_r, (row_of count) by assumption. rewrite Hf by exact Hj. cbn [obind]. rewrite IH by (intros; apply Hb; right; assumption). reflexivity. }
  apply G. intros j Hj. apply in_seq in Hj. lia.
Qed.

(** The keys of the functional keyswitch, and the sizes of the launches *)
Context (pf_b : Z) (pf_l : nat) (Ks : list (list (list (list (list Z))))).
Hypothesis (Hdp : dec_wf w (Dec pf_b pf_l)) (HKs : Forall (pfkey_wf w pf_l (k * N) k N) Ks) (LKs : length Ks = S k).
Hypothesis (Hsz : Z.of_nat (S k * N) < 2 ^ 31) (H256 : ((S k * N) mod 256 = 0)%nat).
Definition cbs_gpu (y : cbs_hardware) (delta : Z) (inputs : nat) (out : list Z) (lwes : list (list Z)) : outcome (list Z) :=
  host_circuit_bootstrap w y ok H T opt k partial pbs_b pbs_l n cbs_l cbs_b out (concat lwes) (concat (map flat_key Ks)) (cbs_lut_indexes cbs_l inputs) delta pf_l pf_b inputs.
Definition cbs_cpu (p : profile) (delta : Z) (before : list (list (list (list Z)))) (lwe : list Z) : outcome (list (list (list (list Z)))) :=
  circuit_bootstrap_boolean p w (cpu_bootstrap p) (private_functional_keyswitch_ciphertext p w pf_b pf_l k) N (S k) N (S k) (k * N) N k lwe before cbs_b delta Ks.
Definition ggsw_buffer (before : list (list (list (list Z)))) : Prop :=
  length before = cbs_l /\ Forall (fun lev => length lev = S k /\ Forall (fun o => length o = S k /\ Forall (fun a => length a = N) o) lev) before.

(** What reaches the functional keyswitch *)
Lemma cbs_until_keyswitch y delta inputs out lwes : cbs_hardware_ok inputs y -> 0 <= delta < w -> length lwes = inputs -> Forall (lwe_wf w n) lwes ->
  exists X, length X = (inputs * cbs_l)%nat /\ (forall j, (j < inputs * cbs_l)%nat -> lwe_wf w (k * N) (nth j X [])) /\
    (forall p i t buf, (i < inputs)%nat -> (t < cbs_l)%nat -> length buf = S (k * N) ->
       homomorphic_shift_boolean p w (cpu_bootstrap p) N (S k) buf (nth i lwes []) (1 + Z.of_nat t) cbs_b delta = Ret (nth (i * cbs_l + t) X [])) /\
    cbs_gpu y delta inputs out lwes = host_fp_keyswitch w (y_order y 4) out (concat (map (fun s => nth (s / S k) X []) (seq 0 (inputs * cbs_l * S k)))) (concat (map flat_key Ks))
      (k * N) k N pf_b pf_l (Z.of_nat (inputs * cbs_l * S k)) (S k).
Proof.
  intros Hy Hdl Ll Wl. pose proof cH1 as HH. pose proof cw32 as W32. destruct cT as [HT HoT]. pose proof Hy as (Hord & _ & Lsh & Lfp).
  set (factor := shl w 1 (w - delta - 1)). set (quarter := shl w 1 (w - 2)). set (alpha := fun r : nat => shl w 1 (w - 1 - cbs_b * Z.of_nat (r + 1))).
  set (lwe := fun i => nth i lwes []). assert (Wi : forall i, (i < inputs)%nat -> lwe_wf w n (lwe i)) by (intros i Hi; rewrite Forall_forall in Wl; apply Wl, nth_In; lia).
  set (pre := fun j => bump w n quarter (map (fun v => wmul w v factor) (lwe (j / cbs_l)%nat))).
  assert (Wmap : forall i, (i < inputs)%nat -> length (map (fun v => wmul w v factor) (lwe i)) = S n) by (intros i Hi; rewrite map_length; apply Wi, Hi).
  assert (Hdiv : forall j, (j < inputs * cbs_l)%nat -> (j / cbs_l < inputs)%nat) by (intros j Hj; apply Nat.div_lt_upper_bound; [lia|]; rewrite Nat.mul_comm; exact Hj).
  assert (Wpre : forall j, (j < inputs * cbs_l)%nat -> lwe_wf w n (pre j)).
  { intros j Hj. pose proof (add_to_body_bump w n quarter _ (Wmap _ (Hdiv j Hj))) as E. fold (pre j) in E. split; [unfold pre; apply bump_length|]. unfold pre, bump. apply Forall_map, Forall_forall. intros c Hc. apply in_seq in Hc.
    destruct (Nat.eqb c n); [apply wadd_word; lia|]. assert (F : Forall (is_word w) (map (fun v => wmul w v factor) (lwe (j / cbs_l)%nat))) by (apply Forall_map, Forall_forall; intros v _; apply wmul_word; lia).
    rewrite Forall_forall in F. apply F, nth_In. rewrite Wmap by (apply Hdiv, Hj). lia. }
  set (lut := rows cbs_l (fun r => concat (const_accumulator N (S k) (wneg w (alpha r))))).
  destruct (choose_list (fun j res => cbs_pbs w y ok H T opt k partial pbs_b pbs_l n lut j (pre j) (j mod cbs_l) = Ret res /\ lwe_wf w (k * N) res /\
      forall p before, length before = S (k * N) -> cpu_bootstrap p before (pre j) (const_accumulator N (S k) (wneg w (alpha (j mod cbs_l)%nat))) = Ret res) [] (inputs * cbs_l)) as (res & Lres & Hres).
  { intros j Hj. apply (cbs_pbs_ok y inputs (fun r => wneg w (alpha r)) (j mod cbs_l) j (pre j) Hy); [apply Nat.mod_upper_bound; lia|intros r; apply wneg_word; lia|apply Wpre, Hj]. }
  set (post := fun j => bump w (k * N) (alpha (j mod cbs_l)%nat) (nth j res [])). exists (map post (seq 0 (inputs * cbs_l))).
  assert (Hpost : forall j, (j < inputs * cbs_l)%nat -> nth j (map post (seq 0 (inputs * cbs_l))) [] = post j) by (intros j Hj; apply nth_seq_map, Hj).
  split; [rewrite map_length; apply seq_length|]. split; [|split].
  - intros j Hj. rewrite Hpost by exact Hj. destruct (Hres j Hj) as (_ & [Lr Fr] & _). split; [apply bump_length|]. unfold post, bump. apply Forall_map, Forall_forall. intros c Hc. apply in_seq in Hc.
    destruct (Nat.eqb c (k * N)); [apply wadd_word; lia|]. rewrite Forall_forall in Fr. apply Fr, nth_In. lia.
  - intros p i t buf Hi Ht Lbuf. assert (Hj : (i * cbs_l + t < inputs * cbs_l)%nat) by (assert (S i * cbs_l <= inputs * cbs_l)%nat by (apply Nat.mul_le_mono_r; lia); lia).
    assert (Ej : ((i * cbs_l + t) / cbs_l = i /\ (i * cbs_l + t) mod cbs_l = t)%nat) by (rewrite Nat.add_comm, Nat.div_add, Nat.mod_add, Nat.div_small, Nat.mod_small by lia; auto). destruct Ej as [E1 E2].
    rewrite Hpost by exact Hj. destruct (Hres _ Hj) as (_ & [Lr _] & Hcpu). unfold homomorphic_shift_boolean.
    assert (W64 : w <= 64) by (destruct Hw; lia). pose proof (level_shift t Ht) as Hls. replace (1 + Z.of_nat t) with (Z.of_nat (t + 1)) by lia.
    assert (P64 : 2 ^ usize_bits = 18446744073709551616) by reflexivity.
    rewrite plain_ok by (rewrite P64; lia). cbn [obind]. rewrite plain_ok by (rewrite P64; lia). cbn [obind]. rewrite shl_ok by lia. cbn [obind]. rewrite shl_ok by lia. cbn [obind]. fold factor quarter.
    rewrite (add_to_body_bump w n) by (rewrite map_length; apply (Wi i Hi)). cbn [obind].
    rewrite plain_ok by (rewrite P64; lia). cbn [obind]. rewrite plain_ok by (rewrite P64; lia). cbn [obind]. rewrite shl_ok by lia. cbn [obind]. fold (alpha t).
    replace (bump w n quarter (map (fun x => wmul w x factor) (nth i lwes []))) with (pre (i * cbs_l + t)%nat) by (unfold pre; rewrite E1; reflexivity).
    rewrite <- wneg_wsub. rewrite E2 in Hcpu. rewrite (Hcpu p buf Lbuf). cbn [obind]. rewrite (add_to_body_bump w (k * N)) by exact Lr. unfold post. rewrite E2. reflexivity.
  - unfold cbs_gpu, host_circuit_bootstrap. change (CudaModel.u32 (w - delta - 1)) with ((w - delta - 1) mod 2 ^ 32). rewrite one_shl_eq by (lia || auto). cbn [obind]. fold factor.
    rewrite concat_rows, Ll. fold lwe. rewrite (shift_ok w H T opt k cbs_l HT HoT Hk0 Hcl (y_order y 0) inputs n lwe factor (y_shifted y)) by first [apply Hord|exact Lsh|intros i Hi; apply Wi, Hi]. cbn [obind].
    assert (Eq : one_shl w (w - 2) = Ret quarter) by (unfold quarter, one_shl, shl; rewrite Z.mul_1_l; destruct (Z.ltb_spec (w - 2) 64); [reflexivity|destruct Hw; lia]).
    rewrite Eq. cbn [obind].
    rewrite (add_to_bodies_ok w H T opt k cbs_l HT HoT Hk0 Hcl (y_order y 1) (inputs * cbs_l) n quarter (fun r => map (fun v => wmul w v factor) (lwe (r / cbs_l)%nat))) by first [apply Hord|intros j Hj; apply Wmap, Hdiv, Hj]. cbn [obind]. fold pre.
    rewrite (fill_ok w H T opt k cbs_l HT HoT Hk0 Hcl (y_order y 2) cbs_b alpha) by first [apply Hord|lia|intros r Hr; apply (one_shl_eq (2 ^ 32)); [apply level_shift, Hr|auto]]. cbn [obind]. fold lut.
    rewrite (cbs_blocks lut pre (fun j => nth j res []) (inputs * cbs_l) inputs y eq_refl) by first [intros j Hj; apply (Wpre j Hj)|intros j Hj; apply Hres, Hj]. cbn [obind].
    rewrite (copy_ok w H T opt k cbs_l HT HoT Hk0 Hcl (y_order y 3) cbs_b alpha (inputs * cbs_l) (fun j => nth j res []) (y_fp_input y)) by first [apply Hord|exact Lfp|intros r Hr; apply (one_shl_eq (2 ^ 64)); [apply level_shift, Hr|auto]|intros j Hj; apply Hres, Hj].
    cbn [obind]. rewrite !Nat.add_1_r. f_equal. unfold rows. f_equal. apply map_ext_in. intros r Hr. apply in_seq in Hr. rewrite Hpost; [reflexivity|]. apply Nat.div_lt_upper_bound; lia.
Qed.

Lemma flat_blocks (f : nat -> list (list Z)) inputs : concat (map flat_ggsw (map (fun i => map (fun t => map (fun u => f ((i * cbs_l + t) * S k + u)%nat) (seq 0 (S k))) (seq 0 cbs_l)) (seq 0 inputs)))
  = concat (map (@concat Z) (map f (seq 0 (inputs * cbs_l * S k)))).
Proof.
  rewrite map_map, map_map, <- flat_map_concat_map. rewrite <- (flat_map_concat_map (fun x => concat (f x))). rewrite <- (nested_loops (fun x => concat (f x)) (S k)), <- (nested_loops (fun j => flat_map (fun b => concat (f (j * S k + b)%nat)) (seq 0 (S k))) cbs_l).
  apply flat_map_ext_in. intros i _. unfold flat_ggsw. rewrite concat_concat_map, <- !flat_map_concat_map. generalize (seq 0 cbs_l). induction l as [|t l IH]; [reflexivity|]. cbn [flat_map]. rewrite flat_map_app, IH. f_equal.
  rewrite !flat_map_concat_map, map_map. reflexivity.
Qed.

(** Whatever the orders of the threads and the content of the buffers, every input gives the words of the GGSW ciphertext of the circuit
    bootstrap of the CPU. *)
Theorem C71_as_cpu : forall y delta inputs out lwes, cbs_hardware_ok inputs y -> 0 <= delta < w -> (0 < inputs)%nat -> length lwes = inputs -> Forall (lwe_wf w n) lwes ->
  Z.of_nat (inputs * cbs_l * S k) <= 65535 -> length out = (inputs * cbs_l * S k * (S k * N))%nat ->
  exists Gs, length Gs = inputs /\ cbs_gpu y delta inputs out lwes = Ret (concat (map flat_ggsw Gs)) /\
    forall p i before, (i < inputs)%nat -> ggsw_buffer before -> cbs_cpu p delta before (nth i lwes []) = Ret (nth i Gs []).
Proof.
  intros y delta inputs out lwes Hy Hdl Hi0 Ll Wl Hmax Lout. pose proof cH1 as HH.
  destruct (cbs_until_keyswitch y delta inputs out lwes Hy Hdl Ll Wl) as (X & LX & WX & HX & E).
  set (count := (inputs * cbs_l * S k)%nat) in *. set (cts := map (fun s0 => nth (s0 / S k) X []) (seq 0 count)) in *.
  assert (Lc : length cts = count) by (unfold cts; rewrite map_length; apply seq_length).
  assert (Hc : forall s0, (s0 < count)%nat -> (s0 / S k < inputs * cbs_l)%nat) by (intros s0 Hs0; apply Nat.div_lt_upper_bound; [lia|]; rewrite Nat.mul_comm; exact Hs0).
  assert (Hn : forall s0, (s0 < count)%nat -> nth s0 cts [] = nth (s0 / S k) X []) by (intros s0 Hs0; exact (nth_seq_map (fun s1 => nth (s1 / S k) X []) count s0 [] Hs0)).
  assert (Wc : Forall (lwe_wf w (k * N)) cts) by (unfold cts; apply Forall_map, Forall_forall; intros s0 Hs0; apply in_seq in Hs0; apply WX, Hc; lia).
  assert (Hcp : (0 < count)%nat) by (unfold count; repeat apply Nat.mul_pos_pos; lia).
  assert (HK : forall p, exists goods, length goods = length cts /\
    (forall s0 after, (s0 < length cts)%nat -> length after = S k -> Forall (fun a => length a = N) after ->
       private_functional_keyswitch_ciphertext p w pf_b pf_l k (nth (s0 mod length Ks) Ks []) after (nth s0 cts []) = Ret (nth s0 goods []) /\ glwe_wf w k N (nth s0 goods [])) /\
    host_fp_keyswitch w (y_order y 4) out (concat cts) (concat (map flat_key Ks)) (k * N) k N pf_b pf_l (Z.of_nat (length cts)) (length Ks)
      = Ret (concat (map (@concat Z) goods) ++ skipn (length cts * (S k * N)) out)).
  { intros p. apply (C70_kernel p w pf_b pf_l (k * N) k N Ks cts out (y_order y 4)); try assumption; try lia; [intros ->; discriminate|apply Hy]. }
  rewrite Lc, LKs in HK. destruct (HK Debug) as (goods & Lg & Hg & Ek). rewrite <- Lout, skipn_all, app_nil_r in Ek.
  set (good := fun s0 => nth s0 goods []). assert (Eg : goods = map good (seq 0 count)).
  { apply (nth_ext _ _ [] []); [rewrite map_length, seq_length; exact Lg|]. intros s0 Hs0. rewrite Lg in Hs0. rewrite nth_seq_map by exact Hs0. reflexivity. }
  exists (map (fun i => map (fun t => map (fun u => good ((i * cbs_l + t) * S k + u)%nat) (seq 0 (S k))) (seq 0 cbs_l)) (seq 0 inputs)).
  split; [rewrite map_length; apply seq_length|]. split; [rewrite E, Ek, flat_blocks; fold count; rewrite <- Eg; reflexivity|].
  intros p i before Hi (Lbf & Fbf). rewrite nth_seq_map by exact Hi. destruct (HK p) as (goods' & Lg' & Hg' & Ek').
  assert (Same : forall s0, (s0 < count)%nat -> nth s0 goods' [] = good s0).
  { intros s0 Hs0. rewrite <- Lout, skipn_all, app_nil_r in Ek'. rewrite Ek in Ek'. injection Ek' as Ec.
    set (zeros := repeat (repeat 0 N) (S k)). assert (Z1 : length zeros = S k) by apply repeat_length.
    assert (Z2 : Forall (fun a => length a = N) zeros) by (apply Forall_forall; intros a Ha; apply repeat_spec in Ha; rewrite Ha; apply repeat_length).
    assert (W1 : forall s1, (s1 < count)%nat -> glwe_wf w k N (nth s1 goods [])) by (intros s1 Hs1; apply (Hg s1 zeros); auto).
    assert (W2 : forall s1, (s1 < count)%nat -> glwe_wf w k N (nth s1 goods' [])) by (intros s1 Hs1; apply (Hg' s1 zeros); auto).
    assert (Fl : forall gs, length gs = count -> (forall s1, (s1 < count)%nat -> glwe_wf w k N (nth s1 gs [])) -> Forall (fun x => length x = (S k * N)%nat) (map (@concat Z) gs)).
    { intros gs Lgs Wgs. apply Forall_map, Forall_forall. intros g Hg0. apply (In_nth _ _ []) in Hg0. destruct Hg0 as (s2 & Hs2 & <-). apply (glwe_lens w k N), Wgs. lia. }
    apply (CudaTheorems.concat_inj (S k * N)) in Ec; [|lia|apply Fl; assumption|apply Fl; assumption].
    destruct (glwe_lens w k N _ (W1 _ Hs0)) as (_ & F1 & _). destruct (glwe_lens w k N _ (W2 _ Hs0)) as (_ & F2 & _).
    apply (CudaTheorems.concat_inj N); [lia|exact F2|exact F1|]. unfold good.
    rewrite <- !(map_nth (@concat Z) _ [] s0). cbn [concat]. rewrite Ec. reflexivity. }
  unfold cbs_cpu. rewrite (circuit_bootstrap_value p w (cpu_bootstrap p) (private_functional_keyswitch_ciphertext p w pf_b pf_l k) k N Ks (nth i lwes []) cbs_b delta before
    (fun t => nth (i * cbs_l + t) X []) (fun t u => good ((i * cbs_l + t) * S k + u)%nat)); try assumption; try lia.
  - rewrite Lbf. reflexivity.
  - rewrite Lbf. intros t buf Ht Lbuf. split; [apply HX; assumption|]. apply WX. assert (S i * cbs_l <= inputs * cbs_l)%nat by (apply Nat.mul_le_mono_r; lia). lia.
  - rewrite Lbf. intros t u kk o Ht Hu [Lo Fo]. assert (Hj : (i * cbs_l + t < inputs * cbs_l)%nat) by (assert (S i * cbs_l <= inputs * cbs_l)%nat by (apply Nat.mul_le_mono_r; lia); lia).
    assert (Hu' : (u < S k)%nat) by (rewrite <- LKs; apply nth_error_Some; congruence). set (j := (i * cbs_l + t)%nat) in *.
    assert (Hs0 : (j * S k + u < count)%nat) by (unfold count; assert (S j * S k <= inputs * cbs_l * S k)%nat by (apply Nat.mul_le_mono_r; lia); lia).
    destruct (Hg' _ o Hs0 Lo Fo) as [Er _]. rewrite Hn in Er by exact Hs0. rewrite Nat.add_comm, Nat.div_add, Nat.mod_add, Nat.div_small, Nat.mod_small in Er by lia. cbn [Nat.add] in Er.
    rewrite (nth_error_nth _ _ _ Hu) in Er. rewrite Er. rewrite Nat.add_comm. f_equal. apply Same. first [exact Hs0|rewrite Nat.add_comm; exact Hs0].
Qed.

(** A launch of more than 65535 rows of blocks fails and no error is reported: the GGSW ciphertexts are not written. *)
Theorem C71_many_inputs_refuted : forall y delta inputs out lwes, cbs_hardware_ok inputs y -> 0 <= delta < w -> length lwes = inputs -> Forall (lwe_wf w n) lwes ->
  65535 < Z.of_nat (inputs * cbs_l * S k) -> cbs_gpu y delta inputs out lwes = Ret out.
Proof.
  intros y delta inputs out lwes Hy Hdl Ll Wl Hmax. destruct (cbs_until_keyswitch y delta inputs out lwes Hy Hdl Ll Wl) as (X & _ & _ & _ & ->).
  unfold host_fp_keyswitch. destruct (Z.leb_spec (Z.of_nat (inputs * cbs_l * S k)) 65535); [lia|]. rewrite andb_false_r. reflexivity.
Qed.

(** The margin of the sign, as for the bits (C69), and the keys of the keyswitch *)
Hypothesis (HM : 2 ^ w * (Z.of_nat n + 1) <= 4 * Z.of_nat N * (M - (Z.of_nat n + 1) * rounding w)).
Context (beta_pf : Z).
Hypothesis (Hbeta_pf : 0 <= beta_pf) (Hkeys : cbs_keys_encrypt w pf_b pf_l N key big beta_pf Ks).

Lemma cpu_sign_bootstraps p inputs y : cbs_hardware_ok inputs y -> sign_bootstraps w N (S k) s big M cbs_bootstrap_noise (cpu_bootstrap p).
Proof.
  intros Hy out lwe v Lo Wl Hv. pose proof cH1 as HH. pose proof cw32 as W32. rewrite cLbig in *.
  destruct (cbs_pbs_lookup y inputs (fun _ => v) 0 0 lwe Hy Hcl (fun _ => Hv) Wl) as (r & _ & Wr & Ecpu & e & He & Hval). cbv beta in *.
  exists r, e. split; [apply Ecpu, Lo|]. split; [exact Wr|]. split.
    + unfold cbs_bootstrap_noise. eapply Z.le_trans; [exact He|]. apply Z.mul_le_mono_nonneg_r.
      * unfold ep_error, gpu_error. destruct Hd as (D1 & D2 & D3 & D4). cbn [base_log level_count] in *.
        assert (0 <= 2 ^ (pbs_b - 1)) by (apply Z.pow_nonneg; lia). assert (0 <= 2 ^ (w - pbs_b * Z.of_nat pbs_l - 1)) by (apply Z.pow_nonneg; lia).
        destruct (w =? 32); repeat (apply Z.add_nonneg_nonneg || apply Z.mul_nonneg_nonneg || lia).
      * pose proof (nonzeros_le (removelast (map (as_double w) lwe))) as L. assert (length (removelast (map (as_double w) lwe)) = n); [|lia].
        destruct Wl as [Lw _]. destruct (snoc_dec lwe n Lw) as (m & y0 & -> & Lm). rewrite map_app. cbn [map]. rewrite removelast_last, map_length. exact Lm.
    + destruct (rounded_phase w s lwe Hw Hs Wl) as (er & Her & Hph). set (rd := map (as_double w) lwe) in *.
      pose proof (phase_word w s rd ltac:(lia)) as Pr. set (pr := phase w s rd) in *. set (ph := phase w s lwe) in *. clearbody pr ph. set (D := (Z.of_nat n + 1) * rounding w) in *.
      pose proof (pow2_pos w ltac:(lia)) as Hp. pose proof (half_double w ltac:(lia)) as Hh.
      assert (HD : 0 <= M - D).
      { clear - HM Hp HH. assert (0 <= 2 ^ w * (Z.of_nat n + 1)) by (apply Z.mul_nonneg_nonneg; lia). destruct (Z.le_gt_cases 0 (M - D)) as [X|X]; [exact X|]. assert (4 * Z.of_nat N * (M - D) < 0) by (apply Z.mul_pos_neg; lia). lia. }
      assert (Ex : D <= M -> M <= ph < 2 ^ w - M -> pr = ph + er).
      { intros _ X. unfold eqm in Hph. rewrite (Z.mod_small pr) in Hph by exact Pr. rewrite Z.mod_small in Hph by (clear - X Her HD; lia). exact Hph. }
      split; intros X.
      * assert (E : pr = ph + er) by (apply Ex; clear - X HD Hh Hp; lia). rewrite (Hval v); [apply eqm_mod|]. intros j Hj. apply (WopBitsTheorems.lut_const N v j ltac:(lia)).
        assert (Y : M - D <= pr < 2 ^ (w - 1) - (M - D)) by (clear - E Her X; lia). clear - Hj Y HM Hp Hh HH. set (G := M - D) in *. clearbody G. nia.
      * assert (E : pr = ph + er) by (apply Ex; clear - X HD Hh Hp; lia). rewrite (Hval (- v)); [apply eqm_mod|]. intros j Hj. apply (WopBitsTheorems.lut_const N v j ltac:(lia)).
        assert (Y : 2 ^ (w - 1) + (M - D) <= pr < 2 ^ w - (M - D)) by (clear - E Her X; lia). clear - Hj Y HM Hp Hh HH. set (G := M - D) in *. clearbody G. nia.
Qed.

Notation cbs_noise := (cbs_error w pf_b (k * N) pf_l beta_pf cbs_bootstrap_noise).
Lemma cpu_encrypts p inputs y lwe before delta m err e0 : cbs_hardware_ok inputs y -> 0 <= delta < w -> ggsw_buffer before ->
  lwe_wf w n lwe -> phase w s lwe = (m * 2 ^ delta + err) mod 2 ^ w -> Z.abs err <= e0 -> e0 * 2 ^ (w - delta - 1) + M < 2 ^ (w - 2) ->
  exists G, cbs_cpu p delta before lwe = Ret G /\ ggsw_wf w k N cbs_l G /\
    exists noise, ggsw_encrypts w cbs_b N key (m mod 2) noise G /\
      forall j i, (j < cbs_l)%nat -> (i <= k)%nat -> rbound (2 ^ w) cbs_noise (R N (noise (S j) i)).
Proof.
  intros Hy Hdl (Lbf & Fl) Wl Hph Herr Hmar. pose proof cLbig as Lb. pose proof cw32 as W32. pose proof cH1 as HH. pose proof Hd as (_ & _ & _ & Hw64).
  assert (HM0 : 0 <= M).
  { pose proof (pow2_pos w ltac:(lia)) as Hp. assert (0 <= (Z.of_nat n + 1) * rounding w) by (apply Z.mul_nonneg_nonneg; [lia|]; unfold rounding; destruct (w =? 64); lia).
    set (D := (Z.of_nat n + 1) * rounding w) in *. clearbody D. clear - HM Hp HH H0. assert (0 <= 2 ^ w * (Z.of_nat n + 1)) by (apply Z.mul_nonneg_nonneg; lia). destruct (Z.le_gt_cases 0 (M - D)) as [X|X]; [lia|]. assert (4 * Z.of_nat N * (M - D) < 0) by (apply Z.mul_pos_neg; lia). lia. }
  set (P := fun u => if Nat.ltb u k then ropp (R N (nth u key [])) else rone N).
  set (Epf := Z.of_nat (S (k * N)) * 2 ^ (w - pf_b * Z.of_nat pf_l - 1) * 1 + Z.of_nat (S (k * N)) * (Z.of_nat pf_l * (2 ^ (pf_b - 1) * beta_pf))).
  assert (HPb : forall u, (u <= k)%nat -> rbound (2 ^ w) 1 (P u)).
  { intros u Hu. unfold P. destruct (Nat.ltb_spec u k).
    - apply rbound_opp. pose proof Hkey as HK0. unfold binary_key in HK0. rewrite Forall_forall in HK0. destruct (HK0 (nth u key [])) as [Lu Fu]; [apply nth_In; assumption|].
      apply rbound_R; [exact Lu|]. eapply Forall_impl; [|exact Fu]. intros x Hx. exists x. split; [reflexivity|destruct Hx; lia].
    - intros x Hx. exists (rcoef (rone N) x). split; [reflexivity|]. unfold rone. rewrite rcoef_rconst by exact Hx. destruct (x =? 0); lia. }
  assert (HP : forall u kk, nth_error Ks u = Some kk ->
     multiplies w N key big (P u) Epf (private_functional_keyswitch_ciphertext p w pf_b pf_l k kk)).
  { intros u kk Hu out lw Lo Fo Wlw. destruct Hkeys as [Lk Hk]. destruct (Hk u kk Hu) as (noise & Henc & Hn).
    assert (Hu' : (u <= k)%nat) by (assert ((u < length Ks)%nat) by (apply nth_error_Some; congruence); lia).
    destruct (C32_keyswitch_error_bound p w pf_b pf_l N key big (P u) noise 1 beta_pf kk out lw) as (res & E1 & W & Hr); try assumption; try lia.
    - apply (binary_big N). exact Hkey.
    - apply HPb. exact Hu'.
    - exists res. split; [exact E1|]. split; [exact W|]. rewrite Lb in Hr. exact Hr. }
  unfold cbs_cpu.
  destruct (circuit_bootstrap_ok p w N (S k) s big M cbs_bootstrap_noise (cpu_bootstrap p) ltac:(lia) Hw64 HM0 (cpu_sign_bootstraps p inputs y Hy)
     (private_functional_keyswitch_ciphertext p w pf_b pf_l k) N key Epf Ks P 1 HP LKs ltac:(lia) HPb cbs_b delta m err e0 lwe)
    with (levs := before) as (G & E1 & LG & FG & HG); try assumption; try lia.
  - rewrite Hph. apply eqm_mod.
  - rewrite Lb in E1. rewrite Lbf in LG. exists G. split; [exact E1|]. split.
    { split; [exact LG|]. apply Forall_forall. intros lev Hlev. split; [rewrite Forall_forall in FG; apply FG; exact Hlev|].
      apply Forall_forall. intros row Hrow. apply In_nth_error in Hlev. destruct Hlev as [j Hj]. apply In_nth_error in Hrow. destruct Hrow as [u Hu].
      apply (HG j lev u row Hj Hu). }
    set (V := fun j i => ggsw_row_value w cbs_b N key (m mod 2) j i).
    assert (HV : forall j u, (u <= k)%nat -> req (2 ^ w) (rscal (m mod 2 * 2 ^ (w - cbs_b * Z.of_nat j)) (P u)) (V j u)).
    { intros j u Hu. unfold V, P, ggsw_row_value. destruct (Nat.ltb_spec u k) as [Hlt|Hge].
      - rewrite (nth_error_nth' key [] Hlt). intros x. apply eqm_eq.
        set (c := m mod 2 * _). change (c * - rcoef (R N (nth u key [])) x = - c * rcoef (R N (nth u key [])) x). ring.
      - replace (nth_error key u) with (@None (list Z)) by (symmetry; apply nth_error_None; exact Hge).
        apply req_coefs. intros x Hx. apply eqm_eq. set (c := m mod 2 * _). change (c * rcoef (rone N) x = rcoef (rconst N c) x).
        unfold rone. rewrite !rcoef_rconst by exact Hx. destruct (x =? 0); ring. }
    set (noise := fun j i => coefs (rsub (gphase N key (nth i (nth (j - 1) G []) [])) (V j i))).
    exists noise. split.
    + intros j lev i row Hj Hi. unfold noise. rewrite <- R_coefs_list. replace (S j - 1)%nat with j by lia.
      rewrite (nth_error_nth _ _ _ Hj), (nth_error_nth _ _ _ Hi). fold (V (S j) i). intros x. apply eqm_eq. cbn. ring.
    + intros j i Hj Hi. unfold noise. eapply rbound_req; [apply R_coefs_list|]. replace (S j - 1)%nat with j by lia.
      assert (Hj' : nth_error G j = Some (nth j G [])) by (apply nth_error_nth'; lia).
      assert (Hi' : nth_error (nth j G []) i = Some (nth i (nth j G []) [])).
      { apply nth_error_nth'. rewrite Forall_forall in FG. rewrite (FG (nth j G [])) by (apply nth_In; lia). lia. }
      destruct (HG _ _ _ _ Hj' Hi') as [_ Hr]. eapply rbound_le; [|eapply rbound_req; [|exact Hr]].
      * unfold Epf, cbs_error. rewrite !Z.mul_1_r. lia.
      * intros x. change (eqm (2 ^ w) (rcoef (gphase N key (nth i (nth j G []) [])) x - rcoef (rscal (m mod 2 * 2 ^ (w - cbs_b * Z.of_nat (S j))) (P i)) x)
          (rcoef (gphase N key (nth i (nth j G []) [])) x - rcoef (V (S j) i) x)). rewrite (HV (S j) i Hi x). reflexivity.
Qed.

(** What is written is, for each input, a GGSW ciphertext of the low bit of its message, with the noise of one bootstrap and one functional
    keyswitch. *)
Theorem C71_circuit_bootstrap : forall y delta inputs out lwes ms errs e0, cbs_hardware_ok inputs y -> 0 <= delta < w -> (0 < inputs)%nat -> length lwes = inputs -> Forall (lwe_wf w n) lwes ->
  Z.of_nat (inputs * cbs_l * S k) <= 65535 -> length out = (inputs * cbs_l * S k * (S k * N))%nat ->
  (forall i, (i < inputs)%nat -> phase w s (nth i lwes []) = (nth i ms 0 * 2 ^ delta + nth i errs 0) mod 2 ^ w /\ Z.abs (nth i errs 0) <= e0) ->
  e0 * 2 ^ (w - delta - 1) + M < 2 ^ (w - 2) ->
  exists Gs, length Gs = inputs /\ cbs_gpu y delta inputs out lwes = Ret (concat (map flat_ggsw Gs)) /\
    forall i, (i < inputs)%nat -> ggsw_wf w k N cbs_l (nth i Gs []) /\
      exists noise, ggsw_encrypts w cbs_b N key (nth i ms 0 mod 2) noise (nth i Gs []) /\
        forall j u, (j < cbs_l)%nat -> (u <= k)%nat -> rbound (2 ^ w) cbs_noise (R N (noise (S j) u)).
Proof.
  intros y delta inputs out lwes ms errs e0 Hy Hdl Hi0 Ll Wl Hmax Lout Hms Hmar. destruct (C71_as_cpu y delta inputs out lwes Hy Hdl Hi0 Ll Wl Hmax Lout) as (Gs & LG & E & Hcpu).
  exists Gs. split; [exact LG|]. split; [exact E|]. intros i Hi. destruct (Hms i Hi) as [Hph Herr].
  set (before := repeat (repeat (repeat (repeat 0 N) (S k)) (S k)) cbs_l).
  assert (Hb : ggsw_buffer before).
  { split; [apply repeat_length|]. apply Forall_forall. intros lev Hlev. apply repeat_spec in Hlev. rewrite Hlev. split; [apply repeat_length|]. apply Forall_forall. intros o Ho. apply repeat_spec in Ho. rewrite Ho.
    split; [apply repeat_length|]. apply Forall_forall. intros a Ha. apply repeat_spec in Ha. rewrite Ha. apply repeat_length. }
  assert (Wi : lwe_wf w n (nth i lwes [])) by (rewrite Forall_forall in Wl; apply Wl, nth_In; lia).
  destruct (cpu_encrypts Debug inputs y (nth i lwes []) before delta (nth i ms 0) (nth i errs 0) e0 Hy Hdl Hb Wi Hph Herr Hmar) as (G & Eg & Res).
  rewrite (Hcpu Debug i before Hi Hb) in Eg. injection Eg as ->. exact Res.
Qed.
End Cbs.
Print Assumptions C71_as_cpu.
Print Assumptions C71_many_inputs_refuted.
Print Assumptions C71_circuit_bootstrap.

(** A case: the keys of C69, two inputs, GGSW ciphertexts of two levels, noise below the smallest weight of the levels *)
Definition cb_row (c : Z) (q : list Z) : list (list Z) := repeat (repeat 0 256) (length ex_key) ++ [map (fun a => (c * a) mod 2 ^ 64) q].
Definition cb_fpk (sign : Z) (q : list Z) : list (list (list (list Z))) :=
  map (fun x => [cb_row (sign * (x * 2 ^ 44)) q; cb_row (sign * (x * 2 ^ 24)) q]) (glwe_key_into_lwe_key ex_key ++ [-1]).
Definition cb_keys : list (list (list (list (list Z)))) := [cb_fpk (-1) (nth 0 ex_key []); cb_fpk 1 (ex_const 1)].
Definition cb_hardware : cbs_hardware := CbsHardware (fun _ t => rev (seq 0 t)) (fun _ => [3; 1; 2]%nat) (fun _ => ex_memory) (repeat 5 (2 * 2 * 129)) (repeat 9 (2 * 2 * 2 * 257)).
Definition cb_lwes : list (list Z) := [repeat (2 ^ 62) 128 ++ [2 ^ 63 + 5]; repeat (2 ^ 60) 128 ++ [3]].

Lemma cb_row_ok c q : length q = 256%nat -> glwe_wf 64 (length ex_key) 256 (cb_row c q) /\ req (2 ^ 64) (gphase 256 ex_key (cb_row c q)) (rscal c (R 256 q)).
Proof.
  intros L. unfold cb_row. split.
  - apply GlweProofs.glwe_wf_snoc. split; [apply repeat_length|]. split; [|split; [rewrite map_length; exact L|]].
    + apply Forall_forall. intros x Hx. apply repeat_spec in Hx. rewrite Hx. split; [reflexivity|apply zeros_words].
    + apply Forall_map, Forall_forall. intros a _. apply Z.mod_pos_bound. reflexivity.
  - rewrite gphase_trivial. apply R_scal; [rewrite Z.mul_0_r; reflexivity|]. intros a. apply eqm_mod.
Qed.
Lemma cb_fpk_ok sign q P : length q = 256%nat -> req (2 ^ 64) (rscal sign (R 256 q)) P ->
  gksk_encrypts 64 20 2 256 ex_key (glwe_key_into_lwe_key ex_key ++ [-1]) P (fun _ _ => rzero 256) (cb_fpk sign q).
Proof.
  intros L HP. unfold cb_fpk. generalize (glwe_key_into_lwe_key ex_key ++ [-1]). intros l. split; [apply map_length|]. intros i block Hi. rewrite nth_error_map in Hi. destruct (nth_error l i) as [v|] eqn:Ev; [|discriminate]. injection Hi as <-.
  rewrite (nth_error_nth _ _ 0 Ev). split; [reflexivity|].
  assert (X : forall c, req (2 ^ 64) (rscal (sign * c) (R 256 q)) (radd (rscal c P) (rzero 256))).
  { intros c. rewrite <- HP. generalize (R 256 q). intros Y x. apply eqm_eq. change (sign * c * rcoef Y x = c * (sign * rcoef Y x) + 0). ring. }
  intros j row Hj. destruct j as [|[|j]]; [| |destruct j; discriminate]; injection Hj as <-.
  - destruct (cb_row_ok (sign * (v * 2 ^ 44)) q L) as [W Hg]. split; [exact W|]. rewrite Hg. change (64 - 20 * (Z.of_nat 0 + 1)) with 44. apply X.
  - destruct (cb_row_ok (sign * (v * 2 ^ 24)) q L) as [W Hg]. split; [exact W|]. rewrite Hg. change (64 - 20 * (Z.of_nat 1 + 1)) with 24. apply X.
Qed.
Lemma cb_minus (Y : rp 256) : req (2 ^ 64) (rscal (-1) Y) (ropp Y).
Proof. intros x. apply eqm_eq. change (-1 * rcoef Y x = - rcoef Y x). ring. Qed.
Lemma cb_keys_ok : cbs_keys_encrypt 64 20 2 256 ex_key (glwe_key_into_lwe_key ex_key) 0 cb_keys.
Proof.
  split; [reflexivity|]. intros u ksk Hu. exists (fun _ _ => rzero 256). split; [|intros i j _ _; apply rbound_zero].
  destruct u as [|[|u]]; [| |destruct u; discriminate]; injection Hu as <-; apply cb_fpk_ok; try reflexivity.
  - change (Nat.ltb 0 (length ex_key)) with true. cbv iota. apply cb_minus.
  - change (Nat.ltb 1 (length ex_key)) with false. cbv iota. unfold ex_const. pose proof (PackingTheorems.R_first 256 (2 ^ 64) 1 ltac:(lia)) as E. change (256 - 1)%nat with 255%nat in E. unfold rone. rewrite E.
    generalize (rconst 256 1). intros Y x. apply eqm_eq. change (1 * rcoef Y x = rcoef Y x). ring.
Qed.
Lemma cb_hardware_ok : cbs_hardware_ok 64 128 ex_s ex_key 1 ex_bsk 2 2 cb_hardware.
Proof.
  split; [intros j t; apply Permutation_sym, Permutation_rev|]. split; [|split; reflexivity].
  intros j. exact (proj2 (layout_ok 64 0%R 1%R Rplus Rmult Ropp 128 1 1 0 (key_to_double 64) exact_twiddle ex_bsk [])).
Qed.
Lemma cb_bits i : (i < 2)%nat -> nth i [1; 0] 0 mod 2 = nth i [1; 0] 0.
Proof. intros Hi. destruct i as [|[|i]]; [reflexivity|reflexivity|lia]. Qed.
Example C71_case : cbs_hardware_ok 64 128 ex_s ex_key 1 ex_bsk 2 2 cb_hardware /\ cbs_keys_encrypt 64 20 2 256 ex_key (glwe_key_into_lwe_key ex_key) 0 cb_keys /\
  cbs_error 64 20 256 2 0 (cbs_bootstrap_noise 64 128 ex_s ex_key 20 1 0) < 2 ^ 60 /\
  exists Gs, cbs_gpu 64 (fun _ => true) 128 64 2 false ex_s ex_key 20 1 2 2 20 2 cb_keys cb_hardware 63 2 (repeat 0 4096) cb_lwes = Ret (concat (map flat_ggsw Gs)) /\ length Gs = 2%nat /\
    forall i, (i < 2)%nat -> exists noise, ggsw_encrypts 64 2 256 ex_key (nth i [1; 0] 0) noise (nth i Gs []) /\
      forall j u, (j < 2)%nat -> (u <= 1)%nat -> rbound (2 ^ 64) (2 ^ 60) (R 256 (noise (S j) u)).
Proof.
  assert (Hn : cbs_error 64 20 256 2 0 (cbs_bootstrap_noise 64 128 ex_s ex_key 20 1 0) < 2 ^ 60) by (vm_compute; reflexivity).
  split; [exact cb_hardware_ok|]. split; [exact cb_keys_ok|]. split; [exact Hn|].
  destruct (C71_circuit_bootstrap 64 (fun _ => true) ex_size 128 64 2 false ex_s ex_key 20 1 0 ex_bsk ex_M) with (cbs_b := 2) (cbs_l := 2%nat) (pf_b := 20) (pf_l := 2%nat) (Ks := cb_keys) (beta_pf := 0)
    (y := cb_hardware) (delta := 63) (inputs := 2%nat) (out := repeat 0 4096) (lwes := cb_lwes) (ms := [1; 0]) (errs := [5; 3]) (e0 := 1000) as (Gs & L & E & X).
  - right. reflexivity.
  - split; [lia|]. split; [reflexivity|]. split; [reflexivity|]. exists 7%nat. split; [lia|reflexivity].
  - intros t r. reflexivity.
  - intros b i _. split; [reflexivity|]. intros. reflexivity.
  - lia.
  - unfold dec_wf. cbn [base_log level_count]. lia.
  - lia.
  - vm_compute. reflexivity.
  - lia.
  - exact ex_binary.
  - cbn. lia.
  - apply Forall_forall. intros z Hz. apply repeat_spec in Hz. right. exact Hz.
  - exact ex_bsk_ok.
  - lia.
  - lia.
  - lia.
  - intros index Hi. change (length ex_key) with 1%nat. change (length ex_s) with 128%nat. unfold enough_memory, ex_size. assert (C : index = 0%nat \/ index = 1%nat) by lia. destruct C as [-> | ->]; lia.
  - unfold dec_wf. cbn [base_log level_count]. lia.
  - destruct cb_keys_ok as [_ HK]. apply Forall_forall. intros K HKin. apply In_nth_error in HKin. destruct HKin as [u Hu]. destruct (HK u K Hu) as (noise & [L Hr] & _). split; [exact L|].
    apply Forall_forall. intros bl Hbl. apply In_nth_error in Hbl. destruct Hbl as [i Hi]. destruct (Hr i bl Hi) as [Lb Hj]. split; [exact Lb|]. apply Forall_forall. intros row Hrow. apply In_nth_error in Hrow. destruct Hrow as [j Hjr]. apply (Hj j row Hjr).
  - reflexivity.
  - vm_compute. reflexivity.
  - reflexivity.
  - vm_compute. discriminate.
  - lia.
  - exact cb_keys_ok.
  - exact cb_hardware_ok.
  - lia.
  - lia.
  - reflexivity.
  - assert (W : forall a b, is_word 64 a -> is_word 64 b -> lwe_wf 64 128 (repeat a 128 ++ [b])).
    { intros a b Ha Hb. split; [rewrite app_length, repeat_length; reflexivity|]. apply Forall_app. split; [apply Forall_forall; intros z Hz; apply repeat_spec in Hz; rewrite Hz; exact Ha|constructor; [exact Hb|constructor]]. }
    constructor; [|constructor; [|constructor]]; apply W; split; vm_compute; (reflexivity || discriminate).
  - vm_compute. discriminate.
  - rewrite repeat_length. reflexivity.
  - intros i Hi. assert (C : i = 0%nat \/ i = 1%nat) by lia. destruct C as [-> | ->]; (split; [vm_compute; reflexivity|cbn; lia]).
  - vm_compute. reflexivity.
  - exists Gs. split; [exact E|]. split; [exact L|]. intros i Hi. destruct (X i Hi) as (_ & noise & Henc & Hb). exists noise. split.
    + rewrite (cb_bits i Hi) in Henc. exact Henc.
    + intros j u Hj Hu. eapply rbound_le; [|apply (Hb j u Hj Hu)]. apply Z.lt_le_incl. exact Hn.
Qed.
