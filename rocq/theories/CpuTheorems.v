(** * C44, C45, C48, C49: the C interface *)
From Verif Require Import Base Word WordFacts NegaRing PolySpec PolyModel RingSum DecompModel DecompProofs RandomModel CsprngFamily LweSpec LweModel LweProofs LweTheorems GlweSpec GlweModel GlweProofs GlweTheorems
  GgswSpec GgswModel GgswTheorems ExtProdModel ExtProdSpec ExtProdProofs ExtProdTheorems BootstrapModel BootstrapSpec BootstrapTheorems
  SeededModel KeyswitchModel KeyswitchSpec KeyswitchTheorems WopModel WopSpec WopTheorems WopBitsTheorems
  EngineModel EngineSpec EngineTheorems EngineGlweTheorems EngineFftTheorems CpuModel CpuSpec CpuProofs.

Lemma load_zseq {A} (m : Z -> A) ptr n : load m ptr n = map (fun j => m (ptr + j)) (zseq 0 n).
Proof.
  apply nth_ext_error_full. intros i. destruct (Nat.lt_ge_cases i n) as [Hi|Hi].
  - rewrite load_nth by exact Hi. rewrite nth_error_map, nth_error_zseq by exact Hi. reflexivity.
  - rewrite !(proj2 (nth_error_None _ _)); [reflexivity| |]; rewrite ?map_length, ?zseq_length, ?load_length; exact Hi.
Qed.
Lemma holds_at {A} (m : Z -> A) ptr l n : length l = n -> holds m ptr l -> load m ptr n = l.
Proof. intros <-. apply holds_load. Qed.
Lemma loaded_holds {A} (m : Z -> A) ptr l : load m ptr (length l) = l -> holds m ptr l.
Proof. apply holds_load. Qed.

(** ** C44: linear operations *)
Lemma unary_loop f m ct_out ct_in n c : disjoint ct_out (S n) ct_in (S n) -> length c = S n -> holds m ct_in c ->
  let m' := word_loop (fun m _ i => f (m (ct_in + i))) (S n) 0 ct_out m in
  holds m' ct_out (map f c) /\ only_changes ct_out (S n) m m'.
Proof.
  intros D L H. destruct (word_loop_ok (fun m _ i => f (m (ct_in + i))) ct_out (S n) (fun j => f (m (ct_in + j))) m) as [H1 H2].
  - intros m' j Hj Hm. rewrite Hm; [reflexivity|]. intros C. eapply D; [exact C|]. unfold inside. lia.
  - split; [|exact H2]. apply loaded_holds. rewrite map_length, L, H1. rewrite <- (holds_at m ct_in c (S n) L H), load_zseq, map_map. reflexivity.
Qed.
Lemma binary_loop f m ct_out ct_in0 ct_in1 n c0 c1 : disjoint ct_out (S n) ct_in0 (S n) -> disjoint ct_out (S n) ct_in1 (S n) ->
  length c0 = S n -> length c1 = S n -> holds m ct_in0 c0 -> holds m ct_in1 c1 ->
  let m' := word_loop (fun m _ i => f (m (ct_in0 + i)) (m (ct_in1 + i))) (S n) 0 ct_out m in
  holds m' ct_out (map2 f c0 c1) /\ only_changes ct_out (S n) m m'.
Proof.
  intros D0 D1 L0 L1 H0 H1.
  destruct (word_loop_ok (fun m _ i => f (m (ct_in0 + i)) (m (ct_in1 + i))) ct_out (S n) (fun j => f (m (ct_in0 + j)) (m (ct_in1 + j))) m) as [E1 E2].
  - intros m' j Hj Hm. rewrite !Hm; [reflexivity| |]; intros C; [eapply D1|eapply D0]; try exact C; unfold inside; lia.
  - split; [|exact E2]. apply loaded_holds. rewrite map2_length, L0, L1, Nat.min_id, E1.
    rewrite <- (holds_at m ct_in0 c0 (S n) L0 H0), <- (holds_at m ct_in1 c1 (S n) L1 H1), !load_zseq. clear.
    induction (zseq 0 (S n)); [reflexivity|]. cbn [map map2]. congruence.
Qed.

(** Addition: whatever the memory, when the output buffer meets no input buffer (the inputs may meet), the output buffer
    then holds a ciphertext whose decryption is the sum, and nothing else changes. *)
Theorem C44_addition : forall m ct_out ct_in0 ct_in1 n s c0 c1,
  disjoint ct_out (S n) ct_in0 (S n) -> disjoint ct_out (S n) ct_in1 (S n) ->
  holds m ct_in0 c0 -> holds m ct_in1 c1 -> lwe_wf 64 n c0 -> lwe_wf 64 n c1 ->
  let m' := concrete_cpu_add m ct_out ct_in0 ct_in1 n in
  only_changes ct_out (S n) m m' /\
  exists c, holds m' ct_out c /\ lwe_wf 64 n c /\ phase 64 s c = (phase 64 s c0 + phase 64 s c1) mod 2 ^ 64.
Proof.
  intros m ct_out ct_in0 ct_in1 n s c0 c1 D0 D1 H0 H1 [L0 W0] [L1 W1] m'.
  destruct (binary_loop (wadd 64) m ct_out ct_in0 ct_in1 n c0 c1 D0 D1 L0 L1 H0 H1) as [E1 E2]. split; [exact E2|].
  exists (map2 (wadd 64) c0 c1). split; [exact E1|]. split.
  - split; [rewrite map2_length; lia|]. apply words_map2. intros. apply wadd_word. lia.
  - apply (phase_add 64 n); lia.
Qed.
Print Assumptions C44_addition.

Theorem C44_negation : forall m ct_out ct_in n s c,
  disjoint ct_out (S n) ct_in (S n) -> holds m ct_in c -> lwe_wf 64 n c ->
  let m' := concrete_cpu_negate m ct_out ct_in n in
  only_changes ct_out (S n) m m' /\
  exists r, holds m' ct_out r /\ lwe_wf 64 n r /\ phase 64 s r = (- phase 64 s c) mod 2 ^ 64.
Proof.
  intros m ct_out ct_in n s c D H [L W] m'. destruct (unary_loop (wneg 64) m ct_out ct_in n c D L H) as [E1 E2]. split; [exact E2|].
  exists (map (wneg 64) c). split; [exact E1|]. apply C19_opposite; lia.
Qed.
Print Assumptions C44_negation.

Theorem C44_cleartext_multiplication : forall m ct_out ct_in a n s c,
  disjoint ct_out (S n) ct_in (S n) -> holds m ct_in c -> lwe_wf 64 n c ->
  let m' := concrete_cpu_mul_cleartext m ct_out ct_in a n in
  only_changes ct_out (S n) m m' /\
  exists r, holds m' ct_out r /\ lwe_wf 64 n r /\ phase 64 s r = (a * phase 64 s c) mod 2 ^ 64.
Proof.
  intros m ct_out ct_in a n s c D H [L W] m'. destruct (unary_loop (fun x => wmul 64 x a) m ct_out ct_in n c D L H) as [E1 E2]. split; [exact E2|].
  exists (map (fun x => wmul 64 x a) c). split; [exact E1|].
  destruct (C19_cleartext_multiplication Debug 64 n s c c a) as (A1 & A2 & _); try lia. split; [exact A1|exact A2].
Qed.
Print Assumptions C44_cleartext_multiplication.

(** Plaintext addition adds the plaintext to the mask too: the decryption moves by the plaintext times 1 minus the sum of the key
    bits. *)
Lemma phase_add_everywhere s n c x : length s = n -> length c = S n ->
  phase 64 s (map (fun y => wadd 64 y x) c) = (phase 64 s c + x * (1 - fold_right Z.add 0 s)) mod 2 ^ 64.
Proof.
  intros Ls Lc. destruct (snoc_dec c n Lc) as (mask & b & -> & Lm). rewrite map_app. cbn [map].
  apply phase_eq. rewrite raw_snoc, phase_eqm, raw_snoc, wadd_eqm.
  assert (E : forall s mask, length mask = length s -> eqm (2 ^ 64) (dot (map (fun y => wadd 64 y x) mask) s) (dot mask s + x * fold_right Z.add 0 s)).
  { clear. induction s as [|t s IH]; intros [|a mask] L; try discriminate; cbn [map dot fold_right]; [apply eqm_eq; ring|].
    rewrite IH by (cbn in L; lia). rewrite wadd_eqm. apply eqm_eq. ring. }
  rewrite E by lia. apply eqm_eq. ring.
Qed.
Theorem C44_plaintext_addition_effect : forall m ct_out ct_in x n s c, length s = n ->
  disjoint ct_out (S n) ct_in (S n) -> holds m ct_in c -> lwe_wf 64 n c ->
  let m' := concrete_cpu_add_plaintext m ct_out ct_in x n in
  only_changes ct_out (S n) m m' /\
  exists r, holds m' ct_out r /\ lwe_wf 64 n r /\ phase 64 s r = (phase 64 s c + x * (1 - fold_right Z.add 0 s)) mod 2 ^ 64.
Proof.
  intros m ct_out ct_in x n s c Ls D H [L W] m'. destruct (unary_loop (fun y => wadd 64 y x) m ct_out ct_in n c D L H) as [E1 E2]. split; [exact E2|].
  exists (map (fun y => wadd 64 y x) c). split; [exact E1|]. split.
  - split; [rewrite map_length; exact L|]. apply words_map. intros. apply wadd_word. lia.
  - apply phase_add_everywhere with (n := n); assumption.
Qed.
Print Assumptions C44_plaintext_addition_effect.
(** It adds the plaintext exactly when the plaintext times the number of key bits that are 1 is a multiple of 2^64: with a
    binary key of fewer than 2^64 bits that is not zero, never for an odd plaintext, and with one bit set never at all unless the
    plaintext is 0. *)
Theorem C44_plaintext_addition_refuted : forall m ct_out ct_in x n s c, length s = n ->
  disjoint ct_out (S n) ct_in (S n) -> holds m ct_in c -> lwe_wf 64 n c ->
  (exists r, holds (concrete_cpu_add_plaintext m ct_out ct_in x n) ct_out r /\ length r = S n /\ phase 64 s r = (phase 64 s c + x) mod 2 ^ 64)
  <-> (x * fold_right Z.add 0 s) mod 2 ^ 64 = 0.
Proof.
  intros m ct_out ct_in x n s c Ls D H W.
  destruct (C44_plaintext_addition_effect m ct_out ct_in x n s c Ls D H W) as (_ & r & Hr & [Lr _] & Pr). split.
  - intros (r' & Hr' & Lr' & Pr').
    assert (r' = r) by (rewrite <- (holds_at _ _ r (S n) Lr Hr); rewrite <- (holds_at _ _ r' (S n) Lr' Hr'); reflexivity). subst r'.
    rewrite Pr in Pr'. set (S0 := fold_right Z.add 0 s) in *.
    assert (E : eqm (2 ^ 64) (x * S0) ((phase 64 s c + x) - (phase 64 s c + x * (1 - S0)))) by (apply eqm_eq; ring).
    unfold eqm in E. rewrite E. rewrite Zminus_mod, Pr', Z.sub_diag. reflexivity.
  - intros E. exists r. split; [exact Hr|]. split; [exact Lr|]. rewrite Pr. set (S0 := fold_right Z.add 0 s) in *.
    replace (phase 64 s c + x * (1 - S0)) with ((phase 64 s c + x) - x * S0) by ring. rewrite Zminus_mod, E, Z.sub_0_r, Z.mod_mod by lia. reflexivity.
Qed.
Print Assumptions C44_plaintext_addition_refuted.

(** The memory of the examples: ciphertexts under (1, 1, 0) at addresses 0 and 4; everything else is 77. *)
Definition demo_mem : Z -> Z := store (fun _ => 77) 0 [5; 6; 7; 111; 10; 20; 30; 230].
Example C44_case :
  holds demo_mem 0 [5; 6; 7; 111] /\ holds demo_mem 4 [10; 20; 30; 230] /\
  disjoint 8 4 0 4 /\ disjoint 8 4 4 4 /\
  phase 64 [1; 1; 0] [5; 6; 7; 111] = 100 /\ phase 64 [1; 1; 0] [10; 20; 30; 230] = 200 /\
  load (concrete_cpu_add demo_mem 8 0 4 3) 8 4 = [15; 26; 37; 341] /\
  phase 64 [1; 1; 0] (load (concrete_cpu_add demo_mem 8 0 4 3) 8 4) = 300 /\
  phase 64 [1; 1; 0] (load (concrete_cpu_mul_cleartext demo_mem 8 0 9 3) 8 4) = 900 /\
  phase 64 [1; 1; 0] (load (concrete_cpu_negate demo_mem 8 0 3) 8 4) = 2 ^ 64 - 100 /\
  phase 64 [1; 1; 0] (load (concrete_cpu_add_plaintext demo_mem 8 0 40 3) 8 4) = 100 - 40.
Proof.
  split; [apply loaded_holds; vm_compute; reflexivity|]. split; [apply loaded_holds; vm_compute; reflexivity|].
  split; [unfold disjoint, inside; lia|]. split; [unfold disjoint, inside; lia|].
  repeat match goal with |- _ /\ _ => split end; vm_compute; reflexivity.
Qed.

(** ** C48: keyswitch, key conversion and bootstrap *)
Theorem C48_keyswitch : forall p b l key s noise beta ksk m ct_out ct_in kptr c,
  dec_wf 64 (Dec b l) -> ksk_encrypts 64 b l key s noise ksk -> binary s ->
  (forall i j, (i < length s)%nat -> (j < l)%nat -> Z.abs (noise i j) <= beta) ->
  holds m kptr (concat (map (@concat Z) ksk)) -> holds m ct_in c -> lwe_wf 64 (length s) c ->
  exists m' out, concrete_cpu_keyswitch p m ct_out ct_in kptr l b (length s) (length key) = Ret m' /\
    only_changes ct_out (S (length key)) m m' /\ holds m' ct_out out /\ lwe_wf 64 (length key) out /\
    torus_dist 64 (phase 64 s c) (phase 64 key out)
      <= Z.of_nat (length s) * 2 ^ (64 - b * Z.of_nat l - 1) + Z.of_nat (length s) * Z.of_nat l * 2 ^ (b - 1) * beta.
Proof.
  intros p b l key s noise beta ksk m ct_out ct_in kptr c Hd Hk Hs Hn Hm Hc [Lc Wc].
  pose proof Hd as (H1 & H2 & H3 & H4). cbn [base_log level_count] in *.
  assert (Sh : Forall (fun bl => length bl = l /\ Forall (fun r => length r = S (length key)) bl) ksk).
  { destruct Hk as [Lk Hk]. apply Forall_forall. intros bl Hin. apply In_nth_error in Hin. destruct Hin as [i Hi]. destruct (Hk i bl Hi) as [K1 K2].
    split; [exact K1|]. apply Forall_forall. intros r Hr. apply In_nth_error in Hr. destruct Hr as [j Hj]. apply (K2 j r Hj). }
  destruct (cut_ksk_ok p l (length key) ksk ltac:(lia) Sh) as [E1 E2].
  destruct (C30_error_bound p 64 b l key s noise beta ksk (load m ct_out (S (length key))) c Hd Hk Hs Hn (conj Lc Wc) (load_length _ _ _)) as (out & Eo & Wo & Hb).
  unfold concrete_cpu_keyswitch.
  rewrite (holds_at m ct_in c _ Lc Hc).
  rewrite (holds_at m kptr _ (l * S (length key) * length s)%nat) by (try exact Hm; rewrite E2; f_equal; apply Hk).
  rewrite E1. cbn [obind]. rewrite Eo. cbn [obind]. exists (store m ct_out out), out. split; [reflexivity|].
  destruct Wo as [Lo Wo]. split; [rewrite <- Lo; apply store_frame|]. split; [apply loaded_holds, load_store|]. split; [split; assumption|exact Hb].
Qed.
Print Assumptions C48_keyswitch.

Section Bootstrap.
Context (p : profile) (a : Z) (N := Z.to_nat (2 ^ a)) (B : backend) (d : decomposer) (key : list (list Z)) (beta : Z) (T : nat) (E : Z).
Hypothesis (Hd : dec_wf 64 d) (Ha : 1 <= a) (Haw : a + 2 < 64) (Hkey : binary_key N key) (Hbeta : 0 <= beta)
  (HB : backend_ok 64 N (base_log d) T E B) (HE : 0 <= E) (HT : (level_count d * S (length key) <= T)%nat).
Notation k := (length key).
Notation bound := (ep_error 64 (base_log d) k N (level_count d) 1 beta E).
Notation big := (glwe_key_into_lwe_key key).
Notation l := (level_count d).

Let HN : (0 < N)%nat.
Proof. pose proof (pow2_pos a ltac:(lia)); unfold N; lia. Qed.
Lemma N_even : Nat.even N = true.
Proof using All.
  unfold N. replace a with (1 + (a - 1)) by lia. rewrite Z.pow_add_r by lia. rewrite Z2Nat.inj_mul by (try apply Z.pow_nonneg; lia).
  rewrite Nat.even_mul. reflexivity.
Qed.
Lemma bsk_shape bsk s : bsk_encrypts 64 (base_log d) N l key beta bsk s -> length bsk = length s /\
  Forall (fun G => length G = l /\ Forall (fun lev => length lev = S k /\ Forall (fun row => length row = S k /\ Forall (fun q => length q = N) row) lev) G) bsk.
Proof using All.
  intros H. split; [eapply Forall2_len; exact H|]. induction H as [|G si bsk s [[L F] _] _ IH]; [constructor|]. constructor; [|exact IH].
  split; [exact L|]. eapply Forall_impl; [|exact F]. cbv beta. intros lev [L2 F2]. split; [exact L2|]. eapply Forall_impl; [|exact F2].
  cbv beta. intros row [L3 F3]. split; [exact L3|]. eapply Forall_impl; [|exact F3]. intros q Hq. apply Hq.
Qed.

(** Converting a bootstrap key: a key stored in the order of the library gives its Fourier transform, in the same order. *)
Theorem C48_key_conversion : forall bsk s m fm standard_bsk fourier_bsk, bsk_encrypts 64 (base_log d) N l key beta bsk s ->
  holds m standard_bsk (flat_bsk bsk) ->
  exists fm', concrete_cpu_bootstrap_key_convert p B m fm standard_bsk fourier_bsk l k N (length s) = Ret fm' /\
    only_changes fourier_bsk (length s * (l * (S k * S k))) fm fm' /\ holds fm' fourier_bsk (flat_fourier_bsk B (bsk_forward_fourier B bsk)).
Proof using All.
  intros bsk s m fm sp fp Hb Hm. destruct (bsk_shape bsk s Hb) as [Ls Sh]. destruct Hd as (H1 & H2 & H3 & H4).
  destruct (cut_bsk_ok p l k N bsk ltac:(lia) HN Sh) as [E1 E2]. unfold concrete_cpu_bootstrap_key_convert.
  rewrite <- Ls. rewrite (holds_at m sp (flat_bsk bsk) _ E2 Hm), E1. cbn [obind]. rewrite N_even. cbn [assert_ obind].
  eexists. split; [reflexivity|]. split; [|apply loaded_holds, load_store].
  assert (Sf : Forall (fun G => length G = l /\ Forall (fun lev => length lev = S k /\ Forall (fun row => length row = S k) lev) G) (bsk_forward_fourier B bsk)).
  { unfold bsk_forward_fourier, fill_with_forward_fourier. apply Forall_map. eapply Forall_impl; [|exact Sh]. cbv beta. intros G [L F].
    rewrite map_length. split; [exact L|]. apply Forall_map. eapply Forall_impl; [|exact F]. cbv beta. intros lev [L2 F2]. rewrite map_length. split; [exact L2|].
    apply Forall_map. eapply Forall_impl; [|exact F2]. cbv beta. intros row [L3 _]. rewrite map_length. exact L3. }
  destruct (cut_fourier_bsk_ok B l (S k) (bsk_forward_fourier B bsk) ltac:(lia) ltac:(lia) Sf) as [_ F2].
  unfold bsk_forward_fourier in F2 at 2. rewrite map_length in F2. rewrite <- F2. apply store_frame.
Qed.

Lemma load_fourier_ok bsk s fm fptr : bsk_encrypts 64 (base_log d) N l key beta bsk s ->
  holds fm fptr (flat_fourier_bsk B (bsk_forward_fourier B bsk)) ->
  load_fourier_bsk B fm fptr (length s) l (S k) N = Ret (bsk_forward_fourier B bsk).
Proof using All.
  intros Hb Hf. destruct (bsk_shape bsk s Hb) as [Ls Sh]. destruct Hd as (H1 & H2 & H3 & H4).
  assert (Sf : Forall (fun G => length G = l /\ Forall (fun lev => length lev = S k /\ Forall (fun row => length row = S k) lev) G) (bsk_forward_fourier B bsk)).
  { unfold bsk_forward_fourier, fill_with_forward_fourier. apply Forall_map. eapply Forall_impl; [|exact Sh]. cbv beta. intros G [L F].
    rewrite map_length. split; [exact L|]. apply Forall_map. eapply Forall_impl; [|exact F]. cbv beta. intros lev [L2 F2]. rewrite map_length. split; [exact L2|].
    apply Forall_map. eapply Forall_impl; [|exact F2]. cbv beta. intros row [L3 _]. rewrite map_length. exact L3. }
  destruct (cut_fourier_bsk_ok B l (S k) (bsk_forward_fourier B bsk) ltac:(lia) ltac:(lia) Sf) as [F1 F2].
  unfold bsk_forward_fourier in F2 at 2. rewrite map_length, Ls in F2. unfold load_fourier_bsk. rewrite N_even. cbn [assert_ obind].
  rewrite (holds_at fm fptr _ _ F2 Hf), F1. reflexivity.
Qed.

(** Bootstrapping the ciphertext at ct_in with the table at accumulator and the Fourier key at fptr. *)
Theorem C48_bootstrap : forall bsk s m fm ct_out ct_in accumulator fptr lwe table,
  Forall (fun x => x = 0 \/ x = 1) s -> bsk_encrypts 64 (base_log d) N l key beta bsk s ->
  holds fm fptr (flat_fourier_bsk B (bsk_forward_fourier B bsk)) -> holds m ct_in lwe -> lwe_wf 64 (length s) lwe ->
  holds m accumulator (concat table) -> glwe_wf 64 k N table ->
  exists m' out e, concrete_cpu_bootstrap p B m fm ct_out ct_in accumulator fptr l (base_log d) k N (length s) = Ret m' /\
    only_changes ct_out (S (k * N)) m m' /\ holds m' ct_out out /\ lwe_wf 64 (k * N) out /\
    Z.abs e <= Z.of_nat (nonzeros (removelast lwe)) * bound /\
    phase 64 big out = (rcoef (rmul (rmono N (- rot_exponent 64 N s lwe)) (gphase N key table)) 0 + e) mod 2 ^ 64.
Proof using All.
  intros bsk s m fm ct_out ct_in acc fptr lwe table Hs Hb Hf Hl Wl Ht Wt.
  unfold concrete_cpu_bootstrap. rewrite (load_fourier_ok bsk s fm fptr Hb Hf). cbn [obind].
  rewrite (holds_at m ct_in lwe _ (proj1 Wl) Hl).
  assert (Ft : Forall (fun c => length c = N) table) by (eapply Forall_impl; [|exact (proj2 Wt)]; intros q Hq; apply Hq).
  rewrite (holds_at m acc (concat table) (N * S k)) by (try exact Ht; rewrite (concat_length_all N) by exact Ft; rewrite (proj1 Wt); lia).
  rewrite chunks_concat by assumption.
  destruct (C29_bootstrap p 64 a B d key beta T E Hd ltac:(lia) Haw Hkey Hbeta HB HE HT bsk s table lwe (load m ct_out (S (k * N))) Hs Hb Wl Wt (load_length _ _ _))
    as (out & e & Eo & Wo & He & Hp).
  fold N in Eo. rewrite Eo. cbn [obind]. exists (store m ct_out out), out, e. split; [reflexivity|].
  fold N in Wo. split; [rewrite <- (proj1 Wo); apply store_frame|]. split; [apply loaded_holds, load_store|]. auto.
Qed.
End Bootstrap.
Print Assumptions C48_key_conversion.
Print Assumptions C48_bootstrap.

(** ** C45: bit extraction *)
(** Every parameter set for which bit extraction is defined is refused, in both builds: the assertion is inverted. *)
Theorem C45_valid_parameters_refuted : forall p B m fm ct_vec_out ct_in fourier_bsk ksk od oc id bits delta bl bb bk bN bn kl kb ki ko,
  0 <= bits -> 0 <= delta -> bits + delta <= 64 ->
  concrete_cpu_extract_bit p B m fm ct_vec_out ct_in fourier_bsk ksk od oc id bits delta bl bb bk bN bn kl kb ki ko = Panic.
Proof.
  intros p B m fm ct_vec_out ct_in fourier_bsk ksk od oc id bits delta bl bb bk bN bn kl kb ki ko H1 H2 H3. unfold concrete_cpu_extract_bit.
  repeat match goal with |- obind (assert_ ?c) _ = _ => destruct c; cbn [assert_ obind]; [|reflexivity] end.
  rewrite plain_ok by (unfold usize_bits; lia). cbn [obind]. destruct (Z.ltb_spec 64 (bits + delta)); [lia|reflexivity].
Qed.
Print Assumptions C45_valid_parameters_refuted.

Lemma panic_bind {A C} (o : outcome A) (f : A -> outcome C) : (forall x, f x = Panic) -> obind o f = Panic.
Proof. intros H. destruct o; [apply H|reflexivity]. Qed.
(** In checked builds no call at all succeeds: the parameters that pass the assertion are refused by the operation itself. *)
Theorem C45_checked_builds_refuted : forall B m fm ct_vec_out ct_in fourier_bsk ksk od oc id bits delta bl bb bk bN bn kl kb ki ko,
  concrete_cpu_extract_bit Debug B m fm ct_vec_out ct_in fourier_bsk ksk od oc id bits delta bl bb bk bN bn kl kb ki ko = Panic.
Proof.
  intros B m fm ct_vec_out ct_in fourier_bsk ksk od oc id bits delta bl bb bk bN bn kl kb ki ko. unfold concrete_cpu_extract_bit.
  repeat match goal with |- obind (assert_ ?c) _ = _ => destruct c; cbn [assert_ obind]; [|reflexivity] end.
  unfold plain. destruct (_ && _); cbn [obind]; [|reflexivity]. destruct (Z.ltb_spec 64 (bits + delta)) as [H|H]; cbn [assert_ obind]; [|reflexivity].
  apply panic_bind. intros _. apply panic_bind. intros k1. apply panic_bind. intros b1.
  unfold fft_extract_bits, extract_bits, debug_assert. destruct (Z.leb_spec (bits + delta) 64); [lia|]. reflexivity.
Qed.
Print Assumptions C45_checked_builds_refuted.
(** Whatever the arguments, a call that returns has written nothing outside the output buffer. *)
Lemma extract_loop_lengths p w pbs ks N g delta count : forall outs i c kb pb res,
  extract_loop p w pbs ks N g delta count outs i c kb pb = Ret res -> map (@length Z) res = map (@length Z) outs.
Proof.
  induction outs as [|o outs IH]; intros i c kb pb res H; cbn [extract_loop] in H.
  - now inversion H.
  - repeat match type of H with obind ?x _ = _ => let E := fresh "E" in destruct x eqn:E; cbn [obind] in H; [|discriminate] end.
    assert (Lo : forall o' src, copy_slice o src = Ret o' -> length o' = length o).
    { intros o' src Hc. unfold copy_slice in Hc. destruct (Nat.eqb_spec (length o) (length src)); [|discriminate]. cbn in Hc. injection Hc as <-. congruence. }
    destruct (i =? _).
    + injection H as <-. cbn [map]. f_equal. eapply Lo. eassumption.
    + repeat match type of H with obind ?x _ = _ => let E := fresh "E" in destruct x eqn:E; cbn [obind] in H; [|discriminate] end.
      injection H as <-. cbn [map]. f_equal; [eapply Lo; eassumption|eapply IH; eassumption].
Qed.
Lemma concat_lengths {A} (l l' : list (list A)) : map (@length A) l = map (@length A) l' -> length (concat l) = length (concat l').
Proof. revert l'. induction l as [|x l IH]; intros [|y l'] H; cbn in *; try discriminate; [reflexivity|]. rewrite !app_length. injection H as H1 H2. f_equal; auto. Qed.
Theorem C45_writes_only_output : forall p B m fm ct_vec_out ct_in fourier_bsk ksk od oc id bits delta bl bb bk bN bn kl kb ki ko m',
  concrete_cpu_extract_bit p B m fm ct_vec_out ct_in fourier_bsk ksk od oc id bits delta bl bb bk bN bn kl kb ki ko = Ret m' ->
  only_changes ct_vec_out (S od * oc) m m'.
Proof.
  intros p B m fm ct_vec_out ct_in fourier_bsk ksk od oc id bits delta bl bb bk bN bn kl kb ki ko m' H. unfold concrete_cpu_extract_bit in H.
  repeat match type of H with obind ?x _ = _ => let E := fresh "E" in destruct x eqn:E; cbn [obind] in H; [|discriminate] end.
  injection H as <-.
  match goal with E : fft_extract_bits _ _ _ _ _ _ _ _ _ _ _ _ _ ?outs _ = Ret ?r |- _ =>
    assert (L : length (concat r) = (S od * oc)%nat); [|rewrite <- L; apply store_frame]; rename E into Er end.
  unfold fft_extract_bits, extract_bits in Er.
  repeat match type of Er with obind ?x _ = _ => let E := fresh "E" in destruct x eqn:E; cbn [obind] in Er; [|discriminate] end.
  injection Er as <-.
  match goal with E : extract_loop _ _ _ _ _ _ _ _ _ _ _ _ _ = Ret ?r |- _ => apply extract_loop_lengths in E; rename E into El end.
  destruct (chunks_spec (S od) oc (load m ct_vec_out (S od * oc)) ltac:(lia)) as (_ & _ & Ec); [rewrite load_length; lia|].
  transitivity (length (concat (chunks (S od) (load m ct_vec_out (S od * oc))))); [|rewrite Ec; apply load_length].
  apply concat_lengths. rewrite map_rev, El, <- map_rev, rev_involutive. reflexivity.
Qed.
Print Assumptions C45_writes_only_output.
Example C45_writes_only_output_case :
  match concrete_cpu_extract_bit Release (exact_backend 64) (fun a => a) (fun _ => [1; 2; 3; 4]) 100 0 0 20 2 2 4 2 63 1 6 1 4 2 1 6 4 2 with
  | Ret m' => map m' [99; 100; 101; 102; 103; 104; 105; 106]
      = [99; 18446744073709549952; 18446744073709549888; 18446744073709549824; 0; 0; 4; 106]
  | Panic => False
  end.
Proof. vm_compute. reflexivity. Qed.
(** The instance that the safe Rust method accepts (8 bits from bit 56) and that the C function refuses. *)
Example C45_case : 8 + 56 <= 64 /\
  concrete_cpu_extract_bit Release (exact_backend 64) (fun _ => 0) (fun _ => []) 0 0 0 0 2 8 32 8 56 3 6 1 32 2 3 6 32 2 = Panic.
Proof. split; [lia|]. vm_compute. reflexivity. Qed.

(** ** A concrete case of C48: 64-bit words, the keys of the WoP-PBS example, exact backend.  The bootstrap of the encryption of 5 (scaling 2^56, noise 3),
    keyswitched, with the table i -> i * 2^58 *)
Definition demo_table48 : list (list Z) := [repeat 0 8; map (fun i => i * 2 ^ 58) [0; 1; 2; 3; 4; 5; 6; 7]].
Definition demo_small48 : list Z := [2 ^ 60; 2 ^ 61 + 2 ^ 59; 5 * 2 ^ 60 + 2 ^ 60 + 2 ^ 61 + 2 ^ 59].
Definition demo_mem48 : Z -> Z :=
  store (store (store (store (fun _ => 7) 0 demo_lwe8) 20 demo_small48) 30 (concat demo_table48)) 100 (concat (map (@concat Z) demo_ksk8)).
Definition demo_mem48_bsk : Z -> Z := store demo_mem48 1000 (flat_bsk demo_bsk8).
Example C48_case :
  holds demo_mem48 0 demo_lwe8 /\ holds demo_mem48 20 demo_small48 /\ holds demo_mem48 30 (concat demo_table48) /\
  holds demo_mem48 100 (concat (map (@concat Z) demo_ksk8)) /\ holds demo_mem48_bsk 1000 (flat_bsk demo_bsk8) /\
  bsk_encrypts 64 6 8 3 demo_key8 255 demo_bsk8 [1; 1] /\
  (exists noise, ksk_encrypts 64 4 3 [1; 1] (glwe_key_into_lwe_key demo_key8) noise demo_ksk8 /\
     forall i j, (i < 8)%nat -> (j < 3)%nat -> Z.abs (noise i j) <= 255) /\
  match concrete_cpu_keyswitch Debug demo_mem48 10 0 100 3 4 8 2 with
  | Ret m' => (phase 64 [1; 1] (load m' 10 3) + 2 ^ 55) / 2 ^ 56 | Panic => 0 end = 5 /\
  match concrete_cpu_bootstrap_key_convert Debug (exact_backend 64) demo_mem48_bsk (fun _ => nil) 1000 0 3 1 8 2 with
  | Ret fm' =>
    match concrete_cpu_bootstrap Debug (exact_backend 64) demo_mem48 fm' 60 20 30 0 3 6 1 8 2 with
    | Ret m' => (phase 64 (concat demo_key8) (load m' 60 9) + 2 ^ 57) / 2 ^ 58 | Panic => 0 end
  | Panic => 0 end = 5.
Proof.
  repeat match goal with |- holds _ _ _ /\ _ => split; [apply loaded_holds; vm_compute; reflexivity|] end.
  split; [exact demo_bsk8_ok|]. split; [exact demo_ksk8_ok|]. split; vm_compute; reflexivity.
Qed.
