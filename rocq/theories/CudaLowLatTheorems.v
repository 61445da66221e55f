(** * C62: the low latency bootstrap kernel of the CUDA backend, whatever the schedule of the blocks and of their threads *)
From Verif Require Import Base Word WordFacts DecompModel DecompProofs PolySpec PolyModel GlweSpec GlweModel GgswSpec ExtProdModel BootstrapSpec BootstrapModel
  CudaLowLatKernel CudaKsModel CudaBlockModel CudaBlockProofs CudaFftModel CudaFftSpec CudaFftAlgebra CudaFftProofs CudaFftFacts CudaFftTheorems
  CudaHoare CudaPbsModel CudaPbsSpec CudaPbsPhases CudaPbsKernel CudaPbsFacts CudaPbsLink CudaKsFacts CudaPbsTheorems CudaGridModel CudaLowLatModel.
From Coq Require Import Ring.
Local Open Scope nat_scope.

(** The sizes that the kernel needs, for ciphertexts the test vectors of which are at the offsets [luts]: GLWE dimension [k], one level,
    [n] mask elements, polynomials of 2 [H] words *)
Definition enough_for_blocks (H k n : nat) (luts : list nat) (size : nat -> nat) : Prop :=
  2 * H <= size ACC /\ 2 * H <= size ROT /\ H <= size AFFT /\ (k + 1) * length luts * H <= size JOIN /\
  (forall z, z < length luts -> nth z luts 0 + (k + 1) * (2 * H) <= size LUT) /\ n * (k + 1) * (k + 1) * H <= size BSK /\ length luts * (k * (2 * H) + 1) <= size OUT.

Section C62.
Context {R : Type} (rO rI : R) (radd rmul rsub : R -> R -> R) (ropp : R -> R).
Hypothesis R_ring : ring_theory rO rI radd rmul rsub ropp (@eq R).
Context (w : Z) (ok : addr -> bool) (size : nat -> nat) (H T opt : nat) (tw : nat -> R * R) (q h : R) (of_int frac : Z -> R) (torus1 torus2 : R -> Z).
(** The constants of the transform are those of C60; the conversions map zero to zero. *)
Hypothesis (Hshape : shape H T opt) (Hvars : has_variables ok) (Hmem : has_memory ok size)
  (Htable : twiddle_table rO rI radd rmul ropp H tw) (Hq : tw 1 = (q, q)) (Hh : copies rO radd H h = rI)
  (Hof : of_int 0 = rO) (Ht1 : torus1 rO = 0%Z) (Ht2 : torus2 rO = 0%Z).
Notation N := (2 * H).
Notation B := (gpu_backend w rO radd rmul ropp H of_int frac torus1 torus2).
Notation host b k l n lwes luts := (host_bootstrap_low_latency w rO radd rmul rsub N (2 * opt) torus1 torus2 of_int tw q h b k l ok n lwes luts).

(** One level of decomposition, any number of ciphertexts.  Under every schedule the launch ends; for every ciphertext the words it writes are
    the result of the bootstrap of the CPU model, with the arithmetic [gpu_backend], of the ciphertext whose words have been converted to double;
    the test vectors and the key are unchanged. *)
Theorem C62_low_latency : forall p b k bsk lwes tvs luts before choices private gm,
  (32 <= w)%Z -> (b <= 31)%Z -> dec_wf w (Dec b 1) -> (4 * Z.of_nat N < 2 ^ 32)%Z ->
  (2 * Z.of_nat (length bsk) * (Z.of_nat k + 1) * (Z.of_nat k + 1) * Z.of_nat H < 2 ^ 32)%Z ->
  Forall (ggsw_wf w k N 1) bsk -> Forall (fun lwe => length lwe = S (length bsk) /\ Forall (is_word w) lwe) lwes -> Forall (glwe_wf w k N) tvs -> length before = S (k * N) ->
  0 < length lwes -> length tvs = length lwes -> length luts = length lwes ->
  enough_for_blocks H k (length bsk) luts size -> (forall z, z < length lwes -> test_vector_at H (nth z luts 0) (nth z tvs []) gm) -> key_at w rO rI radd rmul ropp H k 1 frac tw bsk gm ->
  exists gm',
    host b k 1 (length bsk) lwes luts choices private gm = Ret gm' /\
    (forall z, z < length lwes -> exists result,
       fft_bootstrap p w B N b (bsk_forward_fourier B bsk) before (map (as_double w) (nth z lwes [])) (nth z tvs []) = Ret result /\ length result = S (k * N) /\
       forall i, i <= k * N -> gm' (Word OUT (z * (k * N + 1) + i)) = Wd (nth i result 0%Z)) /\
    (forall c, in_global c = true -> ~ In (buffer c) [JOIN; OUT] -> gm' c = gm c).
Proof.
  intros p b k bsk lwes tvs luts before choices private gm H32 Hb31 Hd HN32 Hidx Hbsk Hlwes Htvs Hbefore Hcount Ltv Llut (M1 & M2 & M3 & M4 & M5 & M6 & M7) Mtv Mkey.
  rewrite Llut in *. set (count := length lwes) in *.
  destruct Hshape as (HT & Hopt & Heven & n & Hn1 & Hn).
  assert (HH : 0 < H) by (rewrite Hn; pose proof (Nat.pow_nonzero 2 n); lia).
  assert (Hword : forall b i, i < size b -> ok (Word b i) = true) by (intros b0 i Hi; apply (Hmem b0 i Hi)).
  assert (Hdbl : forall b i im, i < size b -> ok (Dbl b i im) = true) by (intros b0 i im Hi; apply (Hmem b0 i Hi)).
  assert (Hnw : (Z.of_nat n + 3 < w)%Z).
  { assert (E : (Z.of_nat N = 2 ^ (Z.of_nat n + 1))%Z) by (rewrite Hn, Nat2Z.inj_mul, Nat2Z.inj_pow, Z.add_1_r, Z.pow_succ_r by lia; reflexivity).
    rewrite E in HN32. change (4)%Z with (2 ^ 2)%Z in HN32. rewrite <- Z.pow_add_r in HN32 by lia. apply Z.pow_lt_mono_r_iff in HN32; [|lia|lia]. clear - HN32 H32. lia. }
  assert (HN2 : (2 * Z.of_nat N < 2 ^ 32)%Z) by (clear - HN32; lia).
  rewrite Forall_forall in Hlwes, Htvs.
  set (key := fun it level p z => dir (cadd radd) (cmul radd rmul rsub) (csub rsub) tw n n (packed H (key_of w frac (nth z (nth p (nth level (nth it bsk []) []) []) [])))).
  set (zero := repeat 0%Z (S (length bsk))). set (lwe := fun z => nth z lwes zero).
  assert (Hlwe : forall z, length (lwe z) = S (length bsk) /\ Forall (is_word w) (lwe z)).
  { intros z. unfold lwe. destruct (Nat.lt_ge_cases z count) as [L|L]; [apply Hlwes, nth_In, L|]. rewrite nth_overflow by exact L. unfold zero. split; [apply repeat_length|].
    apply Forall_forall. intros x Hx%repeat_spec. subst x. split; [lia|apply pow2_pos; lia]. }
  set (ah := fun z => CudaPbsLink.a_hat w H (lwe z)).
  assert (Hah : forall z it, ah z it <= 2 * N) by (intros z it; exact (a_hat_range w radd rmul rsub H n of_int frac torus1 torus2 tw h b k 1 H32 HH Hn Hn1 key bsk (fun it level p z i _ _ _ _ _ => eq_refl) (lwe z) (proj1 (Hlwe z)) (proj2 (Hlwe z)) HN2 Hnw it)).
  set (tvf := fun z y i => nth i (nth y (nth z tvs []) []) 0%Z).
  assert (Hidx1 : (2 * Z.of_nat (length bsk) * Z.of_nat 1 * (Z.of_nat k + 1) * (Z.of_nat k + 1) * Z.of_nat H < 2 ^ 32)%Z) by (rewrite Z.mul_1_r; exact Hidx).
  assert (S_bsk : forall it p z, it < length bsk -> p <= k -> z <= k -> block H k 1 it 0 p + z * H + H <= size BSK).
  { intros it p0 z H1 H3 H4. unfold block. rewrite (block_index H k 1 (length bsk)) by (assumption || apply Nat.lt_0_1). etransitivity; [apply (block_bound H k 1 (length bsk)); assumption || apply Nat.lt_0_1|]. rewrite Nat.mul_1_r. exact M6. }
  assert (Hlut : forall z y e, z < count -> y <= k -> e < N -> gm (Word LUT (nth z luts 0 + y * N + e)) = Wd (tvf z y e)).
  { intros z y e Hz Hy He. apply Mtv; [exact Hz| |exact He]. destruct (Htvs (nth z tvs [])) as [Hl _]; [apply nth_In; rewrite Ltv; exact Hz|]. lia. }
  assert (Hkey : forall it, it < length bsk -> key_ok rO H k 1 key it gm).
  { intros it Hit level p0 z i H1 H2 H3 H4. unfold block. rewrite (block_index H k 1 (length bsk)) by assumption. unfold key. rewrite (direct_points rO rI radd rmul rsub ropp R_ring H n tw Hn Hn1 Htable _ i H4).
    replace (((it * 1 + level) * (k + 1) + p0) * (k + 1) * H + z * H) with ((((it * 1 + level) * (k + 1) + p0) * (k + 1) + z) * H) by lia. apply Mkey; assumption. }
  assert (Ethreads : N / (2 * opt) = T). { rewrite <- Hopt. rewrite Nat.mul_assoc, (Nat.mul_comm (2 * opt) T). apply Nat.div_mul. destruct opt; [clear - HH Hopt; cbn in Hopt; lia|discriminate]. }
  destruct (low_latency_ok w rO rI radd rmul rsub ropp R_ring ok size H T n opt HT Hn Hn1 Hopt Heven Hvars Hword Hdbl of_int torus1 torus2 tw q h Hq b k count M1 M2 M3 M4 key (length bsk) (fun z => nth z luts 0) tvf ah (fun z => ah z (length bsk))
    Hah (fun z => Hah z _) M5 S_bsk M7 gm Hlut Hkey (low_latency_kernel w rO radd rmul rsub N (2 * opt) torus1 torus2 of_int tw q h b k 1 (length bsk) lwes luts) choices private Hcount) as (gm' & El & Hsame & Hout).
  { intros i Hi. unfold low_latency_kernel, device_bootstrap_low_latency, block_x, block_y, block_z. rewrite Nat.mod_1_r, Nat.div_1_r. fold (by_ k i) (bz k i).
    assert (Hz : bz k i < count) by (apply Nat.div_lt_upper_bound; [clear; lia|exact Hi]).
    assert (El : nth (bz k i) lwes [] = lwe (bz k i)) by (apply nth_indep, Hz). rewrite El. reflexivity. }
  exists gm'. split.
  { unfold host_bootstrap_low_latency. rewrite Ethreads, Nat.mul_1_l. exact El. }
  split; [|intros c Hc Hb; apply Hsame; [exact Hc|destruct c; exact Hb]].
  intros z Hz. set (tv := nth z tvs []).
  assert (Htv : glwe_wf w k N tv) by (apply Htvs, nth_In; rewrite Ltv; exact Hz).
  assert (Etv : map (fun y => poly N (tvf z y)) (seq 0 (S k)) = tv).
  { destruct Htv as [Hl Hf]. rewrite Forall_forall in Hf. apply (nth_ext _ _ [] []); [rewrite map_length, seq_length; auto|]. intros y Hy. rewrite map_length, seq_length in Hy.
    rewrite ExtProdProofs.nth_map_seq by exact Hy. apply poly_of. apply Hf, nth_In. rewrite Hl. exact Hy. }
  assert (Wtv : words_of w H k (tvf z)).
  { intros y i Hy Hi. destruct Htv as [Hl Hf]. rewrite Forall_forall in Hf. destruct (Hf (nth y tv [])) as [Hl1 Hf1]; [apply nth_In; lia|]. rewrite Forall_forall in Hf1. apply Hf1, nth_In. lia. }
  destruct (bootstrap_value w rO rI radd rmul rsub ropp R_ring H n of_int frac torus1 torus2 tw h b k 1 Hd H32 Hb31 HH Hn Hn1 Htable Hh Hof Ht1 Ht2 key bsk (fun it level p z i _ _ _ _ _ => eq_refl) Hbsk (lwe z) (tvf z) (proj1 (Hlwe z)) (proj2 (Hlwe z)) Wtv HN2 Hnw p before Hbefore)
    as (result & Eb & Lr & R1 & R2).
  rewrite Etv in Eb. assert (Elwe : nth z lwes [] = lwe z) by (apply nth_indep, Hz). rewrite Elwe. exists result. split; [exact Eb|]. split; [exact Lr|].
  assert (Block : forall y, y <= k -> z * (k + 1) + y < (k + 1) * count /\ by_ k (z * (k + 1) + y) = y /\ bz k (z * (k + 1) + y) = z).
  { intros y Hy. destruct (divmod z y (k + 1) ltac:(clear - Hy; lia)) as [E1 E2]. split; [|split; [exact E2|exact E1]].
    apply Nat.lt_le_trans with ((z + 1) * (k + 1)); [clear - Hy; lia|]. rewrite (Nat.mul_comm (k + 1)). apply Nat.mul_le_mono_r. clear - Hz. lia. }
  intros i Hi. destruct (Nat.eq_dec i (k * N)) as [->|Hne].
  - destruct (Block k (le_n k)) as (B1 & B2 & B3). specialize (Hout _ B1). unfold output, out_of in Hout. rewrite B2, B3, Nat.ltb_irrefl in Hout. rewrite R2. exact Hout.
  - pose proof (Nat.div_mod i N ltac:(clear - HH; lia)) as D. pose proof (Nat.mod_upper_bound i N ltac:(clear - HH; lia)) as Dm.
    assert (Dk : i / N < k) by (apply Nat.div_lt_upper_bound; clear - HH Hi Hne; lia). set (y := i / N) in *. set (e := i mod N) in *. clearbody y e.
    replace i with (y * N + e) by (clear - D; lia). rewrite R1 by assumption. rewrite Nat.add_assoc.
    destruct (Block y ltac:(clear - Dk; lia)) as (B1 & B2 & B3). specialize (Hout _ B1). unfold output, out_of in Hout. rewrite B2, B3 in Hout.
    assert (Ey : (y <? k) = true) by (apply Nat.ltb_lt, Dk). rewrite Ey in Hout. exact (Hout e Dm).
Qed.
End C62.
Print Assumptions C62_low_latency.

(** A run with integers for numbers: two blocks of two threads, two schedules, the words of the amortized kernel *)
Definition case_launch (l : nat) (choices : list (nat * nat)) : outcome (mem addr (val Z)) :=
  host_bootstrap_low_latency 32 0%Z Z.add Z.mul Z.sub 8 4 (fun x => x mod 2 ^ 32)%Z (fun x => x mod 2 ^ 32)%Z (fun x => x) (fun k => match k with 1 => (3, 3)%Z | 2 => (2, 1)%Z | _ => (1, -2)%Z end) 3%Z 1%Z
    6 1 l (fun _ => true) 2 [[2 ^ 30; 3 * 2 ^ 28; 2 ^ 31]%Z] [0] choices (fun _ _ => Wd 0) case_mem.
Definition round_robin (n : nat) : list (nat * nat) := map (fun i => (i, i)) (seq 0 n).
Definition case_amortized (l : nat) : outcome (mem addr (val Z)) :=
  launch addr_eqb (fun _ => true) 2 (device_bootstrap_amortized 32 0%Z Z.add Z.mul Z.sub 8 4 (fun x => x mod 2 ^ 32)%Z (fun x => x mod 2 ^ 32)%Z (fun x => x)
    (fun k => match k with 1 => (3, 3)%Z | 2 => (2, 1)%Z | _ => (1, -2)%Z end) 3%Z 1%Z 6 1 l true 2 [2 ^ 30; 3 * 2 ^ 28; 2 ^ 31]%Z 0 0) [] case_mem.
Example C62_case_schedules : case_output (case_launch 1 []) = case_output (case_launch 1 (round_robin 1000)) /\ case_output (case_launch 1 []) = case_output (case_amortized 1) /\
  nth 8 (case_output (case_launch 1 [])) 0%Z <> 0%Z.
Proof.
  assert (E : case_output (case_launch 1 []) = [4294954632; 938600336; 805259232; 671107480; 536875256; 402968064; 268621168; 134273928; 3221208328]%Z) by (vm_compute; reflexivity).
  rewrite E. split; [vm_compute; reflexivity|]. split; [vm_compute; reflexivity|discriminate].
Qed.

(** With two levels of decomposition the result depends on the schedule: a block reads the products of the other level from the join buffer after
    the last barrier of the grid, and the block of that level overwrites them in its next iteration.  With one schedule the words are those of
    the amortized kernel, with another one they are not. *)
Theorem C62_levels_refuted : exists choices choices',
  case_output (case_launch 2 choices) = case_output (case_amortized 2) /\ case_output (case_launch 2 choices') <> case_output (case_launch 2 choices) /\ case_launch 2 choices' <> Panic.
Proof.
  exists (round_robin 2000), [].
  assert (E0 : case_output (case_launch 2 []) = [4294946892; 938101016; 805205160; 671094620; 536875196; 402773664; 268706128; 134300548; 3221200588]%Z) by (vm_compute; reflexivity).
  assert (E1 : case_output (case_launch 2 (round_robin 2000)) = [4294946952; 937909136; 805167072; 671094680; 536875256; 402968064; 268667248; 134299528; 3221200648]%Z) by (vm_compute; reflexivity).
  split; [rewrite E1; vm_compute; reflexivity|]. split; [rewrite E0, E1; discriminate|]. intros P. rewrite P in E0. discriminate E0.
Qed.
Print Assumptions C62_levels_refuted.
