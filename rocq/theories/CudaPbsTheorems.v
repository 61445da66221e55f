(** * C61: the amortized bootstrap kernel of the CUDA backend computes the bootstrap of the CPU, whatever the schedule of the threads *)
From Verif Require Import Base Word WordFacts DecompModel DecompProofs PolySpec PolyModel GlweSpec GlweModel GgswSpec ExtProdModel BootstrapSpec BootstrapModel
  CudaBlockModel CudaBlockProofs CudaFftModel CudaFftSpec CudaFftAlgebra CudaFftProofs CudaFftFacts CudaFftTheorems
  CudaHoare CudaPbsModel CudaPbsSpec CudaPbsPhases CudaPbsKernel CudaPbsFacts CudaPbsLink CudaKsFacts.
From Coq Require Import Ring.
Local Open Scope nat_scope.

(** Memory: [size b] cells of buffer [b] exist. *)
Definition has_memory (ok : addr -> bool) (size : nat -> nat) : Prop := forall b i, i < size b -> ok (Word b i) = true /\ forall im, ok (Dbl b i im) = true.
(** The sizes that the kernel needs: GLWE dimension [k], [l] levels, [n] mask elements, polynomials of 2 [H] words *)
Definition enough_memory (H k l n lut out : nat) (size : nat -> nat) : Prop :=
  lut + (k + 1) * (2 * H) <= size LUT /\ n * l * (k + 1) * (k + 1) * H <= size BSK /\ (k + 1) * (2 * H) <= size ACC /\ (k + 1) * (2 * H) <= size ROT /\
  (k + 1) * H <= size RES /\ H <= size AFFT /\ out + k * (2 * H) < size OUT.
(** The test vector is at offset [lut] of its buffer. *)
Definition test_vector_at {R} (H lut : nat) (tv : list (list Z)) (m : mem addr (val R)) : Prop :=
  forall z i, z < length tv -> i < 2 * H -> m (Word LUT (lut + z * (2 * H) + i)) = Wd (nth i (nth z tv []) 0%Z).
(** The polynomials of the key are in their order in memory, transformed (C60_batch). *)
Definition key_at {R} (w : Z) (rO rI : R) radd rmul ropp (H k l : nat) (frac : Z -> R) (tw : nat -> R * R) (bsk : list (list (list (list (list Z))))) (m : mem addr (val R)) : Prop :=
  forall it level p z i, it < length bsk -> level < l -> p <= k -> z <= k -> i < H ->
    element rO m BSK ((((it * l + level) * (k + 1) + p) * (k + 1) + z) * H) i =
    polyval rO rI radd rmul ropp H (packed H (fun e => frac (sgn w (nth e (nth z (nth p (nth level (nth it bsk []) []) []) []) 0%Z)))) (point ropp H tw i).
Definition buffer (c : addr) : nat := match c with Word b _ => b | Dbl b _ _ => b | Loc _ _ => 0 end.

Lemma block_index H k l n it level p : it < n -> level < l -> p <= k -> (2 * Z.of_nat n * Z.of_nat l * (Z.of_nat k + 1) * (Z.of_nat k + 1) * Z.of_nat H < 2 ^ 32)%Z ->
  mask_kth_block (2 * H) it p level k l = ((it * l + level) * (k + 1) + p) * (k + 1) * H.
Proof.
  intros Hit Hl Hp Hb. unfold mask_kth_block. set (g := (Z.of_nat k + 1)%Z) in *.
  assert (Hg : (1 <= g)%Z) by (unfold g; lia).
  assert (D : forall x : nat, (Z.of_nat x * Z.of_nat (2 * H) = 2 * (Z.of_nat x * Z.of_nat H))%Z) by (intros; lia). rewrite !D. clear D.
  set (h := Z.of_nat H) in *. set (i := Z.of_nat it) in *. set (L := Z.of_nat l) in *. set (v := Z.of_nat level) in *. set (q := Z.of_nat p) in *. set (nn := Z.of_nat n) in *.
  assert (Hh : (0 <= h)%Z) by (unfold h; lia). assert (Hi : (0 <= i <= nn - 1)%Z) by (unfold i, nn; lia). assert (Hv : (0 <= v <= L - 1)%Z) by (unfold v, L; lia). assert (Hq : (0 <= q <= g - 1)%Z) by (unfold q, g; lia).
  assert (B0 : (0 <= i * h * (g * g * L) /\ 0 <= v * h * (g * g) /\ 0 <= q * h * g /\ 2 * (i * h * (g * g * L) + v * h * (g * g) + q * h * g) < 2 ^ 32)%Z).
  { assert (Hgg : (g <= g * g)%Z) by nia. assert (A1 : (q * h * g <= (g - 1) * h * g)%Z) by (apply Z.mul_le_mono_nonneg_r; [lia|]; apply Z.mul_le_mono_nonneg_r; lia).
    assert (A2 : (v * h * (g * g) <= (L - 1) * h * (g * g))%Z) by (apply Z.mul_le_mono_nonneg_r; [lia|]; apply Z.mul_le_mono_nonneg_r; lia).
    assert (A3 : (i * h * (g * g * L) <= (nn - 1) * h * (g * g * L))%Z) by (apply Z.mul_le_mono_nonneg_r; [apply Z.mul_nonneg_nonneg; lia|]; apply Z.mul_le_mono_nonneg_r; lia).
    assert (A0 : (0 <= i * h)%Z) by (apply Z.mul_nonneg_nonneg; lia). assert (A0' : (0 <= v * h)%Z) by (apply Z.mul_nonneg_nonneg; lia). assert (A0'' : (0 <= q * h)%Z) by (apply Z.mul_nonneg_nonneg; lia).
    split; [apply Z.mul_nonneg_nonneg; [exact A0|apply Z.mul_nonneg_nonneg; lia]|]. split; [apply Z.mul_nonneg_nonneg; [exact A0'|lia]|]. split; [apply Z.mul_nonneg_nonneg; [exact A0''|lia]|].
    eapply Z.le_lt_trans; [|exact Hb].
    replace (2 * nn * L * g * g * h)%Z with (2 * ((nn - 1) * h * (g * g * L) + (L - 1) * h * (g * g) + (g - 1) * h * g + h * g))%Z by ring.
    assert (0 <= h * g)%Z by (apply Z.mul_nonneg_nonneg; lia). clear - A1 A2 A3 H0. lia. }
  assert (Hgg1 : (1 <= g * g)%Z) by nia. assert (HL1 : (1 <= L)%Z) by lia.
  assert (M : forall x y, (0 <= x)%Z -> (1 <= y)%Z -> (x <= x * y)%Z) by (intros; nia).
  assert (Hih : (0 <= i * h)%Z) by (apply Z.mul_nonneg_nonneg; lia). assert (Hvh : (0 <= v * h)%Z) by (apply Z.mul_nonneg_nonneg; lia). assert (Hqh : (0 <= q * h)%Z) by (apply Z.mul_nonneg_nonneg; lia).
  assert (Hig : (0 <= i * h * g)%Z) by (apply Z.mul_nonneg_nonneg; lia). assert (Higg : (0 <= i * h * g * g)%Z) by (apply Z.mul_nonneg_nonneg; lia). assert (Hvg : (0 <= v * h * g)%Z) by (apply Z.mul_nonneg_nonneg; lia).
  assert (N1 : (i * h * (g * g * L) = i * h * g * g * L)%Z) by ring. assert (N2 : (v * h * (g * g) = v * h * g * g)%Z) by ring. rewrite N1, N2 in B0. clear N1 N2.
  pose proof (M (i * h)%Z g Hih Hg) as M1. pose proof (M (i * h * g)%Z g Hig Hg) as M2. pose proof (M (i * h * g * g)%Z L Higg HL1) as M3.
  pose proof (M (v * h)%Z g Hvh Hg) as M4. pose proof (M (v * h * g)%Z g Hvg Hg) as M5. pose proof (M (q * h)%Z g Hqh Hg) as M6. clear M.
  replace (((it * l + level) * (k + 1) + p) * (k + 1) * H) with (Z.to_nat (i * h * g * g * L + v * h * g * g + q * h * g)).
  2:{ unfold i, h, g, L, v, q. clear. apply Nat2Z.inj. rewrite Z2Nat.id by nia. rewrite !Nat2Z.inj_mul, !Nat2Z.inj_add, !Nat2Z.inj_mul, !Nat2Z.inj_add, !Nat2Z.inj_mul. change (Z.of_nat 1) with 1%Z. ring. }
  f_equal. unfold u32.
  assert (E1 : ((2 * (i * h)) mod 2 ^ 32 / 2 = i * h)%Z) by (rewrite Z.mod_small by (clear - B0 M1 M2 M3 Hih; lia); rewrite Z.mul_comm; apply Z.div_mul; lia).
  assert (E2 : ((2 * (v * h)) mod 2 ^ 32 / 2 = v * h)%Z) by (rewrite Z.mod_small by (clear - B0 M4 M5 Hvh; lia); rewrite Z.mul_comm; apply Z.div_mul; lia).
  assert (E3 : ((2 * (q * h)) mod 2 ^ 32 / 2 = q * h)%Z) by (rewrite Z.mod_small by (clear - B0 M6 Hqh; lia); rewrite Z.mul_comm; apply Z.div_mul; lia).
  rewrite E1, E2, E3. clear E1 E2 E3 Hb.
  rewrite (Z.mod_small (i * h * g)%Z) by (clear - B0 M1 M2 M3 Hih; lia). rewrite (Z.mod_small (i * h * g * g)%Z) by (clear - B0 M1 M2 M3 Hih; lia). rewrite (Z.mod_small (i * h * g * g * L)%Z) by (clear - B0; lia).
  rewrite (Z.mod_small (v * h * g)%Z) by (clear - B0 M4 M5 Hvh; lia). rewrite (Z.mod_small (v * h * g * g)%Z) by (clear - B0; lia). rewrite (Z.mod_small (q * h * g)%Z) by (clear - B0; lia).
  apply Z.mod_small. clear - B0. lia.
Qed.
Lemma block_bound H k l n it level p z : it < n -> level < l -> p <= k -> z <= k -> ((it * l + level) * (k + 1) + p) * (k + 1) * H + z * H + H <= n * l * (k + 1) * (k + 1) * H.
Proof.
  intros Hi Hl Hp Hz. assert (A1 : it * l + level + 1 <= n * l). { transitivity ((it + 1) * l); [lia|]. apply Nat.mul_le_mono_r. lia. }
  assert (A2 : (it * l + level) * (k + 1) + p + 1 <= n * l * (k + 1)). { transitivity ((it * l + level + 1) * (k + 1)); [lia|]. apply Nat.mul_le_mono_r. exact A1. }
  assert (A3 : ((it * l + level) * (k + 1) + p) * (k + 1) + z + 1 <= n * l * (k + 1) * (k + 1)). { transitivity (((it * l + level) * (k + 1) + p + 1) * (k + 1)); [lia|]. apply Nat.mul_le_mono_r. exact A2. }
  transitivity ((((it * l + level) * (k + 1) + p) * (k + 1) + z + 1) * H); [lia|]. apply Nat.mul_le_mono_r. exact A3.
Qed.

Section C61.
Context {R : Type} (rO rI : R) (radd rmul rsub : R -> R -> R) (ropp : R -> R).
Hypothesis R_ring : ring_theory rO rI radd rmul rsub ropp (@eq R).
Context (w : Z) (ok : addr -> bool) (size : nat -> nat) (H T opt : nat) (tw : nat -> R * R) (q h : R) (of_int frac : Z -> R) (torus1 torus2 : R -> Z).
(** The constants of the transform are those of C60; the conversions map zero to zero. *)
Hypothesis (Hshape : shape H T opt) (Hvars : has_variables ok) (Hmem : has_memory ok size)
  (Htable : twiddle_table rO rI radd rmul ropp H tw) (Hq : tw 1 = (q, q)) (Hh : copies rO radd H h = rI)
  (Hof : of_int 0 = rO) (Ht1 : torus1 rO = 0%Z) (Ht2 : torus2 rO = 0%Z).
Notation N := (2 * H).
Notation B := (gpu_backend w rO radd rmul ropp H of_int frac torus1 torus2).
Notation kernel b k l partial n lwe lut out := (device_bootstrap_amortized w rO radd rmul rsub N (2 * opt) torus1 torus2 of_int tw q h b k l partial n lwe lut out).

(** Under every schedule, and with both layouts of memory, the kernel ends; the words it writes are the result of the bootstrap of the CPU
    model, with the arithmetic [gpu_backend], of the ciphertext whose words have been converted to double; the test vectors, the key and
    every buffer other than the output and the scratch buffers are unchanged. *)
Theorem C61_amortized : forall p b k l bsk lwe tv partial lut out before choices m,
  (32 <= w)%Z -> (b <= 31)%Z -> dec_wf w (Dec b l) -> (4 * Z.of_nat N < 2 ^ 32)%Z ->
  (2 * Z.of_nat (length bsk) * Z.of_nat l * (Z.of_nat k + 1) * (Z.of_nat k + 1) * Z.of_nat H < 2 ^ 32)%Z ->
  Forall (ggsw_wf w k N l) bsk -> length lwe = S (length bsk) -> Forall (is_word w) lwe -> glwe_wf w k N tv -> length before = S (k * N) ->
  enough_memory H k l (length bsk) lut out size -> test_vector_at H lut tv m -> key_at w rO rI radd rmul ropp H k l frac tw bsk m ->
  exists m' result,
    launch addr_eqb ok T (kernel b k l partial (length bsk) lwe lut out) choices m = Ret m' /\
    fft_bootstrap p w B N b (bsk_forward_fourier B bsk) before (map (as_double w) lwe) tv = Ret result /\ length result = S (k * N) /\
    (forall i, i <= k * N -> m' (Word OUT (out + i)) = Wd (nth i result 0%Z)) /\
    (forall c, shared c -> ~ In (buffer c) [ACC; ROT; RES; AFFT; OUT] -> m' c = m c).
Proof.
  intros p b k l bsk lwe tv partial lut out before choices m H32 Hb31 Hd HN32 Hidx Hbsk Hlen Hlwe Htv Hbefore (M1 & M2 & M3 & M4 & M5 & M6 & M7) Mtv Mkey.
  destruct Hshape as (HT & Hopt & Heven & n & Hn1 & Hn).
  assert (HH : 0 < H) by (rewrite Hn; pose proof (Nat.pow_nonzero 2 n); lia).
  assert (Hword : forall b i, i < size b -> ok (Word b i) = true) by (intros b0 i Hi; apply (Hmem b0 i Hi)).
  assert (Hdbl : forall b i im, i < size b -> ok (Dbl b i im) = true) by (intros b0 i im Hi; apply (Hmem b0 i Hi)).
  assert (Hnw : (Z.of_nat n + 3 < w)%Z).
  { assert (E : (Z.of_nat N = 2 ^ (Z.of_nat n + 1))%Z) by (rewrite Hn, Nat2Z.inj_mul, Nat2Z.inj_pow, Z.add_1_r, Z.pow_succ_r by lia; reflexivity).
    rewrite E in HN32. change (4)%Z with (2 ^ 2)%Z in HN32. rewrite <- Z.pow_add_r in HN32 by lia. apply Z.pow_lt_mono_r_iff in HN32; [|lia|lia]. clear - HN32 H32. lia. }
  assert (HN2 : (2 * Z.of_nat N < 2 ^ 32)%Z) by (clear - HN32; lia).
  set (tvf := fun z i => nth i (nth z tv []) 0%Z).
  assert (Etv : map (fun z => poly N (tvf z)) (seq 0 (S k)) = tv).
  { destruct Htv as [Hl Hf]. rewrite Forall_forall in Hf. apply (nth_ext _ _ [] []); [rewrite map_length, seq_length; auto|]. intros z Hz. rewrite map_length, seq_length in Hz.
    rewrite ExtProdProofs.nth_map_seq by exact Hz. apply poly_of. apply Hf, nth_In. rewrite Hl. exact Hz. }
  assert (Wtv : words_of w H k tvf).
  { intros z i Hz Hi. destruct Htv as [Hl Hf]. rewrite Forall_forall in Hf. destruct (Hf (nth z tv [])) as [Hl1 Hf1]; [apply nth_In; lia|]. rewrite Forall_forall in Hf1. apply Hf1, nth_In. lia. }
  set (key := fun it level p z => dir (cadd radd) (cmul radd rmul rsub) (csub rsub) tw n n (packed H (key_of w frac (nth z (nth p (nth level (nth it bsk []) []) []) [])))).
  set (ah := CudaPbsLink.a_hat w H lwe).
  assert (Hah : forall it, ah it <= 2 * N) by (intros it; exact (a_hat_range w radd rmul rsub H n of_int frac torus1 torus2 tw h b k l H32 HH Hn Hn1 key bsk (fun it level p z i _ _ _ _ _ => eq_refl) lwe Hlen Hlwe HN2 Hnw it)).
  assert (S_bsk : forall it level p z, it < length bsk -> level < l -> p <= k -> z <= k -> block H k l it level p + z * H + H <= size BSK).
  { intros it level p0 z H1 H2 H3 H4. unfold block. rewrite (block_index H k l (length bsk)) by assumption. etransitivity; [apply (block_bound H k l (length bsk)); assumption|exact M2]. }
  pose proof (kernel_ok w rO rI radd rmul rsub ropp R_ring ok size out H T n opt HT Hn Hn1 Hopt Heven Hvars Hword Hdbl of_int torus1 torus2 tw q h Hq b k l M3 M4 M5 M6 M7 key (length bsk) lut tvf ah (ah (length bsk)) M1 Hah (Hah _) S_bsk partial) as TR.
  assert (G : given rO H k l key (length bsk) lut tvf m).
  { split.
    - intros z i Hz Hi. apply Mtv; [destruct Htv as [Hl _]; lia|exact Hi].
    - intros it Hit level p0 z i H1 H2 H3 H4. unfold block. rewrite (block_index H k l (length bsk)) by assumption. unfold key. rewrite (direct_points rO rI radd rmul rsub ropp R_ring H n tw Hn Hn1 Htable _ i H4).
      replace (((it * l + level) * (k + 1) + p0) * (k + 1) * H + z * H) with ((((it * l + level) * (k + 1) + p0) * (k + 1) + z) * H) by lia. apply Mkey; assumption. }
  destruct (triple_launch ok T HT _ _ _ _ _ choices m TR G) as (m' & El & Hk & HQ).
  destruct HQ as [Q1 Q2].
  { apply stable_and; [apply words_stable; intros []|]. intros m1 m2 K E. rewrite K by (intros []||reflexivity). exact E. }
  destruct (bootstrap_value w rO rI radd rmul rsub ropp R_ring H n of_int frac torus1 torus2 tw h b k l Hd H32 Hb31 HH Hn Hn1 Htable Hh Hof Ht1 Ht2 key bsk (fun it level p z i _ _ _ _ _ => eq_refl) Hbsk lwe tvf Hlen Hlwe Wtv HN2 Hnw p before Hbefore)
    as (result & Eb & Lr & R1 & R2).
  rewrite Etv in Eb. exists m', result. split; [exact El|]. split; [exact Eb|]. split; [exact Lr|]. split.
  - intros i Hi. destruct (Nat.eq_dec i (k * N)) as [->|Hne]; [rewrite R2; exact Q2|].
    pose proof (Nat.div_mod i N ltac:(lia)) as D. pose proof (Nat.mod_upper_bound i N ltac:(lia)) as Dm.
    assert (Dk : i / N < k) by (apply Nat.div_lt_upper_bound; lia). set (z := i / N) in *. set (e := i mod N) in *. clearbody z e.
    replace i with (z * N + e) by lia. rewrite R1 by assumption. rewrite Nat.add_assoc. exact (Q1 z e Dk Dm).
  - intros c Hs Hc. apply Hk; [apply shared_local, Hs|]. destruct c; exact Hc.
Qed.
End C61.
Print Assumptions C61_amortized.

(** ** The hypotheses on memory can be met, for every key and every test vector: the memory that the conversion of the key leaves *)
Definition layout {R} (w : Z) (rO rI : R) radd rmul ropp (H k l lut : nat) (frac : Z -> R) (tw : nat -> R * R) (bsk : list (list (list (list (list Z))))) (tv : list (list Z)) : mem addr (val R) := fun c =>
  match c with
  | Word 1 a => Wd (nth ((a - lut) mod (2 * H)) (nth ((a - lut) / (2 * H)) tv []) 0%Z)
  | Dbl 2 a im =>
      let x := a / H in let y := x / (k + 1) in let t := y / (k + 1) in
      let poly := nth (x mod (k + 1)) (nth (y mod (k + 1)) (nth (t mod l) (nth (t / l) bsk []) []) []) [] in
      let v := polyval rO rI radd rmul ropp H (packed H (fun e => frac (sgn w (nth e poly 0%Z)))) (point ropp H tw (a mod H)) in
      Db (if im then snd v else fst v)
  | _ => Wd 0%Z
  end.
Lemma divmod a i n : i < n -> (a * n + i) / n = a /\ (a * n + i) mod n = i.
Proof. intros Hi. split; [rewrite Nat.div_add_l by lia; rewrite Nat.div_small by lia; lia|]. rewrite Nat.add_comm, Nat.mod_add by lia. apply Nat.mod_small, Hi. Qed.
Lemma layout_ok {R} w (rO rI : R) radd rmul ropp H k l lut frac tw bsk tv :
  test_vector_at H lut tv (layout w rO rI radd rmul ropp H k l lut frac tw bsk tv) /\ key_at w rO rI radd rmul ropp H k l frac tw bsk (layout w rO rI radd rmul ropp H k l lut frac tw bsk tv).
Proof.
  split.
  - intros z i Hz Hi. unfold layout, LUT. replace (lut + z * (2 * H) + i - lut) with (z * (2 * H) + i) by lia. destruct (divmod z i (2 * H) Hi) as [-> ->]. reflexivity.
  - intros it level p z i Hit Hl Hp Hz Hi. unfold element, layout, BSK. cbv zeta. destruct (divmod (((it * l + level) * (k + 1) + p) * (k + 1) + z) i H Hi) as [-> ->].
    destruct (divmod ((it * l + level) * (k + 1) + p) z (k + 1) ltac:(lia)) as [-> ->]. destruct (divmod (it * l + level) p (k + 1) ltac:(lia)) as [-> ->]. destruct (divmod it level l Hl) as [-> ->].
    cbn [db]. symmetry. apply surjective_pairing.
Qed.

(** A run of the kernel with integers for numbers: two threads, two schedules, the same words.  Without the barriers the schedules differ. *)
Definition case_kernel : list (seg addr (val Z)) :=
  device_bootstrap_amortized 32 0%Z Z.add Z.mul Z.sub 8 4 (fun x => x mod 2 ^ 32)%Z (fun x => x mod 2 ^ 32)%Z (fun x => x) (fun k => match k with 1 => (3, 3)%Z | 2 => (2, 1)%Z | _ => (1, -2)%Z end) 3%Z 1%Z
    6 1 2 true 2 [2 ^ 30; 3 * 2 ^ 28; 2 ^ 31]%Z 0 0.
Definition case_mem : mem addr (val Z) := fun c => match c with Word 1 i => Wd (Z.of_nat i * 2 ^ 27) | Dbl 2 i im => Db (Z.of_nat i * 5 + (if im then 2 else 0))%Z | _ => Wd 0 end.
Definition case_output (o : outcome (mem addr (val Z))) : list Z := match o with Ret m => map (fun i => wd (m (Word OUT i))) (seq 0 9) | Panic => [] end.
Example C61_case_schedules :
  case_output (launch addr_eqb (fun _ => true) 2 case_kernel [] case_mem) = case_output (launch addr_eqb (fun _ => true) 2 case_kernel (repeat 1 700) case_mem) /\
  case_output (launch addr_eqb (fun _ => true) 2 (no_barriers case_kernel) [] case_mem) <> case_output (launch addr_eqb (fun _ => true) 2 (no_barriers case_kernel) (repeat 1 3000) case_mem) /\
  nth 8 (case_output (launch addr_eqb (fun _ => true) 2 case_kernel [] case_mem)) 0%Z <> 0%Z.
Proof. split; [vm_compute; reflexivity|]. split; vm_compute; discriminate. Qed.
