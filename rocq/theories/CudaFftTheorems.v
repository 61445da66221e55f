(** * C60: the Fourier transforms of the CUDA backend compute products of polynomials, whatever the schedule of the threads *)
From Verif Require Import Base CudaBlockModel CudaBlockProofs CudaFftModel CudaFftSpec CudaFftAlgebra CudaFftProofs CudaFftFacts.
From Coq Require Import Ring.
Local Open Scope nat_scope.

(** The complex number in element [i] of the array at element [off] of a buffer *)
Definition element {R} (rO : R) (m : mem addr (val R)) (buf off i : nat) : R * R :=
  (db rO (m (Dbl buf (off + i) false)), db rO (m (Dbl buf (off + i) true))).
(** Cells that are not variables of a thread *)
Definition shared (c : addr) : Prop := match c with Loc _ _ => False | _ => True end.
(** [m'] differs from [m] in [H] elements of one buffer only *)
Definition rest_unchanged {R} (H buf off : nat) (m m' : mem addr (val R)) : Prop :=
  forall c, shared c -> (forall i im, i < H -> c <> Dbl buf (off + i) im) -> m' c = m c.
(** The memory that a kernel may use *)
Definition usable (ok : addr -> bool) (H buf off : nat) : Prop := forall i im, i < H -> ok (Dbl buf (off + i) im) = true.
Definition has_variables (ok : addr -> bool) : Prop := forall t r, ok (Loc t r) = true.
(** A transform of [H] complex numbers by [T] threads, each in charge of [opt] numbers *)
Definition shape (H T opt : nat) : Prop := 0 < T /\ opt * T = H /\ Nat.even opt = true /\ exists n, 1 <= n /\ H = 2 ^ n.

Lemma shared_local c : is_local c = false <-> shared c.
Proof. destruct c; cbn; split; try discriminate; try tauto; reflexivity. Qed.
Lemma only_rest {R} H buf off (m m' : mem addr (val R)) : only H buf off m m' -> rest_unchanged H buf off m m'.
Proof. intros Ho c Hs. apply Ho, shared_local, Hs. Qed.

Section C60.
Context {R : Type} (rO rI : R) (radd rmul rsub : R -> R -> R) (ropp : R -> R).
Hypothesis R_ring : ring_theory rO rI radd rmul rsub ropp (@eq R).
Notation mem := (mem addr (val R)).
Context (ok : addr -> bool) (H T opt : nat) (w : nat -> R * R) (q h : R).
Hypothesis (Hshape : shape H T opt) (Hvars : has_variables ok) (Htable : twiddle_table rO rI radd rmul ropp H w) (Hq : w 1 = (q, q)) (Hh : copies rO radd H h = rI).
Notation run k choices m := (launch addr_eqb ok T k choices m).
Notation direct buf off := (NSMFFT_direct rO radd rmul rsub w q buf off H opt).
Notation inverse buf off := (NSMFFT_inverse rO radd rmul rsub w h buf off H opt).
Notation element := (element rO). Notation times := (times radd rmul ropp).

(** The direct transform, under every schedule, evaluates the polynomial in the buffer at H points whose H-th power is i, and changes
    nothing else. *)
Theorem C60_direct : forall buf off choices m, usable ok H buf off ->
  exists m', run (direct buf off) choices m = Ret m' /\ rest_unchanged H buf off m m' /\
    forall i, i < H -> element m' buf off i = polyval rO rI radd rmul ropp H (element m buf off) (point ropp H w i) /\
                       power rO rI radd rmul ropp (point ropp H w i) H = (rO, rI).
Proof.
  intros buf off choices m Ha. destruct Hshape as (HT & Hopt & Heven & n & Hn1 & Hn).
  destruct (direct_launch rO rI radd rmul rsub ropp R_ring ok H T n opt w q HT Hn Hn1 Hopt Heven Hq Hvars buf off choices m Ha) as (m' & E & Ho & Hv).
  exists m'. split; [exact E|]. split; [apply only_rest, Ho|]. intros i Hi. split.
  - exact (eq_trans (Hv i Hi) (direct_points rO rI radd rmul rsub ropp R_ring H n w Hn Hn1 Htable (view rO buf off m) i Hi)).
  - exact (point_power rO rI radd rmul rsub ropp R_ring H n w Hn Hn1 Htable i Hi).
Qed.

(** Two polynomials with real coefficients, the second transform multiplied into the first one's place in a third buffer, and the
    inverse transform: whatever the schedules of the four launches, the third buffer holds the product modulo X^2H + 1. *)
Theorem C60_product : forall a b fb fo sb so rb ro c1 c2 c3 c4 m, fb <> sb -> fb <> rb -> sb <> rb ->
  usable ok H fb fo -> usable ok H sb so -> usable ok H rb ro ->
  (forall i, i < H -> element m fb fo i = packed H a i) -> (forall i, i < H -> element m sb so i = packed H b i) -> (forall i, i < H -> element m rb ro i = (rO, rO)) ->
  exists m1 m2 m3 m4,
    run (direct fb fo) c1 m = Ret m1 /\ run (direct sb so) c2 m1 = Ret m2 /\
    run [product_accumulate rO radd rmul rsub (2 * H) (2 * opt) rb ro fb fo sb so] c3 m2 = Ret m3 /\ run (inverse rb ro) c4 m3 = Ret m4 /\
    forall i, i < H -> element m4 rb ro i = packed H (nega_coeff rO radd rmul ropp (2 * H) a b) i.
Proof.
  intros a b fb fo sb so rb ro c1 c2 c3 c4 m N1 N2 N3 Uf Us Ur Ea Eb Ez. pose proof Hshape as (HT & Hopt & Heven & n & Hn1 & Hn).
  destruct (direct_launch rO rI radd rmul rsub ropp R_ring ok H T n opt w q HT Hn Hn1 Hopt Heven Hq Hvars fb fo c1 m Uf) as (m1 & E1 & O1 & V1).
  destruct (direct_launch rO rI radd rmul rsub ropp R_ring ok H T n opt w q HT Hn Hn1 Hopt Heven Hq Hvars sb so c2 m1 Us) as (m2 & E2 & O2 & V2).
  destruct (product_launch rO radd rmul rsub ok H T n opt HT Hn Hn1 Hopt Heven Hvars rb ro fb fo sb so c3 m2 Ur Uf Us N2 N3) as (m3 & E3 & O3 & V3).
  destruct (inverse_launch rO rI radd rmul rsub ropp R_ring ok H T n opt w h HT Hn Hn1 Hopt Heven Hvars rb ro c4 m3 Ur) as (m4 & E4 & O4 & V4).
  exists m1, m2, m3, m4. do 4 (split; [assumption|]). intros i Hi. rewrite <- (packed_product rO rI radd rmul rsub ropp R_ring H a b i Hi).
  etransitivity; [exact (V4 i Hi)|].
  rewrite (product_value rO rI radd rmul rsub ropp R_ring H n w h Hn Htable Hh (view rO fb fo m) (view rO sb so m) (view rO rb ro m3) i); [|clear i Hi|exact Hi].
  - apply (conv_ext rO rI radd rmul rsub ok H T n opt HT Hn Hn1 Hopt Hvars); [exact Ea|exact Eb|exact Hi].
  - intros i Hi. rewrite V3 by exact Hi. rewrite (only_view rO H sb so rb ro m1 m2 O2 ltac:(congruence)), (only_view rO H fb fo rb ro m m1 O1 ltac:(congruence)).
    replace (view rO rb ro m i) with (rO, rO) by (symmetry; exact (Ez i Hi)). rewrite (only_view rO H sb so fb fo m1 m2 O2 N1), V1, V2 by exact Hi.
    rewrite (dir_local _ _ _ w w H n Hn n (le_n n) (view rO sb so m1) (view rO sb so m)); [|intros j Hj; apply (only_view rO H fb fo sb so m m1 O1 ltac:(congruence))|exact Hi].
    exact (Radd_0_l (c_ring rO rI radd rmul rsub ropp R_ring) _).
Qed.

(** Each block of the batch of transforms that converts a bootstrapping key *)
Theorem C60_batch : forall block ib fb fo ob choices m, ib <> fb -> fb <> ob -> ib <> ob ->
  usable ok H ib (block * H) -> usable ok H fb fo -> usable ok H ob (block * H) ->
  exists m', run (batch_NSMFFT rO radd rmul rsub w q (2 * H) (2 * opt) block ib fb fo ob) choices m = Ret m' /\
    (forall i, i < H -> element m' ob (block * H) i = polyval rO rI radd rmul ropp H (element m ib (block * H)) (point ropp H w i)) /\
    forall c, shared c -> (forall i im, i < H -> c <> Dbl ob (block * H + i) im) -> (forall i im, i < H -> c <> Dbl fb (fo + i) im) -> m' c = m c.
Proof.
  intros block ib fb fo ob choices m N1 N2 N3 Ui Uf Uo. destruct Hshape as (HT & Hopt & Heven & n & Hn1 & Hn).
  destruct (batch_launch rO rI radd rmul rsub ropp R_ring ok H T n opt w q HT Hn Hn1 Hopt Heven Hq Hvars block ib fb fo ob choices m Ui Uf Uo N1 N2 N3) as (m' & E & V & O).
  exists m'. split; [exact E|]. split.
  - intros i Hi. exact (eq_trans (V i Hi) (direct_points rO rI radd rmul rsub ropp R_ring H n w Hn Hn1 Htable (view rO ib (block * H) m) i Hi)).
  - intros c Hc. apply O, shared_local, Hc.
Qed.
End C60.

(** The sizes for which the kernels are compiled: the transform has half the degree and half of opt. *)
Example C60_supported : Forall (fun N => shape (N / 2) (N / choose_opt N) (choose_opt N / 2)) [256; 512; 1024; 2048; 4096; 8192].
Proof.
  repeat apply Forall_cons; try apply Forall_nil; unfold shape; (split; [apply Nat.ltb_lt; vm_compute; reflexivity|]; split; [apply Nat.eqb_eq; vm_compute; reflexivity|]; split; [vm_compute; reflexivity|]).
  - exists 7. split; [lia|apply Nat.eqb_eq; vm_compute; reflexivity].
  - exists 8. split; [lia|apply Nat.eqb_eq; vm_compute; reflexivity].
  - exists 9. split; [lia|apply Nat.eqb_eq; vm_compute; reflexivity].
  - exists 10. split; [lia|apply Nat.eqb_eq; vm_compute; reflexivity].
  - exists 11. split; [lia|apply Nat.eqb_eq; vm_compute; reflexivity].
  - exists 12. split; [lia|apply Nat.eqb_eq; vm_compute; reflexivity].
Qed.

(** A run: integers and arbitrary constants, under two schedules.  The constants of the theorems are instantiated in
    [CudaFftRealTheorems]. *)
Definition case_twiddles (k : nat) : Z * Z := match k with 1 => (3, 3)%Z | 2 => (2, 1)%Z | _ => (1, -2)%Z end.
Definition case_memory : mem addr (val Z) := fun c => match c with Dbl 0 i im => Db (Z.of_nat i * 5 + (if im then 2 else 0))%Z | _ => Wd 0 end.
Definition case_read (m : outcome (mem addr (val Z))) : list (Z * Z) := match m with Ret m => map (element 0%Z m 0 0) (seq 0 4) | Panic => [] end.
Definition case_ok (c : addr) : bool := match c with Dbl 0 i _ => i <? 4 | Loc _ _ => true | _ => false end.
Definition case_direct : list (seg addr (val Z)) := NSMFFT_direct 0%Z Z.add Z.mul Z.sub case_twiddles 3%Z 0 0 4 2.
Definition case_schedule : list nat := flat_map (fun i => [1; 0; 0; 1; 1]) (seq 0 20).
Example C60_case_schedules : case_read (launch addr_eqb case_ok 2 case_direct [] case_memory) = case_read (launch addr_eqb case_ok 2 case_direct case_schedule case_memory) /\
  case_read (launch addr_eqb case_ok 2 case_direct case_schedule case_memory) <> map (element 0%Z case_memory 0 0) (seq 0 4).
Proof. split; [vm_compute; reflexivity|vm_compute; discriminate]. Qed.
(** Without the barrier between the levels two schedules give two results, so the theorem would not hold. *)
Definition no_barriers (k : list (seg addr (val Z))) : list (seg addr (val Z)) := filter (fun s => match s with Bar => false | _ => true end) k.
Theorem C60_without_barriers_refuted : exists choices choices',
  case_read (launch addr_eqb case_ok 2 (no_barriers case_direct) choices case_memory) <> case_read (launch addr_eqb case_ok 2 (no_barriers case_direct) choices' case_memory).
Proof. exists [], (repeat 1 30). vm_compute. discriminate. Qed.
Print Assumptions C60_direct.
Print Assumptions C60_product.
Print Assumptions C60_batch.
Print Assumptions C60_without_barriers_refuted.
