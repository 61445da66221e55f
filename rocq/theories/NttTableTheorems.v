(** * Theorems about the shipped tables: C37 *)
From Verif Require Import Base Word WordFacts NegaRing PolySpec NttModel NttSpec NttProofs NttEval NttApi NttTheorems NttTables32 NttTables64 NttTableProofs NttCheck32 NttCheck64.

(** The constants of one file: width of the words, width of the type of the residues, modulus, log2 of
    the size, roots, inverse roots, inverse of the size. *)
Record params := Params { pr_w : Z; pr_W : Z; pr_q : Z; pr_L : nat; pr_roots : list Z; pr_roots_inv : list Z; pr_n_inv : Z }.

(** /repo/concrete-core/src/backends/ntt/private/math/params/mod.rs:1-13 *)
Definition shipped : list params :=
  [ Params 32 64 MOD_32_128 7 ROOTS_32_128 INVROOTS_32_128 NINV_32_128;
    Params 32 64 MOD_32_256 8 ROOTS_32_256 INVROOTS_32_256 NINV_32_256;
    Params 32 64 MOD_32_512 9 ROOTS_32_512 INVROOTS_32_512 NINV_32_512;
    Params 32 64 MOD_32_1024 10 ROOTS_32_1024 INVROOTS_32_1024 NINV_32_1024;
    Params 32 64 MOD_32_2048 11 ROOTS_32_2048 INVROOTS_32_2048 NINV_32_2048;
    Params 32 64 MOD_32_4096 12 ROOTS_32_4096 INVROOTS_32_4096 NINV_32_4096;
    Params 64 128 MOD_64_128 7 ROOTS_64_128 INVROOTS_64_128 NINV_64_128;
    Params 64 128 MOD_64_256 8 ROOTS_64_256 INVROOTS_64_256 NINV_64_256;
    Params 64 128 MOD_64_512 9 ROOTS_64_512 INVROOTS_64_512 NINV_64_512;
    Params 64 128 MOD_64_1024 10 ROOTS_64_1024 INVROOTS_64_1024 NINV_64_1024;
    Params 64 128 MOD_64_2048 11 ROOTS_64_2048 INVROOTS_64_2048 NINV_64_2048;
    Params 64 128 MOD_64_4096 12 ROOTS_64_4096 INVROOTS_64_4096 NINV_64_4096 ].

Lemma shipped_32 m roots roots_inv n_inv : (m <= 12)%nat -> roots = firstn (2 ^ m) ROOTS_32_4096 -> roots_inv = firstn (2 ^ m) INVROOTS_32_4096 ->
  residue MOD_32_4096 n_inv -> (n_inv * 2 ^ Z.of_nat m) mod MOD_32_4096 = 1 -> exists psi, table_ok MOD_32_4096 m psi roots roots_inv n_inv.
Proof. intros Hm -> -> H1 H2. apply (check_table_ok _ 12); try assumption; [unfold MOD_32_4096; lia|exact check_32]. Qed.
Lemma shipped_64 m roots roots_inv n_inv : (m <= 12)%nat -> roots = firstn (2 ^ m) ROOTS_64_4096 -> roots_inv = firstn (2 ^ m) INVROOTS_64_4096 ->
  residue MOD_64_4096 n_inv -> (n_inv * 2 ^ Z.of_nat m) mod MOD_64_4096 = 1 -> exists psi, table_ok MOD_64_4096 m psi roots roots_inv n_inv.
Proof. intros Hm -> -> H1 H2. apply (check_table_ok _ 12); try assumption; [unfold MOD_64_4096; lia|exact check_64]. Qed.

Definition params_ok (t : params) : Prop :=
  modulus_ok (pr_W t) (pr_q t) /\ pr_W t = 2 * pr_w t /\ 2 ^ (pr_w t - 1) < pr_q t < 2 ^ pr_w t /\ size_ok Debug (pr_L t) /\
  exists psi, table_ok (pr_q t) (pr_L t) psi (pr_roots t) (pr_roots_inv t) (pr_n_inv t) /\
    (** psi is a primitive root of unity of order 2N *)
    forall j, 0 < j < 2 * 2 ^ Z.of_nat (pr_L t) -> ~ eqm (pr_q t) (psi ^ j) 1.

Lemma params_ok_intro w W q m roots roots_inv n_inv : 2 < q -> modulus_ok W q -> W = 2 * w -> 2 ^ (w - 1) < q < 2 ^ w -> (7 <= m <= 12)%nat ->
  (exists psi, table_ok q m psi roots roots_inv n_inv) -> params_ok (Params w W q m roots roots_inv n_inv).
Proof.
  intros Hq H1 H2 H3 H4 (psi & H5). split; [exact H1|]. split; [exact H2|]. split; [exact H3|]. split; [right; exact H4|].
  exists psi. split; [exact H5|]. apply order_exact; [exact Hq|]. apply H5.
Qed.

Theorem C37_shipped_tables : forall t, In t shipped -> params_ok t.
Proof.
  assert (H32 : 2 < MOD_32_4096 /\ modulus_ok 64 MOD_32_4096 /\ 2 ^ (32 - 1) < MOD_32_4096 < 2 ^ 32)
    by (unfold MOD_32_4096, modulus_ok; repeat split; vm_compute; congruence).
  assert (H64 : 2 < MOD_64_4096 /\ modulus_ok 128 MOD_64_4096 /\ 2 ^ (64 - 1) < MOD_64_4096 < 2 ^ 64)
    by (unfold MOD_64_4096, modulus_ok; repeat split; vm_compute; congruence).
  destruct H32 as (A1 & A2 & A3), H64 as (B1 & B2 & B3).
  intros t Ht. unfold shipped in Ht. cbn [In] in Ht.
  Ltac shipped_case H lem p1 p2 :=
    destruct H as [<-|H]; [apply params_ok_intro; [assumption|assumption|reflexivity|assumption|lia|];
      apply lem; [lia|exact p1|exact p2|unfold residue; vm_compute; split; congruence|vm_compute; reflexivity]|].
  shipped_case Ht shipped_32 ROOTS_32_128_prefix INVROOTS_32_128_prefix.
  shipped_case Ht shipped_32 ROOTS_32_256_prefix INVROOTS_32_256_prefix.
  shipped_case Ht shipped_32 ROOTS_32_512_prefix INVROOTS_32_512_prefix.
  shipped_case Ht shipped_32 ROOTS_32_1024_prefix INVROOTS_32_1024_prefix.
  shipped_case Ht shipped_32 ROOTS_32_2048_prefix INVROOTS_32_2048_prefix.
  shipped_case Ht shipped_32 ROOTS_32_4096_prefix INVROOTS_32_4096_prefix.
  shipped_case Ht shipped_64 ROOTS_64_128_prefix INVROOTS_64_128_prefix.
  shipped_case Ht shipped_64 ROOTS_64_256_prefix INVROOTS_64_256_prefix.
  shipped_case Ht shipped_64 ROOTS_64_512_prefix INVROOTS_64_512_prefix.
  shipped_case Ht shipped_64 ROOTS_64_1024_prefix INVROOTS_64_1024_prefix.
  shipped_case Ht shipped_64 ROOTS_64_2048_prefix INVROOTS_64_2048_prefix.
  shipped_case Ht shipped_64 ROOTS_64_4096_prefix INVROOTS_64_4096_prefix.
  contradiction.
Qed.

(** The transform built from a shipped table is correct, in every build. *)
Theorem C37_shipped_transforms t p : In t shipped ->
  let N := (2 ^ pr_L t)%nat in
  let nt := ntt_new N (pr_L t) (pr_roots t) (pr_roots_inv t) (pr_n_inv t) in
  exists psi, transform_for (pr_q t) (pr_L t) psi nt /\ modulus_ok (pr_W t) (pr_q t) /\ size_ok p (pr_L t).
Proof.
  intros Ht N nt. destruct (C37_shipped_tables t Ht) as (H1 & _ & _ & H4 & psi & H5 & _). exists psi.
  split; [split; [reflexivity|split; [apply repeat_length|exact H5]]|]. split; [exact H1|]. destruct H4 as [H4|H4]; [discriminate|]. right. exact H4.
Qed.

Theorem C37_shipped_products t p a b out1 out2 out3 : In t shipped ->
  let N := (2 ^ pr_L t)%nat in
  let nt := ntt_new N (pr_L t) (pr_roots t) (pr_roots_inv t) (pr_n_inv t) in
  length out1 = N -> length out2 = N -> length out3 = N -> residues (pr_q t) N a -> residues (pr_q t) N b ->
  exists c nt',
    (let! (fa, nt) := forward p (pr_W t) (pr_q t) nt out1 a in
     let! (fb, nt) := forward p (pr_W t) (pr_q t) nt out2 b in
     let! acc := multiply_accumulate p (pr_W t) (pr_q t) (repeat 0 N) fa fb in
     backward p (pr_W t) (pr_q t) nt out3 acc) = Ret (c, nt') /\
    residues (pr_q t) N c /\ req (pr_q t) (R N c) (rmul (R N a) (R N b)).
Proof.
  intros Ht N nt Ho1 Ho2 Ho3 Ha Hb. destruct (C37_shipped_transforms t p Ht) as (psi & H1 & H2 & H3).
  destruct (C36_sum_of_products p (pr_W t) (pr_q t) (pr_L t) psi nt out1 out2 out3 [(a, b)] H2 H3 H1 Ho1 Ho2 Ho3) as (c & nt' & E & Hc & EE).
  { constructor; [split; assumption|constructor]. }
  exists c, nt'. split; [|split; [exact Hc|]].
  - rewrite <- E. cbn [ntt_sum_of_products]. fold N. destruct (forward p (pr_W t) (pr_q t) nt out1 a) as [[fa nt1]|]; [|reflexivity]. cbn [obind].
    destruct (forward p (pr_W t) (pr_q t) nt1 out2 b) as [[fb nt2]|]; [|reflexivity]. cbn [obind].
    destruct (multiply_accumulate _ _ _ _ _ _); reflexivity.
  - fold N in EE. intros k. rewrite (EE k). cbn [map rdot radd rcoef proj1_sig fst snd]. apply eqm_eq. cbn. lia.
Qed.
Example C37_case : In (Params 32 64 MOD_32_1024 10 ROOTS_32_1024 INVROOTS_32_1024 NINV_32_1024) shipped /\ MOD_32_1024 = 4294828033 /\ length ROOTS_32_1024 = 1024%nat.
Proof. split; [unfold shipped; cbn [In]; tauto|]. split; vm_compute; reflexivity. Qed.
Print Assumptions C37_shipped_tables.
Print Assumptions C37_shipped_transforms.
Print Assumptions C37_shipped_products.
