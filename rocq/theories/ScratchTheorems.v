(** * ScratchTheorems: C52, the scratch memory that is asked for is enough.
    The theorems say that an operation started in a buffer that meets its [*_scratch] requirement never runs out of scratch
    memory: for all sizes, all levels, all data and wherever the buffer lies. *)
From Verif Require Import Base WopModel ScratchModel.

(** ** Specification *)

(** A buffer meets a requirement if it is aligned and has the required size, or if it has room for the alignment as well. *)
Definition meets (s : stack) (r : req) : Prop :=
  (st_addr s mod rq_align r = 0 /\ rq_size r <= st_len s) \/ rq_size r + (rq_align r - 1) <= st_len s.

(** ** Proofs *)

Local Definition fits (r : req) (s : stack) : Prop :=
  round_up (st_addr s) (rq_align r) + rq_size r <= st_addr s + st_len s.

Local Lemma pow_pos : forall n : nat, 0 < 2 ^ Z.of_nat n.
Proof. intros n. apply Z.pow_pos_nonneg; lia. Qed.

Local Lemma pow_max : forall a b : nat, (a <= b)%nat -> exists k, 2 ^ Z.of_nat b = k * 2 ^ Z.of_nat a /\ 0 < k.
Proof.
  intros a b L. exists (2 ^ Z.of_nat (b - a)). split; [|apply pow_pos].
  rewrite <- Z.pow_add_r by lia. f_equal. lia.
Qed.

Local Lemma round_up_bounds : forall a al, 0 < al -> a <= round_up a al < a + al.
Proof.
  intros a al P. unfold round_up.
  pose proof (Z.div_mod (a + al - 1) al ltac:(lia)) as E.
  pose proof (Z.mod_pos_bound (a + al - 1) al P) as B.
  replace ((a + al - 1) / al * al) with (al * ((a + al - 1) / al)) by ring. clear - E B. lia.
Qed.

Local Lemma round_up_least : forall a al k, 0 < al -> a <= k * al -> round_up a al <= k * al.
Proof.
  intros a al k P L. unfold round_up.
  apply Z.mul_le_mono_nonneg_r; [lia|].
  assert ((a + al - 1) / al < k + 1); [|lia].
  apply Z.div_lt_upper_bound; [lia|]. lia.
Qed.

Local Lemma round_up_multiple : forall a al, exists k, round_up a al = k * al.
Proof. intros. eexists. reflexivity. Qed.

Local Lemma round_up_exact : forall a al, 0 < al -> a mod al = 0 -> round_up a al = a.
Proof.
  intros a al P H. apply Z.mod_divide in H; [|lia]. destruct H as [k ->].
  pose proof (round_up_least (k * al) al k P ltac:(lia)). pose proof (round_up_bounds (k * al) al P). lia.
Qed.

Local Lemma round_up_mono_align : forall a (x y : nat), (x <= y)%nat ->
  round_up a (2 ^ Z.of_nat x) <= round_up a (2 ^ Z.of_nat y).
Proof.
  intros a x y L. destruct (pow_max x y L) as [k [E P]].
  pose proof (pow_pos x) as Px. pose proof (pow_pos y) as Py.
  destruct (round_up_multiple a (2 ^ Z.of_nat y)) as [m Em]. rewrite Em.
  pose proof (round_up_bounds a _ Py) as B. rewrite Em in B.
  rewrite E in *. replace (m * (k * 2 ^ Z.of_nat x)) with (m * k * 2 ^ Z.of_nat x) in * by ring.
  apply round_up_least; [exact Px|lia].
Qed.

Local Lemma fits_meets : forall r s, meets s r -> fits r s.
Proof.
  intros r s [[A L]|L]; unfold fits; pose proof (pow_pos (rq_log r)) as P; fold (rq_align r) in P.
  - rewrite (round_up_exact _ _ P A). lia.
  - pose proof (round_up_bounds (st_addr s) _ P). lia.
Qed.

Local Lemma fits_can_hold : forall r s, fits r s -> can_hold s r = true.
Proof. intros r s F. unfold can_hold. apply Z.leb_le. exact F. Qed.

(** Sizes are not negative. *)
Local Definition nonneg (r : req) : Prop := 0 <= rq_size r.

(** [s'] is what is left of [s] once the blocks of [r] have been taken. *)
Local Definition taken (r : req) (s s' : stack) : Prop :=
  st_addr s' + st_len s' = st_addr s + st_len s /\ st_addr s' <= round_up (st_addr s) (rq_align r) + rq_size r.

Local Lemma req_and_comm : forall a b, req_and a b = req_and b a.
Proof. intros a b. unfold req_and. rewrite Nat.max_comm. f_equal. lia. Qed.

(** A smaller requirement fits as well. *)
Local Definition smaller (a b : req) : Prop := (rq_log a <= rq_log b)%nat /\ rq_size a <= rq_size b.

Local Lemma fits_smaller : forall a b s, smaller a b -> fits b s -> fits a s.
Proof.
  intros a b s [L S] F. unfold fits, rq_align in *.
  pose proof (round_up_mono_align (st_addr s) _ _ L). lia.
Qed.

Local Lemma smaller_refl : forall a, smaller a a.
Proof. intros. split; lia. Qed.
Local Lemma smaller_trans : forall a b c, smaller a b -> smaller b c -> smaller a c.
Proof. intros a b c [] []. split; lia. Qed.
Local Lemma smaller_or_l : forall a b, smaller a (req_or a b).
Proof.
  intros a b. unfold smaller, req_or. cbn [rq_log rq_size].
  pose proof (round_up_bounds (rq_size a) _ (pow_pos (Nat.max (rq_log a) (rq_log b)))).
  split; lia.
Qed.
Local Lemma smaller_or_r : forall a b, smaller b (req_or a b).
Proof.
  intros a b. unfold smaller, req_or. cbn [rq_log rq_size].
  pose proof (round_up_bounds (rq_size b) _ (pow_pos (Nat.max (rq_log a) (rq_log b)))).
  split; lia.
Qed.
Local Lemma smaller_and_l : forall a b, nonneg b -> smaller a (req_and a b).
Proof.
  intros a b NN. unfold nonneg in NN. unfold smaller, req_and. cbn [rq_log rq_size].
  pose proof (round_up_bounds (rq_size a) _ (pow_pos (Nat.max (rq_log a) (rq_log b)))).
  pose proof (round_up_bounds (rq_size b) _ (pow_pos (Nat.max (rq_log a) (rq_log b)))).
  split; lia.
Qed.
Local Lemma smaller_and_r : forall a b, nonneg a -> smaller b (req_and a b).
Proof. intros. rewrite req_and_comm. apply smaller_and_l. assumption. Qed.

Local Lemma round_up_mono : forall a b al, 0 < al -> a <= b -> round_up a al <= round_up b al.
Proof.
  intros a b al P L. destruct (round_up_multiple b al) as [k E]. rewrite E.
  apply round_up_least; [exact P|]. pose proof (round_up_bounds b al P). lia.
Qed.
Local Lemma smaller_and : forall a a' b b', smaller a a' -> smaller b b' -> smaller (req_and a b) (req_and a' b').
Proof.
  intros a a' b b' [L1 S1] [L2 S2]. unfold smaller, req_and. cbn [rq_log rq_size]. split; [lia|].
  pose proof (round_up_mono_align (rq_size a) (Nat.max (rq_log a) (rq_log b)) (Nat.max (rq_log a') (rq_log b')) ltac:(lia)).
  pose proof (round_up_mono_align (rq_size b) (Nat.max (rq_log a) (rq_log b)) (Nat.max (rq_log a') (rq_log b')) ltac:(lia)).
  pose proof (round_up_mono (rq_size a) (rq_size a') _ (pow_pos (Nat.max (rq_log a') (rq_log b'))) S1).
  pose proof (round_up_mono (rq_size b) (rq_size b') _ (pow_pos (Nat.max (rq_log a') (rq_log b'))) S2).
  lia.
Qed.
Local Lemma fold_or_grows : forall rs a, smaller a (fold_left req_or rs a).
Proof.
  induction rs as [|r rs IH]; intros a; cbn; [apply smaller_refl|].
  eapply smaller_trans; [apply (smaller_or_l a r)|apply IH].
Qed.
Local Lemma smaller_any : forall rs a r, In r rs -> smaller r (fold_left req_or rs a).
Proof.
  induction rs as [|x rs IH]; intros a r [].
  - subst. cbn. eapply smaller_trans; [apply (smaller_or_r a r)|apply fold_or_grows].
  - cbn. apply IH. assumption.
Qed.
Local Lemma fits_any : forall rs r s, In r rs -> fits (any_of rs) s -> fits r s.
Proof. intros rs r s I F. eapply fits_smaller; [|exact F]. apply smaller_any. exact I. Qed.


Local Lemma fits_left : forall a b s, nonneg b -> fits (req_and a b) s -> fits a s.
Proof. intros a b s N F. eapply fits_smaller; [apply smaller_and_l; exact N|exact F]. Qed.

Local Lemma taken_rest : forall a b s s', taken a s s' -> fits (req_and a b) s -> fits b s'.
Proof.
  intros a b s s' [E A] F. unfold fits, req_and, rq_align in *. cbn [rq_log rq_size] in F. rewrite E.
  set (m := Nat.max (rq_log a) (rq_log b)) in *. pose proof (pow_pos m) as Pm.
  pose proof (round_up_mono_align (st_addr s) (rq_log a) m ltac:(lia)) as M1.
  pose proof (round_up_bounds (rq_size a) _ Pm) as B1. pose proof (round_up_bounds (rq_size b) _ Pm) as B2.
  assert (M2 : round_up (st_addr s') (2 ^ Z.of_nat (rq_log b)) <=
               round_up (st_addr s) (2 ^ Z.of_nat m) + round_up (rq_size a) (2 ^ Z.of_nat m)).
  { eapply Z.le_trans; [apply (round_up_mono_align _ _ m); lia|].
    destruct (round_up_multiple (st_addr s) (2 ^ Z.of_nat m)) as [k1 E1].
    destruct (round_up_multiple (rq_size a) (2 ^ Z.of_nat m)) as [k2 E2].
    rewrite E1, E2 in *. rewrite <- Z.mul_add_distr_r. apply round_up_least; [exact Pm|]. lia. }
  lia.
Qed.

Local Lemma taken_and : forall a b s s1 s2, taken a s s1 -> taken b s1 s2 -> taken (req_and a b) s s2.
Proof.
  intros a b s s1 s2 [E1 A1] [E2 A2]. split; [congruence|].
  unfold req_and, rq_align in *. cbn [rq_log rq_size].
  set (m := Nat.max (rq_log a) (rq_log b)) in *. pose proof (pow_pos m) as Pm.
  pose proof (round_up_mono_align (st_addr s) (rq_log a) m ltac:(lia)) as M1.
  pose proof (round_up_bounds (rq_size a) _ Pm) as B1. pose proof (round_up_bounds (rq_size b) _ Pm) as B2.
  assert (M2 : round_up (st_addr s1) (2 ^ Z.of_nat (rq_log b)) <=
               round_up (st_addr s) (2 ^ Z.of_nat m) + round_up (rq_size a) (2 ^ Z.of_nat m)).
  { eapply Z.le_trans; [apply (round_up_mono_align _ _ m); lia|].
    destruct (round_up_multiple (st_addr s) (2 ^ Z.of_nat m)) as [k1 F1].
    destruct (round_up_multiple (rq_size a) (2 ^ Z.of_nat m)) as [k2 F2].
    rewrite F1, F2 in *. rewrite <- Z.mul_add_distr_r. apply round_up_least; [exact Pm|]. lia. }
  lia.
Qed.

Local Lemma taken_empty : forall s, taken req_empty s s.
Proof.
  intros s. split; [reflexivity|]. unfold rq_align, req_empty. cbn [rq_log rq_size].
  pose proof (round_up_bounds (st_addr s) (2 ^ Z.of_nat 0) ltac:(lia)). lia.
Qed.

Local Lemma fits_take : forall sz n al s, fits (new_aligned sz n al) s ->
  exists s', make_aligned sz n al s = Ret s' /\ taken (new_aligned sz n al) s s'.
Proof.
  intros sz n al s F. unfold fits, new_aligned, rq_align in F. cbn [rq_log rq_size] in F.
  unfold make_aligned. cbv zeta. destruct (Z.leb_spec (round_up (st_addr s) (2 ^ Z.of_nat al) + sz * Z.of_nat n) (st_addr s + st_len s)); [|lia].
  eexists. split; [reflexivity|]. split; cbn [st_addr st_len]; [lia|].
  unfold new_aligned, rq_align. cbn [rq_log rq_size]. lia.
Qed.

(** Fewer elements *)
Local Lemma smaller_new : forall sz n n' al, 0 <= sz -> (n <= n')%nat -> smaller (new_aligned sz n al) (new_aligned sz n' al).
Proof. intros. unfold smaller, new_aligned. cbn [rq_log rq_size]. split; [lia|]. apply Z.mul_le_mono_nonneg_l; lia. Qed.

Local Lemma nonneg_new : forall sz n al, 0 <= sz -> nonneg (new_aligned sz n al).
Proof. intros. unfold nonneg, new_aligned. cbn [rq_size]. apply Z.mul_nonneg_nonneg; lia. Qed.
Local Lemma nonneg_and : forall a b, nonneg a -> nonneg b -> nonneg (req_and a b).
Proof.
  intros a b A B. unfold nonneg, req_and in *. cbn [rq_size].
  pose proof (round_up_bounds (rq_size a) _ (pow_pos (Nat.max (rq_log a) (rq_log b)))).
  pose proof (round_up_bounds (rq_size b) _ (pow_pos (Nat.max (rq_log a) (rq_log b)))). lia.
Qed.
Local Lemma nonneg_fold_and : forall rs a, Forall nonneg rs -> nonneg a -> nonneg (fold_left req_and rs a).
Proof. induction rs as [|r rs IH]; intros a H A; cbn; [exact A|]. inversion H; subst. apply IH; [assumption|]. apply nonneg_and; assumption. Qed.
Local Lemma nonneg_any : forall r rs, In r rs -> nonneg r -> nonneg (any_of rs).
Proof. intros r rs I N. destruct (smaller_any rs req_empty r I) as [_ S]. unfold nonneg, any_of in *. lia. Qed.

(** Peeling a requirement: first block first, or last block first. *)
Local Lemma peel_first : forall sz n al r s, nonneg r -> fits (req_and (new_aligned sz n al) r) s ->
  exists s', make_aligned sz n al s = Ret s' /\ fits r s' /\ taken (new_aligned sz n al) s s'.
Proof.
  intros sz n al r s N F. destruct (fits_take sz n al s (fits_left _ _ _ N F)) as [s' [E T]].
  exists s'. split; [exact E|]. split; [exact (taken_rest _ _ _ _ T F)|exact T].
Qed.
Local Lemma peel_last : forall sz n al r s, nonneg r -> fits (req_and r (new_aligned sz n al)) s ->
  exists s', make_aligned sz n al s = Ret s' /\ fits r s' /\ taken (new_aligned sz n al) s s'.
Proof. intros. apply peel_first; [assumption|]. rewrite req_and_comm. assumption. Qed.

(** The next block once the blocks of [a] have been taken. *)
Local Lemma take_next : forall a sz n al s s1, taken a s s1 -> fits (req_and a (new_aligned sz n al)) s ->
  exists s2, make_aligned sz n al s1 = Ret s2 /\ taken (req_and a (new_aligned sz n al)) s s2.
Proof.
  intros a sz n al s s1 T F. destruct (fits_take sz n al s1 (taken_rest _ _ _ _ T F)) as [s2 [E T2]].
  exists s2. split; [exact E|exact (taken_and _ _ _ _ _ T T2)].
Qed.

Local Lemma times_ret : forall n o, o = Ret tt -> times n o = Ret tt.
Proof. intros n o ->. induction n; [reflexivity|exact IHn]. Qed.
Local Lemma each_ret : forall {A} (l : list A) f, (forall a, f a = Ret tt) -> each l f = Ret tt.
Proof. intros A l f H. induction l as [|a l IH]; cbn; [reflexivity|]. rewrite H. exact IH. Qed.

Section Backend.
Variable plan : req.
Hypothesis plan_ok : nonneg plan.
Variables (p : profile) (sz : Z).
Hypothesis sz_ok : 0 <= sz.

Local Hint Resolve nonneg_new nonneg_and : scratch.

Local Lemma forward_ok : forall s, fits plan s -> forward plan s = Ret tt.
Proof. intros s F. unfold forward, run_plan. rewrite (fits_can_hold _ _ F). reflexivity. Qed.

Local Lemma C64_ok : 0 <= C64. Proof. unfold C64. lia. Qed.

Local Lemma backward_ok : forall N s, fits (backward_scratch plan N) s -> backward plan N s = Ret tt.
Proof.
  intros N s F. unfold backward_scratch in F. destruct (peel_last _ _ _ _ _ plan_ok F) as [s' [E [F' _]]].
  unfold backward. rewrite E. cbn [obind]. unfold run_plan. rewrite (fits_can_hold _ _ F'). reflexivity.
Qed.

Local Lemma half_le : forall N g, (N / 2 * g <= g * N / 2)%nat.
Proof.
  intros N g. apply Nat.div_le_lower_bound; [lia|].
  pose proof (Nat.div_mod N 2 ltac:(lia)) as E. rewrite E at 2.
  rewrite Nat.mul_add_distr_l. set (h := (N / 2)%nat). clearbody h. clear E. nia.
Qed.

Local Lemma nn_ep : forall g N, nonneg (external_product_scratch plan sz g N).
Proof.
  intros g N. unfold external_product_scratch. apply nonneg_and; [|apply nonneg_new, C64_ok].
  eapply nonneg_any; [right; left; reflexivity|]. apply nonneg_and; [exact plan_ok|apply nonneg_new, C64_ok].
Qed.

Local Lemma external_product_ok : forall g N l s, fits (external_product_scratch plan sz g N) s ->
  external_product plan sz g N l s = Ret tt.
Proof.
  intros g N l s F. unfold external_product_scratch in F. cbv zeta in F.
  match type of F with fits (req_and ?a ?b) _ => set (sub0 := a) in F end.
  assert (NN0 : nonneg sub0).
  { eapply nonneg_any; [right; left; reflexivity|]. apply nonneg_and; [exact plan_ok|apply nonneg_new, C64_ok]. }
  assert (F' : fits (req_and sub0 (new_aligned C64 (N / 2 * g) CACHELINE)) s).
  { eapply fits_smaller; [|exact F]. apply smaller_and; [apply smaller_refl|]. apply smaller_new; [apply C64_ok|apply half_le]. }
  destruct (peel_last _ _ _ _ _ NN0 F') as [s0 [E0 [F0 _]]].
  unfold external_product. rewrite E0. cbn [obind].
  assert (Fb : fits (backward_scratch plan N) s0) by (eapply fits_any; [|exact F0]; right; left; reflexivity).
  assert (Ff : fits (req_and (req_and (req_and (forward_scratch plan) (new_aligned C64 (N / 2) CACHELINE)) (new_aligned sz (g * N) CACHELINE)) (new_aligned sz (g * N) CACHELINE)) s0)
    by (eapply fits_any; [|exact F0]; left; reflexivity).
  destruct (peel_last _ _ _ _ _ ltac:(apply nonneg_and; [apply nonneg_and; [exact plan_ok|apply nonneg_new, C64_ok]|apply nonneg_new, sz_ok]) Ff) as [s1 [E1 [F1 _]]].
  rewrite E1. cbn [obind].
  destruct (peel_last _ _ _ _ _ ltac:(apply nonneg_and; [exact plan_ok|apply nonneg_new, C64_ok]) F1) as [s2 [E2 [F2 _]]].
  destruct (peel_last _ _ _ _ _ plan_ok F2) as [s3 [E3 [F3 _]]].
  rewrite times_ret; cbn [obind].
  - destruct (Nat.eqb l 0 || Nat.eqb g 0)%bool; [reflexivity|]. apply times_ret. apply backward_ok. exact Fb.
  - rewrite E2. cbn [obind]. apply times_ret. rewrite E3. cbn [obind]. apply forward_ok. exact F3.
Qed.

Local Lemma cmux_ok : forall g N l s, fits (cmux_scratch plan sz g N) s -> cmux plan sz g N l s = Ret tt.
Proof. intros. apply external_product_ok. assumption. Qed.

Local Lemma blind_rotate_ok : forall g N l mask s, fits (blind_rotate_scratch plan sz g N) s ->
  blind_rotate plan sz g N l mask s = Ret tt.
Proof.
  intros g N l mask s F. unfold blind_rotate_scratch in F.
  destruct (peel_first _ _ _ _ _ (nn_ep g N) F) as [s' [E [F' _]]].
  apply each_ret. intros a. destruct (a =? 0); [reflexivity|]. rewrite E. cbn [obind]. apply cmux_ok. exact F'.
Qed.

Local Lemma nn_bs : forall g N, nonneg (bootstrap_scratch plan sz g N).
Proof. intros. unfold bootstrap_scratch, blind_rotate_scratch. apply nonneg_and; [apply nonneg_and; [apply nonneg_new, sz_ok|apply nn_ep]|apply nonneg_new, sz_ok]. Qed.

Local Lemma bootstrap_ok : forall g N l mask s, fits (bootstrap_scratch plan sz g N) s ->
  bootstrap plan sz g N l mask s = Ret tt.
Proof.
  intros g N l mask s F. unfold bootstrap_scratch in F.
  destruct (peel_last _ _ _ _ _ ltac:(apply nonneg_and; [apply nonneg_new, sz_ok|apply nn_ep]) F) as [s' [E [F' _]]].
  unfold bootstrap. rewrite E. cbn [obind]. apply blind_rotate_ok. exact F'.
Qed.

Local Lemma extract_bits_ok : forall n ks g N l count bits mask s, fits (extract_bits_scratch plan sz n ks g N) s ->
  extract_bits plan sz n ks g N l count bits mask s = Ret tt.
Proof.
  intros n ks g N l count bits mask s F. unfold extract_bits_scratch in F. cbv zeta in F.
  set (A := new_aligned sz (n + 1) CACHELINE) in *. set (B := new_aligned sz (ks + 1) CACHELINE) in *.
  set (C := new_aligned sz (g * N) CACHELINE) in *. set (D := new_aligned sz ((g - 1) * N + 1) CACHELINE) in *.
  match type of F with fits (req_and _ ?r) _ => set (R := r) in * end.
  assert (NA : nonneg A) by apply nonneg_new, sz_ok. assert (NB : nonneg B) by apply nonneg_new, sz_ok.
  assert (NC : nonneg C) by apply nonneg_new, sz_ok. assert (ND : nonneg D) by apply nonneg_new, sz_ok.
  assert (NR : nonneg R) by (eapply nonneg_any; [left; reflexivity|exact NA]).
  pose proof (fits_left _ _ _ NR F) as F3. pose proof (fits_left _ _ _ ND F3) as F2. pose proof (fits_left _ _ _ NC F2) as F1.
  subst A B C D.
  destruct (fits_take _ _ _ _ (fits_left _ _ _ NB F1)) as [s1 [E1 T1]].
  destruct (take_next _ _ _ _ _ _ T1 F1) as [s2 [E2 T2]].
  destruct (take_next _ _ _ _ _ _ T2 F2) as [s3 [E3 T3]].
  destruct (take_next _ _ _ _ _ _ T3 F3) as [s4 [E4 T4]].
  pose proof (taken_rest _ _ _ _ T4 F) as F4.
  unfold extract_bits. rewrite E1. cbn [obind]. rewrite E2. cbn [obind]. rewrite E3. cbn [obind]. rewrite E4. cbn [obind].
  assert (FA : fits (new_aligned sz (n + 1) CACHELINE) s4) by (eapply fits_any; [|exact F4]; left; reflexivity).
  assert (FB : fits (bootstrap_scratch plan sz g N) s4) by (eapply fits_any; [|exact F4]; right; left; reflexivity).
  destruct (fits_take _ _ _ _ FA) as [s5 [E5 _]].
  generalize (seq 0 count). intros is. rewrite E5. cbn [obind]. induction is as [|i is IH]; [reflexivity|]. destruct (Z.of_nat i =? Z.of_nat bits - 1); [reflexivity|].
  rewrite (bootstrap_ok g N l (mask i) s4 FB). cbn [obind]. exact IH.
Qed.

Local Lemma homomorphic_shift_ok : forall n g N l mask s, fits (homomorphic_shift_boolean_scratch plan sz n N g) s ->
  homomorphic_shift_boolean plan sz n g N l mask s = Ret tt.
Proof.
  intros n g N l mask s F. unfold homomorphic_shift_boolean_scratch in F.
  pose proof (fits_left _ _ _ (nn_bs g N) F) as F1.
  destruct (fits_take _ _ _ _ (fits_left _ _ _ ltac:(apply nonneg_new, sz_ok) F1)) as [s1 [E1 T1]].
  destruct (take_next _ _ _ _ _ _ T1 F1) as [s2 [E2 T2]].
  unfold homomorphic_shift_boolean. rewrite E1. cbn [obind]. rewrite E2. cbn [obind].
  apply bootstrap_ok. exact (taken_rest _ _ _ _ T2 F).
Qed.

Local Lemma nn_hs : forall n g N, nonneg (homomorphic_shift_boolean_scratch plan sz n N g).
Proof. intros. unfold homomorphic_shift_boolean_scratch. apply nonneg_and; [apply nonneg_and; apply nonneg_new, sz_ok|apply nn_bs]. Qed.

Local Lemma circuit_bootstrap_ok : forall n g N l levels mask s,
  fits (circuit_bootstrap_boolean_scratch plan sz n ((g - 1) * N + 1) N g) s ->
  circuit_bootstrap_boolean plan sz n g N l levels mask s = Ret tt.
Proof.
  intros n g N l levels mask s F. unfold circuit_bootstrap_boolean_scratch in F.
  destruct (peel_first _ _ _ _ _ (nn_hs n g N) F) as [s1 [E1 [F1 _]]].
  unfold circuit_bootstrap_boolean. rewrite E1. cbn [obind]. apply times_ret. apply homomorphic_shift_ok. exact F1.
Qed.

Local Lemma cmux_tree_ok : forall N g l layers products s, fits (cmux_tree_scratch plan sz N g layers) s ->
  cmux_tree plan p sz N g l layers products s = Ret tt.
Proof.
  intros N g l layers products s F. unfold cmux_tree. destruct (Nat.ltb_spec 0 layers) as [L|L]; [|reflexivity].
  rewrite (fits_can_hold _ _ F).
  replace (match p with Debug => assert_ true | Release => Ret tt end) with (Ret tt) by (destruct p; reflexivity). cbn [obind].
  unfold cmux_tree_scratch, all_of in F. cbv zeta in F. cbn [fold_left] in F.
  set (T := new_aligned sz (N * g * layers) CACHELINE) in *. set (U := new_aligned 8 layers 3) in *.
  assert (NT : nonneg T) by apply nonneg_new, sz_ok. assert (NU : nonneg U) by (apply nonneg_new; lia).
  pose proof (fits_left _ _ _ (nn_ep g N) F) as F4. pose proof (fits_left _ _ _ NT F4) as F3.
  pose proof (fits_left _ _ _ NU F3) as F2. pose proof (fits_left _ _ _ NT F2) as F1.
  subst T U.
  destruct (take_next _ _ _ _ _ _ (taken_empty s) F1) as [s1 [E1 T1]].
  destruct (take_next _ _ _ _ _ _ T1 F2) as [s2 [E2 T2]].
  destruct (take_next _ _ _ _ _ _ T2 F3) as [s3 [E3 T3]].
  rewrite E1. cbn [obind]. rewrite E2. cbn [obind]. rewrite E3. cbn [obind]. apply times_ret.
  pose proof (taken_rest _ _ _ _ T3 F4) as F3'.
  assert (SM : smaller (new_aligned sz (g * N) CACHELINE) (new_aligned sz (N * g * layers) CACHELINE)) by (apply smaller_new; [exact sz_ok|]; nia).
  destruct (fits_take _ _ _ _ (fits_smaller _ _ _ SM F3')) as [s4 [E4 T4]].
  rewrite E4. cbn [obind]. apply external_product_ok.
  assert (T4' : taken (new_aligned sz (N * g * layers) CACHELINE) s3 s4).
  { destruct T4 as [Q1 Q2]. split; [exact Q1|]. destruct SM as [S1 S2]. unfold rq_align in *.
    pose proof (round_up_mono_align (st_addr s3) _ _ S1). lia. }
  exact (taken_rest _ _ _ _ (taken_and _ _ _ _ _ T3 T4') F).
Qed.

Local Lemma vp_blind_rotate_ok : forall g N l count s, fits (vp_blind_rotate_scratch plan sz g N) s ->
  vp_blind_rotate plan sz g N l count s = Ret tt.
Proof.
  intros g N l count s F. unfold vp_blind_rotate_scratch, all_of in F. cbn [fold_left] in F.
  pose proof (fits_left _ _ _ (nn_ep g N) F) as F1.
  destruct (take_next _ _ _ _ _ _ (taken_empty s) F1) as [s1 [E1 T1]].
  unfold vp_blind_rotate. apply times_ret. rewrite Nat.mul_comm in E1. rewrite E1. cbn [obind]. apply cmux_ok.
  exact (taken_rest _ _ _ _ T1 F).
Qed.

Local Lemma nn_vpbr : forall g N, nonneg (vp_blind_rotate_scratch plan sz g N).
Proof.
  intros. apply nonneg_fold_and; [|unfold nonneg; cbn; lia]. repeat constructor; [apply nonneg_new, sz_ok|apply nn_ep].
Qed.

Local Lemma nn_vp : forall g N luts ggsws r, vertical_packing_scratch plan p sz g N luts ggsws = Ret r -> nonneg r.
Proof.
  intros g N luts ggsws r E. unfold vertical_packing_scratch in E. destruct (tree_layers p sz luts ggsws) as [ly|]; [|discriminate E].
  cbn [obind] in E. injection E as <-. apply nonneg_fold_and; [|unfold nonneg; cbn; lia].
  constructor; [apply nonneg_new, sz_ok|]. constructor; [|constructor].
  eapply nonneg_any; [left; reflexivity|apply nn_vpbr].
Qed.

Local Lemma vertical_packing_ok : forall g N l luts ggsws products r s,
  vertical_packing_scratch plan p sz g N luts ggsws = Ret r -> fits r s ->
  vertical_packing plan p sz g N l luts ggsws products s = Ret tt.
Proof.
  intros g N l luts ggsws products r s E F. unfold vertical_packing_scratch in E. unfold vertical_packing.
  destruct (tree_layers p sz luts ggsws) as [ly|]; [|discriminate E].
  cbn [obind] in E |- *. assert (Er : r = all_of [new_aligned sz (N * g) CACHELINE; any_of [vp_blind_rotate_scratch plan sz g N; cmux_tree_scratch plan sz N g ly]]) by congruence.
  clear E. subst r. unfold all_of in F. cbn [fold_left] in F.
  match type of F with fits (req_and _ ?r) _ => set (R := r) in * end.
  assert (NR : nonneg R) by (eapply nonneg_any; [left; reflexivity|apply nn_vpbr]).
  destruct (take_next _ _ _ _ _ _ (taken_empty s) (fits_left _ _ _ NR F)) as [s1 [E1 T1]].
  pose proof (taken_rest _ _ _ _ T1 F) as F1.
  rewrite E1. cbn [obind].
  rewrite cmux_tree_ok by (eapply fits_any; [|exact F1]; right; left; reflexivity). cbn [obind].
  apply vp_blind_rotate_ok. eapply fits_any; [|exact F1]. left. reflexivity.
Qed.

Local Lemma cbs_vp_ok : forall masks outs n luts g N l level_cbs products r s,
  cbs_vp_scratch plan p sz (length masks) outs n luts ((g - 1) * N + 1) N g level_cbs = Ret r -> fits r s ->
  cbs_vp plan p sz masks outs n luts g N l g N level_cbs products s = Ret tt.
Proof.
  intros masks outs n luts g N l level_cbs products r s E F. unfold cbs_vp. cbv zeta. rewrite E. cbn [obind].
  rewrite (fits_can_hold _ _ F).
  replace (match p with Debug => assert_ true | Release => Ret tt end) with (Ret tt) by (destruct p; reflexivity). cbn [obind].
  unfold cbs_vp_scratch in E. destruct (Nat.eqb outs 0); [discriminate E|].
  destruct (vertical_packing_scratch plan p sz g N (luts / outs) (length masks)) as [vp|] eqn:Evp; [|discriminate E].
  cbn [obind] in E.
  match type of E with Ret ?x = Ret _ => assert (Er : r = x) by congruence end. clear E. subst r.
  unfold all_of in F. cbn [fold_left] in F.
  match type of F with fits (req_and _ ?r) _ => set (R := r) in * end.
  assert (NR : nonneg R) by (eapply nonneg_any; [right; left; reflexivity|exact plan_ok]).
  pose proof (fits_left _ _ _ NR F) as F2. pose proof (fits_left _ _ _ ltac:(apply nonneg_new, sz_ok) F2) as F1.
  destruct (take_next _ _ _ _ _ _ (taken_empty s) F1) as [s1 [E1 T1]].
  destruct (take_next _ _ _ _ _ _ T1 F2) as [s2 [E2 T2]].
  pose proof (taken_rest _ _ _ _ T2 F) as F3.
  rewrite E1. cbn [obind]. rewrite E2. cbn [obind].
  rewrite each_ret; cbn [obind].
  - apply times_ret. eapply vertical_packing_ok; [exact Evp|].
    eapply fits_any; [|exact F3]. right. right. left. reflexivity.
  - intros mask. rewrite circuit_bootstrap_ok by (eapply fits_any; [|exact F3]; left; reflexivity). cbn [obind].
    apply times_ret. apply forward_ok. eapply fits_any; [|exact F3]. right. left. reflexivity.
Qed.

End Backend.

(** ** Theorems *)

(** C52, external product and CMUX *)
Theorem C52_external_product : forall plan sz g N l s, 0 <= rq_size plan -> 0 <= sz ->
  meets s (external_product_scratch plan sz g N) ->
  external_product plan sz g N l s = Ret tt /\ cmux plan sz g N l s = Ret tt.
Proof.
  intros plan sz g N l s P S M. split; [apply (external_product_ok plan P sz S)|apply (cmux_ok plan P sz S)]; apply fits_meets; exact M.
Qed.
Print Assumptions C52_external_product.

(** C52, bootstrap: for every input ciphertext *)
Theorem C52_bootstrap : forall plan sz g N l mask s, 0 <= rq_size plan -> 0 <= sz ->
  meets s (bootstrap_scratch plan sz g N) -> bootstrap plan sz g N l mask s = Ret tt.
Proof. intros plan sz g N l mask s P S M. apply (bootstrap_ok plan P sz S). apply fits_meets. exact M. Qed.
Print Assumptions C52_bootstrap.

(** C52, bit extraction *)
Theorem C52_bit_extraction : forall plan sz n ks g N l count bits masks s, 0 <= rq_size plan -> 0 <= sz ->
  meets s (extract_bits_scratch plan sz n ks g N) ->
  extract_bits plan sz n ks g N l count bits masks s = Ret tt.
Proof. intros plan sz n ks g N l count bits masks s P S M. apply (extract_bits_ok plan P sz S). apply fits_meets. exact M. Qed.
Print Assumptions C52_bit_extraction.

(** C52, circuit bootstrap *)
Theorem C52_circuit_bootstrap : forall plan sz lwe_in_size g N l levels mask s, 0 <= rq_size plan -> 0 <= sz ->
  meets s (circuit_bootstrap_boolean_scratch plan sz lwe_in_size ((g - 1) * N + 1) N g) ->
  circuit_bootstrap_boolean plan sz lwe_in_size g N l levels mask s = Ret tt.
Proof. intros plan sz n g N l levels mask s P S M. apply (circuit_bootstrap_ok plan P sz S). apply fits_meets. exact M. Qed.
Print Assumptions C52_circuit_bootstrap.

(** C52, circuit bootstrap and vertical packing, when the functional keyswitch keys have the sizes of the bootstrap key *)
Theorem C52_vertical_packing : forall plan p sz masks outs lwe_in_size luts g N l level_cbs products r s,
  0 <= rq_size plan -> 0 <= sz ->
  cbs_vp_scratch plan p sz (length masks) outs lwe_in_size luts ((g - 1) * N + 1) N g level_cbs = Ret r -> meets s r ->
  cbs_vp plan p sz masks outs lwe_in_size luts g N l g N level_cbs products s = Ret tt.
Proof.
  intros plan p sz masks outs n luts g N l level_cbs products r s P S E M.
  apply (cbs_vp_ok plan P p sz S masks outs n luts g N l level_cbs products r s E). apply fits_meets. exact M.
Qed.
Print Assumptions C52_vertical_packing.

(** C52, conversions of keys and ciphertexts to the Fourier domain and back *)
Theorem C52_conversions : forall plan N n polys s, 0 <= rq_size plan ->
  (meets s (fill_with_forward_fourier_scratch plan) -> bsk_fill_forward plan n polys s = Ret tt /\ ggsw_fill_forward plan polys s = Ret tt) /\
  (meets s (backward_scratch plan N) -> ggsw_fill_backward plan N polys s = Ret tt).
Proof.
  intros plan N n polys s P. split.
  - intros M. pose proof (forward_ok plan s (fits_meets _ _ M)) as F. split; repeat apply times_ret; exact F.
  - intros M. apply times_ret. apply (backward_ok plan P). apply fits_meets. exact M.
Qed.
Print Assumptions C52_conversions.

(** C52, the buffers: the engine's vector, at any address and whatever its previous size, and an aligned buffer of the size the
    C interface reports both meet the requirement *)
Theorem C52_buffers : forall r addr,
  meets (engine_stack addr r) r /\ (addr mod rq_align r = 0 -> meets (c_stack addr r) r).
Proof.
  intros r addr. split.
  - right. unfold engine_stack, unaligned_bytes_required. cbn [st_len]. lia.
  - intros A. left. split; [exact A|]. unfold c_stack. cbn [st_len]. lia.
Qed.
Print Assumptions C52_buffers.

(** C52, refuted when the functional keyswitch keys have a larger GLWE size than the bootstrap key: the engine's checks
    (the input dimension of the packing keys is the output dimension of the bootstrap key, the output ciphertexts have the
    dimension of the packing keys' output) and the buffer size do not exclude it, and the operation runs out of scratch memory. *)
Theorem C52_vertical_packing_sizes_refuted :
  exists plan sz masks outs lwe_in_size luts g N l g' level_cbs products r s,
    0 <= rq_size plan /\
    cbs_vp_scratch plan Release sz (length masks) outs lwe_in_size luts ((g - 1) * N + 1) N g level_cbs = Ret r /\
    s = engine_stack 0 r /\
    cbs_vp plan Release sz masks outs lwe_in_size luts g N l g' N level_cbs products s = Panic.
Proof.
  exists (Req 6 1024), 8, [[1; 2]], 1%nat, 3%nat, 1%nat, 2%nat, 64%nat, 2%nat, 4%nat, 4%nat, 1%nat. eexists. eexists.
  split; [cbn; lia|]. split; [vm_compute; reflexivity|]. split; [reflexivity|]. vm_compute. reflexivity.
Qed.
Print Assumptions C52_vertical_packing_sizes_refuted.

(** ** Examples *)

(** The requirement is met by a buffer at an odd address, and one byte less than the aligned size is not enough. *)
Example bootstrap_example :
  let r := bootstrap_scratch (Req 6 8192) 8 2 512 in
  rq_size r = 53248 /\
  bootstrap (Req 6 8192) 8 2 512 3 [5; 0; 7] (engine_stack 1003 r) = Ret tt /\
  bootstrap (Req 6 8192) 8 2 512 3 [5; 0; 7] (Stack 6400 (rq_size r)) = Ret tt /\
  bootstrap (Req 6 8192) 8 2 512 3 [5; 0; 7] (Stack 6400 (rq_size r - 1)) = Panic.
Proof. cbv zeta. split; [vm_compute; reflexivity|]. split; [vm_compute; reflexivity|]. split; vm_compute; reflexivity. Qed.

Example vertical_packing_example :
  exists r, cbs_vp_scratch (Req 6 512) Debug 8 3 1 11 4 65 64 2 2 = Ret r /\
    cbs_vp (Req 6 512) Debug 8 [[1; 2]; [3; 4]; [0; 5]] 1 11 4 2 64 2 2 64 2 3 (engine_stack 77 r) = Ret tt.
Proof. eexists. split; [vm_compute; reflexivity|]. vm_compute. reflexivity. Qed.
