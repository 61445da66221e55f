(** * The transforms of the CUDA backend as evaluations, in any commutative ring *)
From Verif Require Import Base.
From Coq Require Import Ring.
Local Open Scope nat_scope.

Lemma lower s i : 0 < s -> i mod (2 * s) < s -> i mod s = i mod (2 * s) /\ i / s = 2 * (i / (2 * s)) /\ (i + s) mod (2 * s) = i mod (2 * s) + s /\ (i + s) / (2 * s) = i / (2 * s).
Proof.
  intros Hs Hi. pose proof (Nat.div_mod i (2 * s) ltac:(lia)) as D. set (q := i / (2 * s)) in *. set (b := i mod (2 * s)) in *. clearbody q b. subst i.
  repeat split.
  - symmetry. apply Nat.mod_unique with (2 * q); [exact Hi|clear; nia].
  - symmetry. apply Nat.div_unique with b; [exact Hi|clear; nia].
  - symmetry. apply Nat.mod_unique with q; [clear - Hi; lia|clear; nia].
  - symmetry. apply Nat.div_unique with (b + s); [clear - Hi; lia|clear; nia].
Qed.
Lemma upper s i : 0 < s -> s <= i mod (2 * s) -> s <= i /\ i mod s = i mod (2 * s) - s /\ i / s = 2 * (i / (2 * s)) + 1 /\ (i - s) mod (2 * s) = i mod (2 * s) - s /\ (i - s) / (2 * s) = i / (2 * s).
Proof.
  intros Hs Hi. pose proof (Nat.div_mod i (2 * s) ltac:(lia)) as D. pose proof (Nat.mod_upper_bound i (2 * s) ltac:(lia)) as U.
  set (q := i / (2 * s)) in *. set (b := i mod (2 * s)) in *. clearbody q b. assert (E : exists c, b = c + s /\ c < s) by (exists (b - s); lia). destruct E as (c & -> & Hc). subst i.
  split; [lia|]. replace (c + s - s) with c by lia. replace (2 * s * q + (c + s) - s) with (2 * s * q + c) by lia. repeat split.
  - symmetry. apply Nat.mod_unique with (2 * q + 1); [exact Hc|clear; nia].
  - symmetry. apply Nat.div_unique with c; [exact Hc|clear; nia].
  - symmetry. apply Nat.mod_unique with q; [clear - Hc; lia|reflexivity].
  - symmetry. apply Nat.div_unique with c; [clear - Hc; lia|reflexivity].
Qed.
Lemma partner s i n : 0 < s -> i < n * (2 * s) -> (i mod (2 * s) < s -> i + s < n * (2 * s)) /\ (s <= i mod (2 * s) -> i - s < n * (2 * s)).
Proof.
  intros Hs Hi. split; intros L; [|lia].
  pose proof (Nat.div_mod i (2 * s) ltac:(lia)) as D. pose proof (Nat.div_lt_upper_bound i (2 * s) n ltac:(lia) ltac:(lia)) as U.
  set (q := i / (2 * s)) in *. set (b := i mod (2 * s)) in *. clearbody q b. clear Hi. nia.
Qed.
Lemma pow_split H n (Hn : H = 2 ^ n) l : l < n -> 2 * 2 ^ (n - S l) = 2 ^ (n - l) /\ 2 ^ l * (2 * 2 ^ (n - S l)) = H /\ 2 * 2 ^ l <= H /\ 1 <= 2 ^ l /\ 0 < 2 ^ (n - S l).
Proof.
  intros Hl. assert (E1 : 2 * 2 ^ (n - S l) = 2 ^ (n - l)) by (rewrite <- Nat.pow_succ_r'; f_equal; lia).
  assert (E2 : 2 ^ l * 2 ^ (n - l) = H) by (rewrite <- Nat.pow_add_r, Hn; f_equal; lia).
  assert (P1 : 0 < 2 ^ l) by (apply Nat.neq_0_lt_0, Nat.pow_nonzero; lia). assert (P2 : 0 < 2 ^ (n - S l)) by (apply Nat.neq_0_lt_0, Nat.pow_nonzero; lia).
  rewrite E1. repeat split; try assumption; try lia. rewrite <- E2, <- E1. nia.
Qed.

Section Algebra.
Context {C : Type} (cO cI : C) (cadd cmul csub : C -> C -> C) (copp : C -> C).
Hypothesis C_ring : ring_theory cO cI cadd cmul csub copp (@eq C).
Add Ring CRing : C_ring.
Infix "+!" := cadd (at level 50, left associativity). Infix "*!" := cmul (at level 40, left associativity). Infix "-!" := csub (at level 50, left associativity).

Fixpoint csum (n : nat) (f : nat -> C) : C := match n with O => cO | S n => csum n f +! f n end.
Fixpoint cpow (x : C) (n : nat) : C := match n with O => cI | S n => cpow x n *! x end.
Lemma csum_ext n f g : (forall i, i < n -> f i = g i) -> csum n f = csum n g.
Proof. induction n as [|n IH]; intros H; [reflexivity|]. cbn [csum]. rewrite IH, H; auto. Qed.
Lemma csum_add n f g : csum n (fun i => f i +! g i) = csum n f +! csum n g.
Proof. induction n as [|n IH]; cbn [csum]; [ring|]. rewrite IH. ring. Qed.
Lemma csum_mul_l n c f : csum n (fun i => c *! f i) = c *! csum n f.
Proof. induction n as [|n IH]; cbn [csum]; [ring|]. rewrite IH. ring. Qed.
Lemma csum_mul_r n c f : csum n (fun i => f i *! c) = csum n f *! c.
Proof. induction n as [|n IH]; cbn [csum]; [ring|]. rewrite IH. ring. Qed.
Lemma csum_zero n : csum n (fun _ => cO) = cO.
Proof. induction n as [|n IH]; cbn [csum]; [reflexivity|]. rewrite IH. ring. Qed.
Lemma csum_swap n m (f : nat -> nat -> C) : csum n (fun i => csum m (fun j => f i j)) = csum m (fun j => csum n (fun i => f i j)).
Proof. induction n as [|n IH]; cbn [csum]; [symmetry; apply csum_zero|]. rewrite IH, <- csum_add. reflexivity. Qed.
Lemma csum_app n m f : csum (n + m) f = csum n f +! csum m (fun i => f (n + i)).
Proof. induction m as [|m IH]; [rewrite Nat.add_0_r; cbn [csum]; ring|]. rewrite Nat.add_succ_r. cbn [csum]. rewrite IH. ring. Qed.
Lemma csum_even_odd n f : csum (2 * n) f = csum n (fun i => f (2 * i)) +! csum n (fun i => f (2 * i + 1)).
Proof.
  induction n as [|n IH]; [cbn; ring|]. replace (2 * S n) with (S (S (2 * n))) by lia. cbn [csum]. rewrite IH.
  replace (S (2 * n)) with (2 * n + 1) by lia. ring.
Qed.
Lemma cpow_add x a b : cpow x (a + b) = cpow x a *! cpow x b.
Proof. induction b as [|b IH]; [rewrite Nat.add_0_r; cbn [cpow]; ring|]. rewrite Nat.add_succ_r. cbn [cpow]. rewrite IH. ring. Qed.
Lemma cpow_sq x a : cpow x (2 * a) = cpow (x *! x) a.
Proof. induction a as [|a IH]; [reflexivity|]. replace (2 * S a) with (S (S (2 * a))) by lia. cbn [cpow]. rewrite IH. ring. Qed.

(** ** Roots: [r k] belongs to node [k] of a binary tree; its square roots [w k] and [- w k] to the two children *)
Context (w wc : nat -> C) (z : C) (H : nat).
Definition r (k : nat) : C := if Nat.eqb k 1 then z else if Nat.even k then w (k / 2) else copp (w (k / 2)).
Hypothesis (Hw : forall k, 1 <= k < H -> w k *! w k = r k) (Hwc : forall k, 1 <= k < H -> w k *! wc k = cI).
Lemma r_even k : 1 <= k -> r (2 * k) = w k.
Proof. clear.  intros. unfold r. destruct (Nat.eqb_spec (2 * k) 1); [lia|]. rewrite Nat.even_mul. cbn [Nat.even orb]. rewrite Nat.mul_comm, Nat.div_mul by lia. reflexivity. Qed.
Lemma r_odd k : 1 <= k -> r (2 * k + 1) = copp (w k).
Proof. clear. 
  intros. unfold r. destruct (Nat.eqb_spec (2 * k + 1) 1); [lia|]. rewrite Nat.add_1_r, Nat.even_succ, Nat.odd_mul. cbn [Nat.odd Nat.even negb andb].
  replace (S (2 * k)) with (1 + k * 2) by lia. rewrite Nat.div_add by lia. reflexivity.
Qed.

(** ** One level *)
Definition dir_level (s m : nat) (A : nat -> C) (i : nat) : C :=
  if i mod (2 * s) <? s then A i +! w (m + i / (2 * s)) *! A (i + s) else A (i - s) -! w (m + i / (2 * s)) *! A i.
Definition inv_level (s m : nat) (A : nat -> C) (i : nat) : C :=
  if i mod (2 * s) <? s then A i +! A (i + s) else (A (i - s) -! A i) *! wc (m + i / (2 * s)).
(** The remainder of the polynomial A modulo X^s - r, for each of the K blocks of s coefficients *)
Definition reduced (s K : nat) (A : nat -> C) (i : nat) : C := csum K (fun e => A (i mod s + e * s) *! cpow (r (K + i / s)) e).


Lemma level_reduces s K A i : 0 < s -> 1 <= K -> 2 * K <= H -> i < 2 * s * K -> dir_level s K (reduced (2 * s) K A) i = reduced s (2 * K) A i.
Proof.
  intros Hs HK HKH Hi. unfold dir_level. set (k := K + i / (2 * s)).
  assert (Hk : 1 <= k < H) by (pose proof (Nat.div_lt_upper_bound i (2 * s) K ltac:(lia) Hi) as Dq; unfold k; set (q := i / (2 * s)) in *; clearbody q; clear - Dq HK HKH; lia).
  destruct (Nat.ltb_spec (i mod (2 * s)) s) as [L|L].
  - destruct (lower s i Hs L) as (E1 & E2 & E3 & E4). unfold reduced. rewrite E1, E2, E3, E4. replace (2 * K + 2 * (i / (2 * s))) with (2 * k) by (unfold k; lia).
    rewrite r_even by lia. fold k. rewrite csum_even_odd, <- csum_mul_l. f_equal; apply csum_ext; intros e He; rewrite <- (Hw k Hk).
    + replace (2 * e * s) with (e * (2 * s)) by lia. rewrite cpow_sq. reflexivity.
    + replace ((2 * e + 1) * s) with (s + e * (2 * s)) by lia. rewrite Nat.add_1_r. cbn [cpow]. rewrite cpow_sq, Nat.add_assoc. ring.
  - destruct (upper s i Hs L) as (E0 & E1 & E2 & E3 & E4). unfold reduced. rewrite E1, E2, E3, E4. replace (2 * K + (2 * (i / (2 * s)) + 1)) with (2 * k + 1) by (unfold k; lia).
    rewrite r_odd by lia. fold k. rewrite csum_even_odd. transitivity (csum K (fun e => A (i mod (2 * s) - s + e * (2 * s)) *! cpow (r k) e) +! csum K (fun e => copp (w k) *! (A (i mod (2 * s) + e * (2 * s)) *! cpow (r k) e))); [rewrite csum_mul_l; ring|].
    f_equal; apply csum_ext; intros e He; rewrite <- (Hw k Hk).
    + replace (2 * e * s) with (e * (2 * s)) by lia. rewrite cpow_sq. f_equal. f_equal. ring.
    + replace (i mod (2 * s) - s + (2 * e + 1) * s) with (i mod (2 * s) + e * (2 * s)) by lia. rewrite Nat.add_1_r. cbn [cpow]. rewrite cpow_sq. replace (copp (w k) *! copp (w k)) with (w k *! w k) by ring. ring.
Qed.
Lemma level_inverse s m A i n : 0 < s -> 1 <= m -> n <= 2 * s * (H - m) -> i < n -> inv_level s m (dir_level s m A) i = A i +! A i.
Proof.
  intros Hs Hm Hn Hi. unfold inv_level. assert (Hk : 1 <= m + i / (2 * s) < H) by (pose proof (Nat.div_lt_upper_bound i (2 * s) (H - m) ltac:(lia) ltac:(lia)) as Dq; set (q := i / (2 * s)) in *; clearbody q; clear - Dq Hm; lia).
  destruct (Nat.ltb_spec (i mod (2 * s)) s) as [L|L].
  - destruct (lower s i Hs L) as (E1 & E2 & E3 & E4). unfold dir_level. rewrite E3, E4. destruct (Nat.ltb_spec (i mod (2 * s)) s); [|lia]. destruct (Nat.ltb_spec (i mod (2 * s) + s) s); [lia|]. replace (i + s - s) with i by lia. ring.
  - destruct (upper s i Hs L) as (E0 & E1 & E2 & E3 & E4). unfold dir_level. rewrite E3, E4. pose proof (Nat.mod_upper_bound i (2 * s) ltac:(lia)). destruct (Nat.ltb_spec (i mod (2 * s) - s) s); [|lia]. destruct (Nat.ltb_spec (i mod (2 * s)) s); [lia|].
    replace (i - s + s) with i by lia. transitivity ((w (m + i / (2 * s)) *! wc (m + i / (2 * s))) *! (A i +! A i)); [ring|]. rewrite Hwc by exact Hk. ring.
Qed.
Lemma dir_level_ext s m A B : (forall i, A i = B i) -> forall i, dir_level s m A i = dir_level s m B i.
Proof. clear Hw Hwc. intros E i. unfold dir_level. rewrite !E. reflexivity. Qed.
(** Values below [n], a multiple of 2 s, only depend on values below [n]. *)
Lemma dir_level_local s m n A B : 0 < s -> (forall i, i < n * (2 * s) -> A i = B i) -> forall i, i < n * (2 * s) -> dir_level s m A i = dir_level s m B i.
Proof. clear Hw Hwc.
  intros Hs E i Hi. destruct (partner s i n Hs Hi) as [P1 P2]. unfold dir_level. destruct (Nat.ltb_spec (i mod (2 * s)) s) as [L|L]; rewrite (E i Hi).
  - rewrite (E (i + s)); [reflexivity|auto].
  - rewrite (E (i - s)); [reflexivity|auto].
Qed.
Lemma inv_level_local s m n A B : 0 < s -> (forall i, i < n * (2 * s) -> A i = B i) -> forall i, i < n * (2 * s) -> inv_level s m A i = inv_level s m B i.
Proof. clear Hw Hwc.
  intros Hs E i Hi. destruct (partner s i n Hs Hi) as [P1 P2]. unfold inv_level. destruct (Nat.ltb_spec (i mod (2 * s)) s) as [L|L]; rewrite (E i Hi).
  - rewrite (E (i + s)); [reflexivity|auto].
  - rewrite (E (i - s)); [reflexivity|auto].
Qed.
Lemma inv_level_scale s m c A i : inv_level s m (fun i => c *! A i) i = c *! inv_level s m A i.
Proof. unfold inv_level. destruct (_ <? _); ring. Qed.

(** ** All the levels, for 2^n points *)
Hypothesis (n : nat) (Hn : H = 2 ^ n).
(** After the first [l] levels: s = 2^(n-l), m = 2^l *)
Fixpoint dir (l : nat) (A : nat -> C) : nat -> C := match l with O => A | S l => dir_level (2 ^ (n - S l)) (2 ^ l) (dir l A) end.
(** The last [l] levels of the inverse, from s = 2^(n-l), m = 2^(l-1) on *)
Fixpoint inv (l : nat) (A : nat -> C) : nat -> C := match l with O => A | S l => inv l (inv_level (2 ^ (n - S l)) (2 ^ l) A) end.

Lemma reduced_top A i : i < H -> reduced H 1 A i = A i.
Proof. intros Hi. unfold reduced. cbn [csum cpow]. rewrite Nat.mod_small by exact Hi. rewrite Nat.mul_0_l, Nat.add_0_r. ring. Qed.
Lemma dir_reduced A l : l <= n -> forall i, i < H -> dir l A i = reduced (2 ^ (n - l)) (2 ^ l) A i.
Proof.
  induction l as [|l IH]; intros Hl i Hi.
  - rewrite Nat.sub_0_r, <- Hn. symmetry. apply reduced_top, Hi.
  - destruct (pow_split H n Hn l ltac:(lia)) as (E1 & E2 & E3 & E4 & E5). cbn [dir]. rewrite (dir_level_local _ _ (2 ^ l) _ (reduced (2 * 2 ^ (n - S l)) (2 ^ l) A)); [|exact E5| |rewrite E2; exact Hi].
    + rewrite level_reduces; [reflexivity|exact E5|exact E4|exact E3|]. rewrite Nat.mul_comm, E2. exact Hi.
    + intros j Hj. rewrite E1. apply IH; [lia|]. rewrite <- E2. exact Hj.
Qed.
(** The direct transform is the evaluation at the leaves of the tree. *)
Definition ev (A : nat -> C) (x : C) : C := csum H (fun e => A e *! cpow x e).
Lemma dir_ev A i : i < H -> dir n A i = ev A (r (H + i)).
Proof.
  intros Hi. rewrite dir_reduced by (try exact Hi; lia). unfold reduced, ev. rewrite Nat.sub_diag, <- Hn. cbn [Nat.pow]. rewrite Nat.mod_1_r, Nat.div_1_r.
  apply csum_ext. intros e He. rewrite Nat.mul_1_r. reflexivity.
Qed.
Lemma r_pow l : l <= n -> forall k, 2 ^ l <= k < 2 * 2 ^ l -> cpow (r k) (2 ^ l) = z.
Proof.
  induction l as [|l IH]; intros Hl k Hk.
  - cbn [Nat.pow] in *. replace k with 1 by lia. cbn [cpow]. unfold r. cbn [Nat.eqb]. ring.
  - destruct (pow_split H n Hn l ltac:(lia)) as (E1 & E2 & E3 & E4 & E5). rewrite Nat.pow_succ_r' in *. rewrite cpow_sq.
    assert (Hq : 2 ^ l <= k / 2 < 2 * 2 ^ l) by (clear - Hk; set (P := 2 ^ l) in *; clearbody P; split; [apply Nat.div_le_lower_bound|apply Nat.div_lt_upper_bound]; lia).
    rewrite <- (IH ltac:(lia) (k / 2) Hq). f_equal. rewrite <- (Hw (k / 2)) by (clear - Hq E3 E4; set (q := k / 2) in *; clearbody q; lia).
    assert (Hq1 : 1 <= k / 2) by (clear - Hq E4; set (q := k / 2) in *; clearbody q; lia).
    pose proof (Nat.div_mod k 2 ltac:(lia)) as D. pose proof (Nat.mod_upper_bound k 2 ltac:(lia)) as U. destruct (k mod 2) as [|[|]]; [|  |lia]; rewrite D.
    + rewrite Nat.add_0_r at 1 2. rewrite r_even by exact Hq1. rewrite Nat.add_0_r. replace (2 * (k / 2) / 2) with (k / 2) by (rewrite Nat.mul_comm, Nat.div_mul; lia). reflexivity.
    + rewrite r_odd by exact Hq1. replace ((2 * (k / 2) + 1) / 2) with (k / 2). 2:{ rewrite Nat.add_comm, Nat.mul_comm, Nat.div_add by lia. reflexivity. } ring.
Qed.
Lemma dir_local l : l <= n -> forall A B, (forall i, i < H -> A i = B i) -> forall i, i < H -> dir l A i = dir l B i.
Proof. clear Hw Hwc.
  induction l as [|l IH]; intros Hl A B E i Hi; [apply E, Hi|]. cbn [dir]. destruct (pow_split H n Hn l ltac:(lia)) as (E1 & E2 & E3 & E4 & E5).
  apply (dir_level_local _ _ (2 ^ l)); [exact E5| |rewrite E2; exact Hi]. intros j Hj. apply IH; [lia|exact E|rewrite <- E2; exact Hj].
Qed.
Lemma inv_local l : l <= n -> forall A B, (forall i, i < H -> A i = B i) -> forall i, i < H -> inv l A i = inv l B i.
Proof. clear Hw Hwc.
  induction l as [|l IH]; intros Hl A B E i Hi; [apply E, Hi|]. cbn [inv]. destruct (pow_split H n Hn l ltac:(lia)) as (E1 & E2 & E3 & E4 & E5).
  apply IH; [lia| |exact Hi]. intros j Hj. apply (inv_level_local _ _ (2 ^ l)); [exact E5| |rewrite E2; exact Hj]. intros x Hx. apply E. rewrite E2 in Hx. exact Hx.
Qed.
Lemma inv_scale l c : forall A i, inv l (fun i => c *! A i) i = c *! inv l A i.
Proof.
  induction l as [|l IH]; intros A i; [reflexivity|]. cbn [inv]. rewrite <- IH.
  assert (G : forall l A B, (forall i, A i = B i) -> forall i, inv l A i = inv l B i).
  { clear. induction l as [|l IH]; intros A B E i; [apply E|]. cbn [inv]. apply IH. intros j. unfold inv_level. rewrite !E. reflexivity. }
  apply G. intros j. apply inv_level_scale.
Qed.
Fixpoint nat_in (k : nat) : C := match k with O => cO | S k => nat_in k +! cI end.
Lemma nat_in_add a b : nat_in (a + b) = nat_in a +! nat_in b.
Proof. induction b as [|b IH]; [rewrite Nat.add_0_r; cbn [nat_in]; ring|]. rewrite Nat.add_succ_r. cbn [nat_in]. rewrite IH. ring. Qed.
Lemma inv_dir l : l <= n -> forall A i, i < H -> inv l (dir l A) i = nat_in (2 ^ l) *! A i.
Proof.
  induction l as [|l IH]; intros Hl A i Hi; [cbn; ring|]. cbn [inv dir]. destruct (pow_split H n Hn l ltac:(lia)) as (E1 & E2 & E3 & E4 & E5).
  rewrite (inv_local l ltac:(lia) _ (fun i => (cI +! cI) *! dir l A i)); [| |exact Hi].
  - rewrite inv_scale, IH by (try exact Hi; lia). replace (2 ^ S l) with (2 ^ l + 2 ^ l) by (cbn [Nat.pow]; lia). rewrite nat_in_add. ring.
  - intros j Hj. rewrite (level_inverse _ _ _ j H); [ring|exact E5|exact E4| |exact Hj]. clear - E2 E3 E5. nia.
Qed.

(** ** Products modulo X^H - z *)
Definition conv (A B : nat -> C) (e : nat) : C := csum H (fun a => if a <=? e then A a *! B (e - a) else z *! (A a *! B (e + H - a))).
Lemma ev_conv A B x : cpow x H = z -> ev (conv A B) x = ev A x *! ev B x.
Proof.
  intros Hx. unfold ev, conv.
  transitivity (csum H (fun a => csum H (fun e => (if a <=? e then A a *! B (e - a) else z *! (A a *! B (e + H - a))) *! cpow x e))).
  { rewrite csum_swap. apply csum_ext. intros e He. symmetry. apply csum_mul_r. }
  transitivity (csum H (fun a => csum H (fun e => B e *! cpow x e) *! (A a *! cpow x a))).
  2:{ rewrite csum_mul_l. ring. }
  apply csum_ext. intros a Ha.
  assert (S1 : csum H (fun e => (if a <=? e then A a *! B (e - a) else z *! (A a *! B (e + H - a))) *! cpow x e)
    = csum a (fun e => z *! (A a *! B (e + H - a)) *! cpow x e) +! csum (H - a) (fun e => A a *! B e *! cpow x (a + e))).
  { replace H with (a + (H - a)) at 1 by lia. rewrite csum_app. f_equal; apply csum_ext; intros e He.
    - destruct (Nat.leb_spec a e); [lia|reflexivity].
    - destruct (Nat.leb_spec a (a + e)); [|lia]. replace (a + e - a) with e by lia. reflexivity. }
  rewrite S1. transitivity (A a *! cpow x a *! (csum (H - a) (fun e => B e *! cpow x e) +! csum a (fun e => B (H - a + e) *! cpow x (H - a + e)))).
  - transitivity (csum a (fun e => A a *! cpow x a *! (B (H - a + e) *! cpow x (H - a + e))) +! csum (H - a) (fun e => A a *! cpow x a *! (B e *! cpow x e))).
    + f_equal; apply csum_ext; intros e He.
      * replace (e + H - a) with (H - a + e) by lia. replace (cpow x (H - a + e)) with (cpow x (H - a) *! cpow x e) by (symmetry; apply cpow_add).
        rewrite <- Hx. replace H with (a + (H - a)) at 1 by lia. rewrite cpow_add. ring.
      * rewrite cpow_add. ring.
    + rewrite !csum_mul_l. ring.
  - rewrite <- csum_app. replace (H - a + a) with H by lia. ring.
Qed.
(** The product of the transforms, transformed back, is the product. *)
Theorem transforms_multiply h A B P e : h *! nat_in H = cI -> (forall i, i < H -> P i = dir n A i *! dir n B i) -> e < H ->
  inv n (fun i => h *! P i) e = conv A B e.
Proof.
  intros Hh HP He. rewrite (inv_local n (le_n _) _ (fun i => h *! dir n (conv A B) i)); [| |exact He].
  - rewrite inv_scale, inv_dir by (try exact He; lia). rewrite <- Hn. transitivity ((h *! nat_in H) *! conv A B e); [ring|]. rewrite Hh. ring.
  - intros i Hi. rewrite HP by exact Hi. rewrite !dir_ev by exact Hi. rewrite ev_conv; [reflexivity|]. rewrite Hn at 2. apply r_pow; [lia|]. rewrite <- Hn. lia.
Qed.
End Algebra.
