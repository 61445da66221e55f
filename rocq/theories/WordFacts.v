(** * Facts about words and congruences. *)
From Verif Require Import Base Word.
From Coq Require Export Setoid Morphisms.

Lemma pow2_pos n : 0 <= n -> 0 < 2 ^ n.
Proof. intros. apply Z.pow_pos_nonneg; lia. Qed.

Lemma pow2_split w a : 0 <= a <= w -> 2 ^ w = 2 ^ a * 2 ^ (w - a).
Proof. intros. rewrite <- Z.pow_add_r by lia. f_equal. lia. Qed.

Lemma plain_ok p w v : 0 <= v < 2 ^ w -> plain p w v = Ret v.
Proof.
  intros H. unfold plain. destruct (Z.leb_spec 0 v), (Z.ltb_spec v (2 ^ w)); try lia; reflexivity.
Qed.

Lemma shl_ok p w a s : s < w -> shl_ p w a s = Ret (shl w a s).
Proof. intros. unfold shl_. destruct (Z.ltb_spec s w); [reflexivity|lia]. Qed.

Lemma shr_ok p w a s : s < w -> shr_ p w a s = Ret (shr a s).
Proof. intros. unfold shr_. destruct (Z.ltb_spec s w); [reflexivity|lia]. Qed.

Lemma wadd_word w a b : 0 <= w -> is_word w (wadd w a b).
Proof. intros. apply Z.mod_pos_bound, pow2_pos; assumption. Qed.
Lemma wsub_word w a b : 0 <= w -> is_word w (wsub w a b).
Proof. intros. apply Z.mod_pos_bound, pow2_pos; assumption. Qed.
Lemma wmul_word w a b : 0 <= w -> is_word w (wmul w a b).
Proof. intros. apply Z.mod_pos_bound, pow2_pos; assumption. Qed.
Lemma wneg_word w a : 0 <= w -> is_word w (wneg w a).
Proof. intros. apply Z.mod_pos_bound, pow2_pos; assumption. Qed.
Lemma shl_word w a s : 0 <= w -> is_word w (shl w a s).
Proof. intros. apply Z.mod_pos_bound, pow2_pos; assumption. Qed.

(** ** Congruence *)
Global Instance eqm_equiv q : Equivalence (eqm q).
Proof.
  split.
  - intros x. reflexivity.
  - intros x y H. symmetry. exact H.
  - intros x y z H1 H2. unfold eqm in *. congruence.
Qed.

Global Instance eqm_add q : Proper (eqm q ==> eqm q ==> eqm q) Z.add.
Proof. intros a a' Ha b b' Hb. unfold eqm in *. rewrite (Zplus_mod a), (Zplus_mod a'). congruence. Qed.
Global Instance eqm_sub q : Proper (eqm q ==> eqm q ==> eqm q) Z.sub.
Proof. intros a a' Ha b b' Hb. unfold eqm in *. rewrite (Zminus_mod a), (Zminus_mod a'). congruence. Qed.
Global Instance eqm_mul q : Proper (eqm q ==> eqm q ==> eqm q) Z.mul.
Proof. intros a a' Ha b b' Hb. unfold eqm in *. rewrite (Zmult_mod a), (Zmult_mod a'). congruence. Qed.
Global Instance eqm_opp q : Proper (eqm q ==> eqm q) Z.opp.
Proof. intros a a' Ha. change (eqm q (0 - a) (0 - a')). rewrite Ha. reflexivity. Qed.

Lemma eqm_refl q a : eqm q a a.
Proof. reflexivity. Qed.

Lemma eqm_mod q a : eqm q (a mod q) a.
Proof. unfold eqm. apply Zmod_mod. Qed.

Lemma eqm_eq q a b : a = b -> eqm q a b.
Proof. intros ->. reflexivity. Qed.

Lemma eqm_divide q a b : eqm q a b <-> (q | a - b).
Proof.
  unfold eqm. split.
  - intros H. destruct (Z.eq_dec q 0) as [->|Hq].
    + rewrite !Zmod_0_r in H. subst. rewrite Z.sub_diag. apply Z.divide_0_r.
    + apply Z.mod_divide; [assumption|]. rewrite Zminus_mod, H, Z.sub_diag. apply Zmod_0_l.
  - intros [k Hk]. replace a with (b + k * q) by lia. apply Z_mod_plus_full.
Qed.

Lemma eqm_k q a b k : a = b + k * q -> eqm q a b.
Proof. intros ->. unfold eqm. apply Z_mod_plus_full. Qed.

Lemma eqm_multiple q k : eqm q (q * k) 0.
Proof. apply (eqm_k q _ _ k). lia. Qed.

Lemma eqm_small q a b : 0 <= a < q -> 0 <= b < q -> eqm q a b -> a = b.
Proof. intros Ha Hb H. unfold eqm in H. rewrite !Z.mod_small in H; assumption. Qed.

Lemma eqm_mod_eq q a b r : 0 <= r < q -> eqm q a b -> r = b mod q -> r = a mod q.
Proof. unfold eqm. intros. congruence. Qed.

Lemma wadd_eqm w a b : eqm (2 ^ w) (wadd w a b) (a + b).
Proof. apply eqm_mod. Qed.
Lemma wsub_eqm w a b : eqm (2 ^ w) (wsub w a b) (a - b).
Proof. apply eqm_mod. Qed.
Lemma wmul_eqm w a b : eqm (2 ^ w) (wmul w a b) (a * b).
Proof. apply eqm_mod. Qed.
Lemma wneg_eqm w a : eqm (2 ^ w) (wneg w a) (- a).
Proof. apply eqm_mod. Qed.
Lemma shl_eqm w a s : eqm (2 ^ w) (shl w a s) (a * 2 ^ s).
Proof. apply eqm_mod. Qed.

Lemma sgn_eqm w x : eqm (2 ^ w) (sgn w x) x.
Proof.
  unfold sgn. destruct (x <? 2 ^ (w - 1)); [reflexivity|].
  apply (eqm_k _ _ _ (-1)). lia.
Qed.

Lemma sgn_range w x : 0 < w -> is_word w x -> - 2 ^ (w - 1) <= sgn w x < 2 ^ (w - 1).
Proof.
  intros Hw [H1 H2]. assert (E : 2 ^ w = 2 * 2 ^ (w - 1)).
  { rewrite (pow2_split w 1) by lia. reflexivity. }
  unfold sgn. destruct (Z.ltb_spec x (2 ^ (w - 1))); lia.
Qed.

(** The signed value is the only representative in the half-open range. *)
Lemma sgn_unique w x v : 0 < w -> is_word w x -> eqm (2 ^ w) v x ->
  - 2 ^ (w - 1) <= v < 2 ^ (w - 1) -> sgn w x = v.
Proof.
  intros Hw Hx Hv Hr. pose proof (sgn_range w x Hw Hx) as Hs.
  assert (E : 2 ^ w = 2 * 2 ^ (w - 1)).
  { rewrite (pow2_split w 1) by lia. reflexivity. }
  assert (H : eqm (2 ^ w) (sgn w x + 2 ^ (w - 1)) (v + 2 ^ (w - 1))).
  { rewrite Hv, sgn_eqm. reflexivity. }
  apply eqm_small in H; lia.
Qed.

(** ** Bits *)
Lemma land_pow2_shr x n : 0 <= n -> shr (Z.land x (2 ^ n)) n = (x / 2 ^ n) mod 2.
Proof.
  intros Hn. unfold shr. rewrite <- !Z.shiftr_div_pow2 by assumption.
  rewrite Z.shiftr_land. rewrite (Z.shiftr_div_pow2 (2 ^ n)) by assumption.
  rewrite Z.div_same by (pose proof (pow2_pos n Hn); lia).
  rewrite <- (Z.land_ones _ 1) by lia. reflexivity.
Qed.

Lemma land_mask x b : 0 <= b -> Z.land x (2 ^ b - 1) = x mod 2 ^ b.
Proof.
  intros Hb. replace (2 ^ b - 1) with (Z.ones b) by (rewrite Z.ones_equiv; lia).
  apply Z.land_ones; assumption.
Qed.

Lemma omap_ok {A B} (f : A -> outcome B) (g : A -> B) l :
  (forall a, In a l -> f a = Ret (g a)) -> omap f l = Ret (map g l).
Proof.
  induction l as [|a l IH]; intros H; [reflexivity|].
  cbn [omap map]. rewrite H by (left; reflexivity). cbn [obind].
  rewrite IH by (intros; apply H; right; assumption). reflexivity.
Qed.

Lemma nth_error_map2 {A B C} (f : A -> B -> C) l m i :
  nth_error (map2 f l m) i =
  match nth_error l i, nth_error m i with Some a, Some b => Some (f a b) | _, _ => None end.
Proof.
  revert m i. induction l as [|a l IH]; intros [|b m] [|i]; cbn; auto.
  - destruct (nth_error l i); reflexivity.
Qed.

Lemma map2_length {A B C} (f : A -> B -> C) l m : length (map2 f l m) = Nat.min (length l) (length m).
Proof. revert m. induction l as [|a l IH]; intros [|b m]; cbn; auto. Qed.

Lemma map2_map_l {A A' B C} (f : A -> B -> C) (g : A' -> A) l m :
  map2 f (map g l) m = map2 (fun a b => f (g a) b) l m.
Proof. revert m. induction l as [|a l IH]; intros [|b m]; cbn; congruence. Qed.

Lemma map2_map_r {A B B' C} (f : A -> B -> C) (g : B' -> B) l m :
  map2 f l (map g m) = map2 (fun a b => f a (g b)) l m.
Proof. revert m. induction l as [|a l IH]; intros [|b m]; cbn; congruence. Qed.

Lemma map_map2 {A B C D} (h : C -> D) (f : A -> B -> C) l m :
  map h (map2 f l m) = map2 (fun a b => h (f a b)) l m.
Proof. revert m. induction l as [|a l IH]; intros [|b m]; cbn; congruence. Qed.

Lemma ck_dim_eq_ok p a b : a = b -> ck_dim_eq p a b = Ret tt.
Proof. intros ->. destruct p; cbn; [rewrite Nat.eqb_refl|]; reflexivity. Qed.

Lemma zip_update_map2 {A B} (f : A -> B -> A) out other :
  length out = length other -> zip_update f out other = map2 f out other.
Proof.
  revert other. induction out as [|a out IH]; intros [|b other] H; try discriminate; [reflexivity|].
  cbn. rewrite IH by (cbn in H; lia). reflexivity.
Qed.

Lemma ozip_update_ok {A B} (f : A -> B -> outcome A) (g : A -> B -> A) out other :
  (forall a b, In a out -> In b other -> f a b = Ret (g a b)) ->
  ozip_update f out other = Ret (zip_update g out other).
Proof.
  revert other. induction out as [|a out IH]; intros [|b other] H; try reflexivity.
  cbn. rewrite H by (left; reflexivity). cbn.
  rewrite IH by (intros; apply H; right; assumption). reflexivity.
Qed.

Lemma zip_update_length {A B} (f : A -> B -> A) out other : length (zip_update f out other) = length out.
Proof. revert other. induction out as [|a out IH]; intros [|b other]; cbn; auto. Qed.
