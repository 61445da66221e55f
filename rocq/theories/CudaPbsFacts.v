(** * What the GPU bootstrap kernel computes, in terms of the operations of the CPU *)
From Verif Require Import Base Word WordFacts DecompModel DecompProofs NegaRing PolySpec PolyModel PolyProofs PolyTheorems GlweSpec GlweModel GgswSpec
  ExtProdModel ExtProdSpec ExtProdProofs BootstrapSpec BootstrapModel
  CudaKsModel CudaKsFacts CudaFftModel CudaFftSpec CudaFftAlgebra CudaFftProofs CudaFftFacts CudaPbsModel CudaPbsPhases CudaPbsKernel.
From Coq Require Import Ring.
Local Open Scope nat_scope.

(** ** Polynomials as lists and as functions *)
Definition poly (N : nat) (x : nat -> Z) : list Z := map x (seq 0 N).
Lemma poly_length N x : length (poly N x) = N. Proof. unfold poly. rewrite map_length, seq_length. reflexivity. Qed.
Lemma poly_nth N x i : i < N -> nth i (poly N x) 0%Z = x i. Proof. apply nth_map_seq. Qed.
Lemma poly_ext N x y : (forall i, i < N -> x i = y i) -> poly N x = poly N y.
Proof. intros E. apply map_ext_in. intros i Hi%in_seq. apply E. lia. Qed.
Lemma poly_of N (a : list Z) : length a = N -> poly N (fun i => nth i a 0%Z) = a.
Proof. intros Hl. apply (nth_ext _ _ 0%Z 0%Z); [rewrite poly_length; auto|]. intros i Hi. rewrite poly_length in Hi. apply poly_nth, Hi. Qed.
Lemma poly_wf_of w N x : (forall i, i < N -> is_word w (x i)) -> poly_wf w N (poly N x).
Proof. intros E. split; [apply poly_length|]. apply Forall_forall. intros y Hy. apply in_map_iff in Hy. destruct Hy as (i & <- & Hi%in_seq). apply E. lia. Qed.
Lemma zc_poly N x k : (0 <= k < Z.of_nat N)%Z -> zc (poly N x) k = x (Z.to_nat k).
Proof. intros Hk. unfold zc. destruct (Z.leb_spec 0 k); [|lia]. apply poly_nth. lia. Qed.
Lemma shifted_at N a d k q r : 0 < N -> (k - d = Z.of_nat N * q + r)%Z -> (0 <= r < Z.of_nat N)%Z -> shifted N a d k = if Z.even q then zc a r else (- zc a r)%Z.
Proof.
  intros HN E Hr. unfold shifted. assert (Eq : ((k - d) / Z.of_nat N = q)%Z) by (symmetry; apply (Z.div_unique _ _ q r); [left; exact Hr|exact E]).
  assert (Er : ((k - d) mod Z.of_nat N = r)%Z) by (symmetry; apply (Z.mod_unique _ _ q r); [left; exact Hr|exact E]). rewrite Eq, Er. reflexivity.
Qed.
Lemma word_mod w x : is_word w x -> (x mod 2 ^ w = x)%Z. Proof. intros Hx. apply Z.mod_small. exact Hx. Qed.

Lemma split_at {A} (a c : list A) n : length a = n -> firstn n (a ++ c) = a /\ skipn n (a ++ c) = c.
Proof. intros <-. rewrite firstn_app, firstn_all, Nat.sub_diag, firstn_O, app_nil_r, skipn_app, skipn_all, Nat.sub_diag. split; reflexivity. Qed.

Section Words.
Context (w : Z) (H : nat).
Hypothesis (Hw : (0 <= w)%Z) (HH : 0 < H).
Notation N := (2 * H).
Lemma neg_word x : is_word w (wneg w x). Proof. apply Z.mod_pos_bound, pow2_pos, Hw. Qed.
Lemma rotated_poly j x : j <= 2 * N -> (forall i, i < N -> is_word w (x i)) -> monic_monomial_mul w (poly N x) j = poly N (rotated w H j x).
Proof.
  intros Hj Hx. destruct (poly_wf_of w N x Hx) as [Hl Hf]. destruct (C17_monomial_mul w N (poly N x) j Hw ltac:(lia) Hl Hf) as (E1 & _ & E2 & _).
  apply (nth_ext _ _ 0%Z 0%Z); [rewrite poly_length; exact E1|]. intros i Hi. rewrite E1 in Hi. rewrite poly_nth by exact Hi.
  specialize (E2 (Z.of_nat i) ltac:(lia)). unfold zc in E2 at 1. destruct (Z.leb_spec 0 (Z.of_nat i)); [|lia]. rewrite Nat2Z.id in E2. rewrite E2.
  clear E1 E2 Hl Hf. unfold rotated. destruct (Nat.ltb_spec j N); [destruct (Nat.ltb_spec i j)|destruct (Nat.ltb_spec i (j - N))].
  - rewrite (shifted_at N _ _ _ (-1) (Z.of_nat (i + N - j))) by lia. cbn [Z.even]. rewrite zc_poly, Nat2Z.id by lia. reflexivity.
  - rewrite (shifted_at N _ _ _ 0 (Z.of_nat (i - j))) by lia. cbn [Z.even]. rewrite zc_poly, Nat2Z.id by lia. apply word_mod, Hx. lia.
  - rewrite (shifted_at N _ _ _ (-2) (Z.of_nat (i + N - (j - N)))) by lia. cbn [Z.even]. rewrite zc_poly, Nat2Z.id by lia. apply word_mod, Hx. lia.
  - rewrite (shifted_at N _ _ _ (-1) (Z.of_nat (i - (j - N)))) by lia. cbn [Z.even]. rewrite zc_poly, Nat2Z.id by lia. reflexivity.
Qed.
Lemma divided_poly j x : j <= 2 * N -> (forall i, i < N -> is_word w (x i)) -> unit_monomial_div w (poly N x) j = poly N (divided w H j x).
Proof.
  intros Hj Hx. destruct (poly_wf_of w N x Hx) as [Hl Hf]. destruct (C17_monomial_div w N (poly N x) j Hw ltac:(lia) Hl Hf) as (E1 & _ & E2 & _).
  apply (nth_ext _ _ 0%Z 0%Z); [rewrite poly_length; exact E1|]. intros i Hi. rewrite E1 in Hi. rewrite poly_nth by exact Hi.
  specialize (E2 (Z.of_nat i) ltac:(lia)). unfold zc in E2 at 1. destruct (Z.leb_spec 0 (Z.of_nat i)); [|lia]. rewrite Nat2Z.id in E2. rewrite E2.
  clear E1 E2 Hl Hf. unfold divided. destruct (Nat.ltb_spec j N); [destruct (Nat.ltb_spec i (N - j))|destruct (Nat.ltb_spec i (N - (j - N)))].
  - rewrite (shifted_at N _ _ _ 0 (Z.of_nat (i + j))) by lia. cbn [Z.even]. rewrite zc_poly, Nat2Z.id by lia. apply word_mod, Hx. lia.
  - rewrite (shifted_at N _ _ _ 1 (Z.of_nat (i + j - N))) by lia. cbn [Z.even]. rewrite zc_poly, Nat2Z.id by lia. reflexivity.
  - rewrite (shifted_at N _ _ _ 1 (Z.of_nat (i + (j - N)))) by lia. cbn [Z.even]. rewrite zc_poly, Nat2Z.id by lia. reflexivity.
  - rewrite (shifted_at N _ _ _ 2 (Z.of_nat (i + (j - N) - N))) by lia. cbn [Z.even]. rewrite zc_poly, Nat2Z.id by lia. apply word_mod, Hx. lia.
Qed.
Lemma rotated_word j x i : j <= 2 * N -> i < N -> (forall i, i < N -> is_word w (x i)) -> is_word w (rotated w H j x i).
Proof. intros Hj Hi Hx. unfold rotated. destruct (Nat.ltb_spec j N); [destruct (Nat.ltb_spec i j)|destruct (Nat.ltb_spec i (j - N))]; first [apply neg_word|apply Hx; lia]. Qed.
Lemma divided_word j x i : j <= 2 * N -> i < N -> (forall i, i < N -> is_word w (x i)) -> is_word w (divided w H j x i).
Proof. intros Hj Hi Hx. unfold divided. destruct (Nat.ltb_spec j N); [destruct (Nat.ltb_spec i (N - j))|destruct (Nat.ltb_spec i (N - (j - N)))]; first [apply neg_word|apply Hx; lia]. Qed.
Lemma rotated_none x i : i < N -> rotated w H 0 x i = x i /\ rotated w H (2 * N) x i = x i.
Proof.
  intros Hi. unfold rotated. split.
  - destruct (Nat.ltb_spec 0 N); [|lia]. destruct (Nat.ltb_spec i 0); [lia|]. f_equal. lia.
  - destruct (Nat.ltb_spec (2 * N) N); [lia|]. destruct (Nat.ltb_spec i (2 * N - N)); [|lia]. f_equal. lia.
Qed.
Lemma divided_none x i : i < N -> divided w H (2 * N) x i = divided w H 0 x i.
Proof.
  intros Hi. unfold divided. destruct (Nat.ltb_spec (2 * N) N); [lia|]. destruct (Nat.ltb_spec i (N - (2 * N - N))); [lia|].
  destruct (Nat.ltb_spec 0 N); [|lia]. destruct (Nat.ltb_spec i (N - 0)); [|lia]. f_equal. lia.
Qed.
Lemma neg_neg x : is_word w x -> wneg w (wneg w x) = x.
Proof.
  intros Hx. unfold wneg. rewrite <- (word_mod w x Hx) at 2. change (eqm (2 ^ w) (- (- x mod 2 ^ w)) x). rewrite eqm_mod. apply eqm_eq. lia.
Qed.
Lemma extracted_poly x : (forall i, i < N -> is_word w (x i)) -> extract_poly w (N - 0 - 1) (poly N x) = poly N (extracted w H x).
Proof.
  intros Hx. unfold extract_poly, rotate_left, neg_first.
  assert (Er : rev (poly N x) = map (fun i => x (N - 1 - i)) (seq 0 (N - 1)) ++ [x 0]).
  { unfold poly. rewrite <- map_rev, rev_seq, map_map. replace (seq 0 N) with (seq 0 (N - 1) ++ [N - 1]) by (rewrite <- seq_S; f_equal; lia).
    rewrite map_app. cbn [map]. rewrite Nat.sub_diag. reflexivity. }
  rewrite Nat.sub_0_r. rewrite Er.
  assert (L : length (map (fun i => x (N - 1 - i)) (seq 0 (N - 1))) = N - 1) by (rewrite map_length, seq_length; reflexivity).
  destruct (split_at _ [x 0] (N - 1) L) as [-> ->].
  set (M := map (wneg w) (map (fun i => x (N - 1 - i)) (seq 0 (N - 1)))). assert (LM : length M = N - 1) by (unfold M; rewrite map_length; exact L).
  destruct (split_at M [x 0] (N - 1) LM) as [-> ->]. cbn [app].
  unfold poly. replace (seq 0 N) with (0 :: map S (seq 0 (N - 1))) by (rewrite seq_shift; change (0 :: seq 1 (N - 1)) with (seq 0 (S (N - 1))); f_equal; lia).
  cbn [map]. f_equal; [unfold extracted; cbn [Nat.ltb Nat.leb]; symmetry; apply neg_neg, Hx; lia|]. unfold M. rewrite !map_map. apply map_ext_in. intros i Hi%in_seq.
  unfold extracted. destruct (Nat.ltb_spec (S i) 1); [lia|]. do 2 f_equal. lia.
Qed.
End Words.

(** ** The digits *)
Section Digits.
Context (w b : Z) (l : nat).
Notation d := (Dec b l).
Hypothesis (Hd : dec_wf w d) (H32 : (32 <= w)%Z) (Hb : (b <= 31)%Z).
Lemma round_c x : is_word w x -> gpu_round w b l x = closest_representable w d x. Proof. exact (gpu_round_closest w d Hd x). Qed.
Definition first_state (x : Z) : Z := shr (gpu_round w b l x) (w - b * Z.of_nat l).
Fixpoint nth_state (s : nat) (x : Z) : Z := match s with O => first_state x | S s => state_of w b (nth_state s x) end.
Lemma state_snd st : state_of w b st = snd (gpu_decompose_one w b st). Proof. reflexivity. Qed.
Lemma digit_fst st : digit_of w b st = int32 (fst (gpu_decompose_one w b st)). Proof. reflexivity. Qed.
Lemma states_ok x : is_word w x -> forall s, s <= l -> (0 <= nth_state s x <= 2 ^ (b * Z.of_nat (l - s)))%Z /\
  forall t, dgt w b l (s + t) (first_state x) = dgt w b (l - s) t (nth_state s x).
Proof.
  intros Hx. induction s as [|s IH]; intros Hs.
  - rewrite Nat.sub_0_r. cbn [nth_state Nat.add]. split; [|reflexivity]. unfold first_state. rewrite (round_c x Hx). apply (start_state w d Hd x Hx).
  - destruct (IH ltac:(lia)) as [R1 R2]. clear IH. cbn [nth_state]. replace (l - s) with (S (l - S s)) in R1, R2 by lia.
    destruct (gpu_one_level w d Hd (l - S s) (nth_state s x) ltac:(cbn [level_count]; lia) R1) as [G1 G2]. cbn [base_log level_count] in G1, G2.
    rewrite state_snd, G1. split; [exact G2|]. intros t. rewrite Nat.add_succ_comm, R2. apply dgt_S.
Qed.
Lemma int32_small v : (Z.abs v <= 2 ^ 30)%Z -> int32 (v mod 2 ^ w) = v.
Proof.
  intros Hv. unfold int32. assert (E : ((v mod 2 ^ w) mod 2 ^ 32 = v mod 2 ^ 32)%Z).
  { symmetry. apply Znumtheory.Zmod_div_mod; [reflexivity|apply pow2_pos; lia|]. exists (2 ^ (w - 32))%Z. rewrite <- Z.pow_add_r by lia. f_equal. lia. }
  rewrite E. apply (sgn_digit 32 v 31); [lia|]. change (2 ^ (31 - 1))%Z with (2 ^ 30)%Z. lia.
Qed.
Lemma digit_spec x s : is_word w x -> s < l -> digit_of w b (nth_state s x) = sgn w (xdigit w d s x).
Proof.
  intros Hx Hs. destruct (states_ok x Hx s ltac:(lia)) as [R1 R2]. specialize (R2 0). rewrite Nat.add_0_r in R2. replace (l - s) with (S (l - S s)) in R1, R2 by lia.
  destruct (gpu_one_level w d Hd (l - S s) (nth_state s x) ltac:(cbn [level_count]; lia) R1) as [G1 G2]. cbn [base_log level_count] in G1, G2.
  destruct (xdigit_spec w d x s Hd Hx Hs) as [X1 X2]. cbn [base_log] in X2.
  assert (E : xdigit w d s x = fst (gpu_decompose_one w b (nth_state s x))).
  { unfold xdigit, decomp. cbn [base_log level_count]. rewrite <- (round_c x Hx). fold (first_state x). fold (dgt w b l s (first_state x)). rewrite R2, dgt_0, G1. reflexivity. }
  rewrite digit_fst, <- E. unfold sdigit in X2. set (X := xdigit w d s x) in *. clearbody X.
  assert (EX : (X = sgn w X mod 2 ^ w)%Z). { pose proof (sgn_eqm w X) as E'. unfold eqm in E'. rewrite E'. symmetry. apply word_mod, X1. }
  rewrite EX at 1. apply int32_small. etransitivity; [exact X2|]. apply Z.pow_le_mono_r; lia.
Qed.
Lemma zero_states s : nth_state s 0 = 0%Z.
Proof.
  induction s as [|s IH]; cbn [nth_state].
  - unfold first_state, gpu_round, shr, shl, wadd. rewrite Z.land_0_l, !Zdiv_0_l. reflexivity.
  - rewrite IH. unfold state_of, carry_of, shr, wadd. rewrite Z.land_0_l, Z.land_0_r, !Zdiv_0_l. reflexivity.
Qed.
Lemma zero_digit : digit_of w b 0 = 0%Z.
Proof.
  unfold digit_of, carry_of, shr, shl, wsub. rewrite Z.land_0_l, Z.land_0_r, !Zdiv_0_l. reflexivity.
Qed.
End Digits.
