(** * C54: converting between words and Fourier coefficients, with every instruction set *)
From Coq Require Import QArith Qpower Qabs Qround Lqa.
From Verif Require Import Base Word WordFacts FloatModel FloatFacts FourierConvSpec FourierConvModel FourierConvProofs FourierConvBounds SeededModel.
Open Scope Z_scope.

(** Both parts are doubles: integers of at most 53 bits times powers of two. *)
Definition is_c64 (z : Q * Q) : Prop := fits53 (fst z) /\ fits53 (snd z).

(** ** Conversions of one number *)
(** Every finite double whose integer part fits a signed word goes to that integer part, as [as i64] does. *)
Theorem C54_f64_to_i64 : forall bits, f64_finite bits -> (- 2 ^ 63 <= f64_value bits)%Q -> (f64_value bits < 2 ^ 63)%Q ->
  mm256_cvtpd_epi64_bits bits = to_signed 64 (truncate (f64_value bits)) mod 2 ^ 64 /\ to_signed 64 (truncate (f64_value bits)) = truncate (f64_value bits).
Proof.
  intros bits [Hw He] H1 H2.
  assert (T : - 2 ^ 63 <= truncate (f64_value bits) < 2 ^ 63).
  { unfold truncate. destruct (Qle_bool 0 (f64_value bits)) eqn:E.
    - apply Qle_bool_iff in E. pose proof (floor_bounds (f64_value bits)) as [F1 F2]. assert (0 <= Qfloor (f64_value bits)) by (change 0 with (Qfloor 0); apply Qfloor_resp_le, E).
      assert (inject_Z (Qfloor (f64_value bits)) < inject_Z (2 ^ 63))%Q by (eapply Qle_lt_trans; [exact F1|exact H2]). rewrite <- Zlt_Qlt in H0. lia.
    - assert (N : (f64_value bits < 0)%Q) by (apply Qnot_le_lt; intros A; apply Qle_bool_iff in A; congruence).
      pose proof (floor_bounds (- f64_value bits)) as [F1 F2]. assert (0 <= Qfloor (- f64_value bits)) by (change 0 with (Qfloor 0); apply Qfloor_resp_le; lra).
      assert (inject_Z (Qfloor (- f64_value bits)) <= inject_Z (2 ^ 63))%Q by (change (inject_Z (2 ^ 63)) with (2 ^ 63)%Q; lra). rewrite <- Zle_Qle in H0. lia. }
  assert (S : to_signed 64 (truncate (f64_value bits)) = truncate (f64_value bits)) by (unfold to_signed; change (64 - 1) with 63; lia).
  split; [|exact S]. rewrite S. apply avx2_cvtpd; [exact Hw|]. apply Qle_lt_trans with (2 ^ 63)%Q; [|reflexivity]. apply Qabs_Qle_condition. split; [exact H1|]. apply Qlt_le_weak, H2.
Qed.
Print Assumptions C54_f64_to_i64.
(** -2.5, 2^53 + 2 and -2^63 *)
Example C54_f64_to_i64_case :
  let check b v := Z.eqb (mm256_cvtpd_epi64_bits b) (v mod 2 ^ 64) in
  (check 13836183955189006336 (-2) && check 4845873199050653697 (2 ^ 53 + 2) && check 14114281232179134464 (- 2 ^ 63) = true)%bool /\
  (f64_value 13836183955189006336 == - (5 # 2))%Q /\ (f64_value 14114281232179134464 == - 2 ^ 63)%Q.
Proof. split; [vm_compute; reflexivity|]. split; vm_compute; reflexivity. Qed.

(** Infinities, NaNs and everything from 2^64 on become 0 (where [as i64] saturates). *)
Theorem C54_f64_to_i64_large : forall bits, is_word 64 bits -> (f64_exponent bits = 2047 \/ (2 ^ 64 <= Qabs (f64_value bits))%Q) -> mm256_cvtpd_epi64_bits bits = 0.
Proof.
  intros bits H [E|E]; apply avx2_cvtpd_large; try exact H; [lia|].
  destruct (Z.le_gt_cases (f64_exponent bits) 1086) as [L|L]; [exfalso|exact L].
  assert (B : (Qabs (f64_value bits) < 2 ^ 64)%Q); [|lra]. clear E.
  assert (F : 0 <= f64_fraction bits < 2 ^ 52) by (apply Z.mod_pos_bound; lia).
  assert (G : 0 <= f64_exponent bits) by (apply Z.mod_pos_bound; lia).
  assert (A : forall m e, 0 <= m < 2 ^ 53 -> e <= 11 -> (Qabs (inject_Z m * 2 ^ e) < 2 ^ 64)%Q).
  { intros m e Hm He. rewrite Qabs_Qmult, (Qabs_pos (2 ^ e)%Q), Qabs_pos; [|change 0%Q with (inject_Z 0); apply inject_le; lia|apply Qlt_le_weak, Q2_pos].
    assert (E1 : (inject_Z m < 2 ^ 53)%Q) by (rewrite Q2_Z by lia; rewrite <- Zlt_Qlt; lia).
    assert (E2 : (2 ^ e <= 2 ^ 11)%Q).
    { replace 11 with (e + (11 - e)) by lia. rewrite Q2_add. assert (1 <= 2 ^ (11 - e))%Q; [|pose proof (Q2_pos e); nra].
      rewrite Q2_Z by lia. change 1%Q with (inject_Z 1). apply inject_le. pose proof (pow2_pos (11 - e)). lia. }
    pose proof (Q2_pos e). change (2 ^ 64)%Q with (2 ^ 53 * 2 ^ 11)%Q. assert (0 <= inject_Z m)%Q by (change 0%Q with (inject_Z 0); apply inject_le; lia).
    set (P := (2 ^ 53)%Q) in *. set (R := (2 ^ 11)%Q) in *. nra. }
  unfold f64_value. destruct (f64_exponent bits =? 0) eqn:E0; destruct (f64_sign bits); rewrite ?Qabs_opp; apply A; lia.
Qed.
Print Assumptions C54_f64_to_i64_large.
(** Infinity, a NaN and 2^64; [as i64] would give 2^63 - 1, 0 and 2^63 - 1. *)
Example C54_f64_to_i64_large_case : f64_exponent 9218868437227405312 = 2047 /\ map mm256_cvtpd_epi64_bits [9218868437227405312; 9221120237041090561; 4895412794951729152] = [0; 0; 0] /\ (f64_value 4895412794951729152 == 2 ^ 64)%Q.
Proof. repeat split; vm_compute; reflexivity. Qed.

(** Every signed word goes to the nearest double (ties to even), as [as f64] does. *)
Theorem C54_i64_to_f64 : forall lane x, is_word 64 x -> mm256_cvtepi64_pd lane x = of_int (sgn 64 x).
Proof. exact avx2_cvtepi64. Qed.
Print Assumptions C54_i64_to_f64.
Example C54_i64_to_f64_case : (mm256_cvtepi64_pd 1 (2 ^ 64 - 1) == -1)%Q /\ (mm256_cvtepi64_pd 0 (2 ^ 53 + 3) == inject_Z (2 ^ 53 + 4))%Q.
Proof. split; vm_compute; reflexivity. Qed.

(** The version for the AVX-512 feature negates: the sign mask is used the wrong way round. *)
Theorem C54_avx512_f64_to_i64_refuted : forall bits, is_word 64 bits -> (Qabs (f64_value bits) < 2 ^ 64)%Q ->
  mm512_cvtpd_epi64_bits bits = (- truncate (f64_value bits)) mod 2 ^ 64.
Proof. exact avx512_cvtpd. Qed.
Print Assumptions C54_avx512_f64_to_i64_refuted.
(** 5.0 becomes -5. *)
Example C54_avx512_f64_to_i64_case : (f64_value 4617315517961601024 == 5)%Q /\ mm512_cvtpd_epi64_bits 4617315517961601024 = 2 ^ 64 - 5 /\ mm256_cvtpd_epi64_bits 4617315517961601024 = 5.
Proof. repeat split; vm_compute; reflexivity. Qed.

(** ** Forward conversion *)
Lemma pow2_mod k d : (d <= k)%nat -> (Nat.pow 2 k mod Nat.pow 2 d = 0)%nat.
Proof. intros H. replace k with (d + (k - d))%nat by lia. rewrite Nat.pow_add_r, Nat.mul_comm. apply Nat.mod_mul. apply Nat.pow_nonzero. lia. Qed.
Lemma div_mul_exact n d : (d <> 0)%nat -> (n mod d = 0)%nat -> (n / d * d = n)%nat.
Proof. intros Hd H. pose proof (Nat.div_mod n d Hd). lia. Qed.
Lemma nth_map_zip4 {A B C D E} (g : A * B * C * D -> E) a b c d da db dc dd de i : length a = length b -> length a = length c -> length a = length d -> (i < length a)%nat ->
  nth i (map g (zip4 a b c d)) de = g (nth i a da, nth i b db, nth i c dc, nth i d dd).
Proof.
  intros H1 H2 H3 Hi. apply nth_error_nth. apply map_nth_error. apply zip4_nth; assumption.
Qed.
Lemma Forall_nth_word w l i : Forall (is_word w) l -> (i < length l)%nat -> is_word w (nth i l 0).
Proof. intros H Hi. rewrite Forall_forall in H. apply H, nth_In, Hi. Qed.

Lemma mod8 k n : n = Nat.pow 2 k -> (3 <= k)%nat -> (n mod 8 = 0)%nat. Proof. intros -> Hk. apply (pow2_mod k 3). exact Hk. Qed.
Lemma mod4 k n : n = Nat.pow 2 k -> (3 <= k)%nat -> (n mod 4 = 0)%nat. Proof. intros -> Hk. apply (pow2_mod k 2). lia. Qed.

Section forward_paths.
Context (p : profile) (w : Z) (k n : nat) (in_re in_im : list Z) (tw : twisties).
Context (Hn : n = Nat.pow 2 k) (Hk : (3 <= k)%nat).
Context (L1 : length in_re = n) (L2 : length in_im = n) (L3 : length (tw_re tw) = n) (L4 : length (tw_im tw) = n).
Context (W1 : Forall (is_word w) in_re) (W2 : Forall (is_word w) in_im).

Lemma div2_flat (out : list (Q * Q)) : length out = n -> Nat.div2 (length (flat out)) = n.
Proof. intros H. rewrite flat_length, H. apply Nat.div2_double. Qed.
Lemma full_result lanes (out : list (Q * Q)) c : (lanes <> 0)%nat -> (n mod lanes = 0)%nat -> length out = n ->
  flat (map (twist_fma c) (zip4 (firstn (n / lanes * lanes) in_re) (firstn (n / lanes * lanes) in_im) (firstn (n / lanes * lanes) (tw_re tw)) (firstn (n / lanes * lanes) (tw_im tw))))
    ++ skipn (2 * (n / lanes * lanes)) (flat out) = flat (map (twist_fma c) (zip4 in_re in_im (tw_re tw) (tw_im tw))).
Proof.
  intros H0 Hm Ho. rewrite (div_mul_exact _ _ H0 Hm). rewrite <- L1 at 1. rewrite <- L2 at 1. rewrite <- L3 at 1. rewrite <- L4 at 1. rewrite !firstn_all.
  rewrite skipn_all2 by (rewrite flat_length; lia). apply app_nil_r.
Qed.
Lemma fwd_256_result c cvt (out : list (Q * Q)) : length out = n -> (forall a, length a = 4%nat -> Forall (is_word w) a -> cvt a = map c a) ->
  fwd_loop 4 (fwd_block_256 cvt) n (flat out) in_re in_im tw = flat (map (twist_fma c) (zip4 in_re in_im (tw_re tw) (tw_im tw))).
Proof.
  intros Ho Hc. rewrite (fwd_loop_ok 4 (fwd_block_256 cvt) c); try assumption; [apply full_result; [lia|apply (mod4 k); assumption|exact Ho]|lia|rewrite div_mul_exact by (lia || apply (mod4 k); assumption); lia|rewrite flat_length; lia|].
  intros i a b Ha Hb wr wi Hwr Hwi. apply fwd_block_256_ok; try assumption; apply Hc; try assumption; apply load_at_Forall; assumption.
Qed.
Lemma fwd_512_result c cvt (out : list (Q * Q)) : length out = n -> (forall a, length a = 8%nat -> Forall (is_word w) a -> cvt a = map c a) ->
  fwd_loop 8 (fwd_block_512 cvt) n (flat out) in_re in_im tw = flat (map (twist_fma c) (zip4 in_re in_im (tw_re tw) (tw_im tw))).
Proof.
  intros Ho Hc. rewrite (fwd_loop_ok 8 (fwd_block_512 cvt) c); try assumption; [apply full_result; [lia|apply (mod8 k); assumption|exact Ho]|lia|rewrite div_mul_exact by (lia || apply (mod8 k); assumption); lia|rewrite flat_length; lia|].
  intros i a b Ha Hb wr wi Hwr Hwi. apply fwd_block_512_ok; try assumption; apply Hc; try assumption; apply load_at_Forall; assumption.
Qed.
Lemma x86_ok lanes : (n mod lanes = 0)%nat -> x86_lengths p lanes n in_re in_im (tw_re tw) (tw_im tw) = Ret tt.
Proof. intros H. apply x86_lengths_ok; assumption. Qed.

Lemma map_c64 {A} (g : A -> Q * Q) l : (forall x, is_c64 (g x)) -> Forall is_c64 (map g l).
Proof. intros H. apply Forall_forall. intros z Hz. apply in_map_iff in Hz. destruct Hz as (x & <- & _). apply H. Qed.
Definition forward_good (out' : list (Q * Q)) : Prop :=
  length out' = n /\ Forall is_c64 out' /\ forall i, (i < n)%nat -> twisted w (nth i out' (0, 0)%Q) (nth i in_re 0) (nth i in_im 0) (nth i (tw_re tw) 0%Q) (nth i (tw_im tw) 0%Q).
Lemma forward_fma_good c : good_cvt w c -> forward_good (map (twist_fma c) (zip4 in_re in_im (tw_re tw) (tw_im tw))).
Proof.
  intros Hc. split; [rewrite map_length, zip4_length; lia|]. split; [apply map_c64; intros [[[? ?] ?] ?]; split; apply rnd_fits|]. intros i Hi.
  rewrite (nth_map_zip4 _ _ _ _ _ 0 0 0%Q 0%Q) by lia. apply twist_fma_ok; [exact Hc| |]; apply Forall_nth_word; try assumption; lia.
Qed.
Lemma forward_scalar_good : forward_good (map (fun '(re, im, w_re, w_im) => cmul (of_int (sgn w re), of_int (sgn w im)) (w_re, w_im)) (zip4 in_re in_im (tw_re tw) (tw_im tw))).
Proof.
  split; [rewrite map_length, zip4_length; lia|]. split; [apply map_c64; intros [[[? ?] ?] ?]; split; apply rnd_fits|]. intros i Hi.
  rewrite (nth_map_zip4 _ _ _ _ _ 0 0 0%Q 0%Q) by lia. apply (twist_scalar_ok w (fun x => of_int (sgn w x))); [apply good_of_int| |]; apply Forall_nth_word; try assumption; lia.
Qed.
End forward_paths.

(** Whatever the processor offers, output [i] is the product of the [i]-th complex number with the [i]-th
    factor, up to four units in the last place of the sum of its two terms; no check fires in either profile. *)
Theorem C54_forward : forall p f w k n out in_re in_im tw, w = 32 \/ w = 64 -> n = Nat.pow 2 k -> (3 <= k)%nat ->
  length out = n -> length in_re = n -> length in_im = n -> length (tw_re tw) = n -> length (tw_im tw) = n ->
  Forall (is_word w) in_re -> Forall (is_word w) in_im ->
  exists out', convert_forward_integer p f w out in_re in_im tw = Ret out' /\ length out' = n /\ Forall is_c64 out' /\
    forall i, (i < n)%nat ->
      let re := inject_Z (sgn w (nth i in_re 0)) in let im := inject_Z (sgn w (nth i in_im 0)) in
      let w_re := nth i (tw_re tw) 0%Q in let w_im := nth i (tw_im tw) 0%Q in
      approximates (fst (nth i out' (0, 0)%Q)) (product_re re im w_re w_im) (magnitude re w_re im w_im) /\
      approximates (snd (nth i out' (0, 0)%Q)) (product_im re im w_re w_im) (magnitude re w_im im w_re).
Proof.
  intros p f w k n out in_re in_im tw Hw Hn Hk Lo L1 L2 L3 L4 W1 W2.
  enough (exists out', convert_forward_integer p f w out in_re in_im tw = Ret out' /\ forward_good w n in_re in_im tw out') as (out' & H & H1 & H2 & H3) by (exists out'; split; [exact H|split; [exact H1|split; [exact H2|exact H3]]]).
  assert (Sc : overwrite out (map (fun '(re, im, w_re, w_im) => cmul (of_int (sgn w re), of_int (sgn w im)) (w_re, w_im)) (zip4 in_re in_im (tw_re tw) (tw_im tw))) =
      map (fun '(re, im, w_re, w_im) => cmul (of_int (sgn w re), of_int (sgn w im)) (w_re, w_im)) (zip4 in_re in_im (tw_re tw) (tw_im tw))).
  { apply overwrite_all. rewrite map_length, zip4_length; lia. }
  unfold convert_forward_integer, via_flat, convert_forward_integer_u32_avx512f, convert_forward_integer_u32_fma, convert_forward_integer_u64_avx512f_avx512dq, convert_forward_integer_u64_avx2_fma, convert_forward_integer_scalar.
  rewrite !(div2_flat n) by exact Lo. rewrite (x86_ok p n in_re in_im tw L1 L2 L3 L4 8), (x86_ok p n in_re in_im tw L1 L2 L3 L4 4) by (eapply mod8 || eapply mod4; eassumption). cbn [obind].
  destruct Hw as [-> | ->].
  - change (32 =? 32) with true. cbn iota. destruct (nightly_avx512 f && has_avx512f f)%bool; [|destruct (has_fma f)].
    + rewrite (fwd_512_result 32 k n in_re in_im tw Hn Hk L1 L2 L3 L4 W1 W2 (fun x => inject_Z (sgn 32 x))) by (auto || reflexivity). rewrite pair_up_flat.
      eexists. split; [reflexivity|]. eapply forward_fma_good; try eassumption. apply good_exact.
    + rewrite (fwd_256_result 32 k n in_re in_im tw Hn Hk L1 L2 L3 L4 W1 W2 (fun x => inject_Z (sgn 32 x))) by (auto || reflexivity). rewrite pair_up_flat.
      eexists. split; [reflexivity|]. eapply forward_fma_good; try eassumption. apply good_exact.
    + eexists. split; [reflexivity|]. rewrite Sc. eapply forward_scalar_good; eassumption.
  - change (64 =? 32) with false. change (64 =? 64) with true. cbn iota. destruct (nightly_avx512 f && (has_avx512f f && has_avx512dq f))%bool; [|destruct (has_avx2 f && has_fma f)%bool].
    + rewrite (fwd_512_result 64 k n in_re in_im tw Hn Hk L1 L2 L3 L4 W1 W2 (fun x => of_int (sgn 64 x))) by (auto || reflexivity). rewrite pair_up_flat.
      eexists. split; [reflexivity|]. eapply forward_fma_good; try eassumption. apply good_of_int.
    + rewrite (fwd_256_result 64 k n in_re in_im tw Hn Hk L1 L2 L3 L4 W1 W2 (fun x => of_int (sgn 64 x))) by (auto || apply cvt_256_ok). rewrite pair_up_flat.
      eexists. split; [reflexivity|]. eapply forward_fma_good; try eassumption. apply good_of_int.
    + eexists. split; [reflexivity|]. rewrite Sc. eapply forward_scalar_good; eassumption.
Qed.
Print Assumptions C54_forward.

(** The torus version: the same with the words divided by 2^w. *)
Theorem C54_forward_torus : forall w n out in_re in_im tw, 0 < w ->
  length out = n -> length in_re = n -> length in_im = n -> length (tw_re tw) = n -> length (tw_im tw) = n ->
  let out' := convert_forward_torus w out in_re in_im tw in
  length out' = n /\ Forall is_c64 out' /\
  forall i, (i < n)%nat ->
    let re := (inject_Z (sgn w (nth i in_re 0%Z)) * 2 ^ (- w))%Q in let im := (inject_Z (sgn w (nth i in_im 0%Z)) * 2 ^ (- w))%Q in
    let w_re := nth i (tw_re tw) 0%Q in let w_im := nth i (tw_im tw) 0%Q in
    approximates (fst (nth i out' (0, 0)%Q)) (product_re re im w_re w_im) (magnitude re w_re im w_im) /\
    approximates (snd (nth i out' (0, 0)%Q)) (product_im re im w_re w_im) (magnitude re w_im im w_re).
Proof.
  intros w n out in_re in_im tw Hw Lo L1 L2 L3 L4. cbv zeta. unfold convert_forward_torus. rewrite overwrite_all by (rewrite map_length, zip4_length; lia).
  split; [rewrite map_length, zip4_length; lia|]. split; [apply map_c64; intros [[[? ?] ?] ?]; split; apply rnd_fits|]. intros i Hi.
  rewrite (nth_map_zip4 _ _ _ _ _ 0 0 0%Q 0%Q) by lia. set (re := (inject_Z (sgn w (nth i in_re 0%Z)) * 2 ^ (- w))%Q). set (im := (inject_Z (sgn w (nth i in_im 0%Z)) * 2 ^ (- w))%Q).
  set (w_re := nth i (tw_re tw) 0%Q). set (w_im := nth i (tw_im tw) 0%Q).
  assert (C : forall x, (Qabs (fmul (of_int x) (fpow2 (- w)) - inject_Z x * 2 ^ (- w)) <= u53 * Qabs (inject_Z x * 2 ^ (- w)))%Q).
  { intros x. unfold fmul, fpow2. rewrite (rnd_exact _ (fits53_shift _ (- w) (rnd_fits (inject_Z x)))). apply approx_factor, rnd_err'. }
  pose proof (C (sgn w (nth i in_re 0))) as H1. pose proof (C (sgn w (nth i in_im 0))) as H2. fold re in H1. fold im in H2. unfold cmul, product_re, product_im. cbn [fst snd]. split.
  - apply (two_products false false true _ _ _ _ w_re w_im _ H1 H2). reflexivity.
  - apply (two_products false false false _ _ _ _ w_im w_re _ H1 H2). reflexivity.
Qed.
Print Assumptions C54_forward_torus.

(** Eight coefficients; the factor of coefficient 1 is 1/2 + i/4. *)
Definition example_words : list Z := [3; 2 ^ 64 - 1; 7; 2 ^ 63; 5; 0; 1; 2 ^ 53 + 1].
Definition example_twisties : twisties := Twisties [1; 1 # 2; 1; 1; 1; 1; 1; 1]%Q [0; 1 # 4; 0; 0; 0; 0; 0; 0]%Q.
Definition plain_cpu : features := Features false false false false false.
Definition fma_cpu : features := Features false true true true true.
Definition avx512_cpu : features := Features true true true true true.
Definition close_lists (a b : list (Q * Q)) : bool :=
  forallb (fun x => Qeq_bool (fst (fst x)) (fst (snd x)) && Qeq_bool (snd (fst x)) (snd (snd x)))%bool (combine a b).
Example C54_forward_case :
  exists a b c, convert_forward_integer Debug plain_cpu 64 (repeat (0, 0)%Q 8) example_words (rev example_words) example_twisties = Ret a /\
    convert_forward_integer Debug fma_cpu 64 (repeat (0, 0)%Q 8) example_words (rev example_words) example_twisties = Ret b /\
    convert_forward_integer Debug avx512_cpu 64 (repeat (0, 0)%Q 8) example_words (rev example_words) example_twisties = Ret c /\
    Forall (is_word 64) example_words /\
    (* -1 + i at coefficient 1, times 1/2 + i/4 *)
    (fst (nth 1 b (0, 0)) == - (3 # 4))%Q /\ (snd (nth 1 b (0, 0)) == 1 # 4)%Q /\ close_lists a b = true /\ close_lists b c = true.
Proof.
  eexists. eexists. eexists. split; [vm_compute; reflexivity|]. split; [vm_compute; reflexivity|]. split; [vm_compute; reflexivity|].
  split; [repeat constructor; vm_compute; congruence|]. repeat split; vm_compute; reflexivity.
Qed.

(** ** Backward conversion *)
(** What coefficient [i] of the transform contributes to the two halves of the polynomial: its product with the
    conjugate factor divided by [n], and the magnitudes errors are relative to. *)
Definition back_target (n i : nat) (inp : list (Q * Q)) (tw : twisties) : Q * Q :=
  let z := nth i inp (0, 0)%Q in
  let w_re := nth i (tw_re tw) 0%Q in let w_im := nth i (tw_im tw) 0%Q in
  (/ inject_Z (Z.of_nat n) * product_re (fst z) (snd z) w_re (- w_im), / inject_Z (Z.of_nat n) * product_im (fst z) (snd z) w_re (- w_im))%Q.
Definition back_error (w : Z) (n i : nat) (inp : list (Q * Q)) (tw : twisties) : Q * Q :=
  let z := nth i inp (0, 0)%Q in
  let w_re := nth i (tw_re tw) 0%Q in let w_im := nth i (tw_im tw) 0%Q in
  let err s := ((3 # 2) + 2 ^ w * (4 * (1 # 9007199254740992) * (/ inject_Z (Z.of_nat n) * s)))%Q in
  (err (magnitude (fst z) w_re (snd z) w_im), err (magnitude (fst z) w_im (snd z) w_re)).

Lemma adds_weaken w old new X e e' : (e <= e')%Q -> adds w old new X e -> adds w old new X e'.
Proof. intros H [H1 [k H2]]. split; [exact H1|]. exists k. eapply Qle_trans; eassumption. Qed.
Lemma adds_target w old new X Y e : (X == Y)%Q -> adds w old new X e -> adds w old new Y e.
Proof. intros H [H1 [k H2]]. split; [exact H1|]. exists k. rewrite <- H. exact H2. Qed.

Section backward_paths.
Context (p : profile) (w : Z) (k n : nat) (out_re out_im : list Z) (inp : list (Q * Q)) (tw : twisties).
Context (Hw : 0 < w) (Hn : n = Nat.pow 2 k) (Hk : (3 <= k)%nat).
Context (L1 : length out_re = n) (L2 : length out_im = n) (L3 : length inp = n) (L4 : length (tw_re tw) = n) (L5 : length (tw_im tw) = n).
Context (T1 : Forall fits53 (tw_re tw)) (T2 : Forall fits53 (tw_im tw)).

Definition backward_good (sgn : Q) (r : list Z * list Z) : Prop :=
  length (fst r) = n /\ length (snd r) = n /\
  forall i, (i < n)%nat ->
    adds w (nth i out_re 0) (nth i (fst r) 0) (sgn * fst (back_target n i inp tw)) (fst (back_error w n i inp tw)) /\
    adds w (nth i out_im 0) (nth i (snd r) 0) (sgn * snd (back_target n i inp tw)) (snd (back_error w n i inp tw)).
Definition cvt_adds : (Q -> Z) -> Prop := fun cvt => forall t, Z.abs t <= 2 ^ (w - 1) -> fits53 (inject_Z t) -> cvt (inject_Z t) = t mod 2 ^ w.
Definition cvt_subs : (Q -> Z) -> Prop := fun cvt => forall t, Z.abs t <= 2 ^ (w - 1) -> fits53 (inject_Z t) -> cvt (inject_Z t) = (- t) mod 2 ^ w.
Lemma nth_fits l i : Forall fits53 l -> (i < length l)%nat -> fits53 (nth i l 0%Q).
Proof. intros H Hi. rewrite Forall_forall in H. apply H, nth_In, Hi. Qed.
Lemma word_adds cvt old m X s : cvt_adds cvt -> fits53 m -> approximates m X s ->
  adds w old (wadd w (cvt (scaled_fract (2 ^ w) m)) old) (1 * X) ((3 # 2) + 2 ^ w * (4 * (1 # 9007199254740992) * s)).
Proof.
  intros Hc F A. destruct (scaled_fract_ok w m F Hw) as (t & z & E & B & F2 & R). rewrite E, (Hc t B F2).
  replace (wadd w (t mod 2 ^ w) old) with ((old + t) mod 2 ^ w) by (unfold wadd; rewrite Zplus_mod_idemp_l; f_equal; lia).
  apply (adds_target _ _ _ X); [ring|]. eapply adds_intro; [exact Hw| |exact A]. eapply Qle_trans; [exact R|discriminate].
Qed.
Lemma word_subs cvt old m X s : cvt_subs cvt -> fits53 m -> approximates m X s ->
  adds w old (wadd w (cvt (scaled_fract (2 ^ w) m)) old) (- (1) * X) ((3 # 2) + 2 ^ w * (4 * (1 # 9007199254740992) * s)).
Proof.
  intros Hc F A. destruct (scaled_fract_ok w m F Hw) as (t & z & E & B & F2 & R). rewrite E, (Hc t B F2).
  replace (wadd w ((- t) mod 2 ^ w) old) with ((old + - t) mod 2 ^ w) by (unfold wadd; rewrite Zplus_mod_idemp_l; f_equal; lia).
  apply (adds_target _ _ _ (- X)); [ring|]. apply (adds_intro w old (- t) (- z) (- m)); [exact Hw| |].
  - replace (- t + - z * 2 ^ w) with (- (t + z * 2 ^ w)) by ring. rewrite inject_Z_opp.
    setoid_replace (- inject_Z (t + z * 2 ^ w) - 2 ^ w * - m)%Q with (- (inject_Z (t + z * 2 ^ w) - 2 ^ w * m))%Q by ring. rewrite Qabs_opp. eapply Qle_trans; [exact R|discriminate].
  - unfold approximates in *. setoid_replace (- m - - X)%Q with (- (m - X))%Q by ring. rewrite Qabs_opp. exact A.
Qed.
Lemma word_scalar old m X s : fits53 m -> approximates m X s ->
  adds w old (wadd w old (from_torus w m)) (1 * X) ((3 # 2) + 2 ^ w * (4 * (1 # 9007199254740992) * s)).
Proof.
  intros F A. destruct (from_torus_bound w m F Hw) as (t & z & E & R). rewrite E.
  replace (wadd w old (t mod 2 ^ w)) with ((old + t) mod 2 ^ w) by (unfold wadd; rewrite Zplus_mod_idemp_r; reflexivity).
  apply (adds_target _ _ _ X); [ring|]. eapply adds_intro; [exact Hw|exact R|exact A].
Qed.

Lemma loop_good lanes prologue cvt s : (s = 1 /\ cvt_adds cvt \/ s = - (1) /\ cvt_subs cvt)%Q -> (lanes <> 0)%nat -> (n mod lanes = 0)%nat -> prologue_ok lanes prologue ->
  backward_good s (bwd_loop w lanes prologue cvt n out_re out_im inp tw).
Proof.
  intros Hs Hl Hm Hp. pose proof (div_mul_exact n lanes Hl Hm) as E.
  rewrite bwd_loop_ok by (assumption || lia). rewrite E.
  replace (firstn n inp) with inp by (rewrite <- L3 at 1; symmetry; apply firstn_all). replace (firstn n (tw_re tw)) with (tw_re tw) by (rewrite <- L4 at 1; symmetry; apply firstn_all).
  replace (firstn n (tw_im tw)) with (tw_im tw) by (rewrite <- L5 at 1; symmetry; apply firstn_all).
  replace (firstn n out_re) with out_re by (rewrite <- L1 at 1; symmetry; apply firstn_all). replace (firstn n out_im) with out_im by (rewrite <- L2 at 1; symmetry; apply firstn_all).
  rewrite (skipn_all2 out_re), (skipn_all2 out_im), !app_nil_r by lia. unfold backward_good. cbn [fst snd].
  split; [rewrite map_length, zip4_length; lia|]. split; [rewrite map_length, zip4_length; lia|]. intros i Hi.
  rewrite !(nth_map_zip4 _ _ _ _ _ (0, 0)%Q 0%Q 0%Q 0) by lia.
  destruct (untwist_fma_ok k n (nth i inp (0, 0)%Q) (nth i (tw_re tw) 0%Q) (nth i (tw_im tw) 0%Q) Hn) as (F1 & F2 & A1 & A2); [apply nth_fits; [assumption|lia]|apply nth_fits; [assumption|lia]|].
  unfold back_re, back_im, back_target, back_error. cbn [fst snd].
  destruct Hs as [[-> Hc]|[-> Hc]]; split; [apply word_adds|apply word_adds|apply word_subs|apply word_subs]; assumption.
Qed.
Lemma zip_update_nth {A} (g : Z -> A -> Z) : forall l (m : list A) i d, length l = length m -> (i < length l)%nat -> nth i (zip_update g l m) 0 = g (nth i l 0) (nth i m d).
Proof.
  induction l as [|x l IH]; intros [|y m] i d H Hi; try discriminate; [cbn in Hi; lia|]. destruct i as [|i]; [reflexivity|]. cbn [zip_update nth].
  apply IH; [injection H as H; exact H|cbn in Hi; lia].
Qed.
Lemma zip_update_len {A} (g : Z -> A -> Z) : forall l (m : list A), length (zip_update g l m) = length l.
Proof. induction l as [|x l IH]; intros [|y m]; cbn; auto. Qed.
Lemma scalar_good : backward_good 1 (convert_add_backward_torus_scalar w out_re out_im inp tw).
Proof.
  unfold backward_good, convert_add_backward_torus_scalar. cbn [fst snd]. rewrite !zip_update_len. split; [exact L1|]. split; [exact L2|]. intros i Hi.
  rewrite !(zip_update_nth _ _ _ _ (0, 0)%Q) by (rewrite ?map_length, ?zip4_length; lia).
  rewrite !(nth_map_zip4 _ _ _ _ _ (0, 0)%Q 0%Q 0%Q (0, 0)%Q) by lia. rewrite L3.
  destruct (untwist_scalar_ok k n (nth i inp (0, 0)%Q) (nth i (tw_re tw) 0%Q) (nth i (tw_im tw) 0%Q) Hn) as (F1 & F2 & A1 & A2); [apply nth_fits; [assumption|lia]|apply nth_fits; [assumption|lia]|].
  split; apply word_scalar; assumption.
Qed.
End backward_paths.

(** Whatever the processor offers (without the AVX-512 build feature, or for 32-bit words), coefficient [i] of each
    half grows by the product of transform coefficient [i] with the conjugate factor, divided by [n] and taken
    on the torus, up to the rounding error of that product and one and a half units of the word. *)
Theorem C54_backward_add : forall p f w k n out_re out_im inp tw, w = 32 \/ w = 64 -> nightly_avx512 f = false \/ w = 32 ->
  n = Nat.pow 2 k -> (3 <= k)%nat ->
  length out_re = n -> length out_im = n -> length inp = n -> length (tw_re tw) = n -> length (tw_im tw) = n ->
  Forall fits53 (tw_re tw) -> Forall fits53 (tw_im tw) ->
  exists r, convert_add_backward_torus p f w out_re out_im inp tw = Ret r /\ length (fst r) = n /\ length (snd r) = n /\
    forall i, (i < n)%nat ->
      adds w (nth i out_re 0) (nth i (fst r) 0) (fst (back_target n i inp tw)) (fst (back_error w n i inp tw)) /\
      adds w (nth i out_im 0) (nth i (snd r) 0) (snd (back_target n i inp tw)) (snd (back_error w n i inp tw)).
Proof.
  intros p f w k n out_re out_im inp tw Hw Hf Hn Hk L1 L2 L3 L4 L5 T1 T2.
  enough (exists r, convert_add_backward_torus p f w out_re out_im inp tw = Ret r /\ backward_good w n out_re out_im inp tw 1 r) as (r & H & H1 & H2 & H3).
  { exists r. split; [exact H|]. split; [exact H1|]. split; [exact H2|]. intros i Hi. destruct (H3 i Hi) as [A B].
    split; (eapply adds_target; [|eassumption]); ring. }
  pose proof (mod8 k n Hn Hk) as M8. pose proof (mod4 k n Hn Hk) as M4.
  unfold convert_add_backward_torus, convert_add_backward_torus_u32_avx512f, convert_add_backward_torus_u32_fma, convert_add_backward_torus_u64_avx512f, convert_add_backward_torus_u64_fma.
  rewrite L1. rewrite !x86_lengths_ok by assumption.
  assert (C32 : cvt_adds 32 cvtpd_epi32) by (intros t Ht _; apply cvt32_ok, Ht).
  assert (C64 : cvt_adds 64 mm256_cvtpd_epi64) by (intros t Ht Ft; apply cvt64_ok; assumption).
  destruct Hw as [-> | ->].
  - change (32 =? 32) with true. cbn iota. destruct (nightly_avx512 f && has_avx512f f)%bool; [|destruct (has_fma f)].
    + eexists. split; [reflexivity|]. apply (loop_good 32 k); try assumption; [lia|left; split; [reflexivity|exact C32]|lia|apply prologue_512_ok].
    + eexists. split; [reflexivity|]. apply (loop_good 32 k); try assumption; [lia|left; split; [reflexivity|exact C32]|lia|apply prologue_fma_ok].
    + eexists. split; [reflexivity|]. apply (scalar_good 32 k); try assumption; lia.
  - change (64 =? 32) with false. change (64 =? 64) with true. cbn iota. destruct Hf as [-> |Hf]; [|discriminate]. cbn [andb]. destruct (has_avx2 f && has_fma f)%bool.
    + eexists. split; [reflexivity|]. apply (loop_good 64 k); try assumption; [lia|left; split; [reflexivity|exact C64]|lia|apply prologue_fma_ok].
    + eexists. split; [reflexivity|]. apply (scalar_good 64 k); try assumption; lia.
Qed.
Print Assumptions C54_backward_add.

(** With the AVX-512 build feature on a processor that has it, 64-bit words shrink by that amount instead. *)
Theorem C54_avx512_backward_refuted : forall p f k n out_re out_im inp tw, nightly_avx512 f = true -> has_avx512f f = true ->
  n = Nat.pow 2 k -> (3 <= k)%nat ->
  length out_re = n -> length out_im = n -> length inp = n -> length (tw_re tw) = n -> length (tw_im tw) = n ->
  Forall fits53 (tw_re tw) -> Forall fits53 (tw_im tw) ->
  exists r, convert_add_backward_torus p f 64 out_re out_im inp tw = Ret r /\ length (fst r) = n /\ length (snd r) = n /\
    forall i, (i < n)%nat ->
      adds 64 (nth i out_re 0) (nth i (fst r) 0) (- fst (back_target n i inp tw)) (fst (back_error 64 n i inp tw)) /\
      adds 64 (nth i out_im 0) (nth i (snd r) 0) (- snd (back_target n i inp tw)) (snd (back_error 64 n i inp tw)).
Proof.
  intros p f k n out_re out_im inp tw Hf1 Hf2 Hn Hk L1 L2 L3 L4 L5 T1 T2.
  enough (exists r, convert_add_backward_torus p f 64 out_re out_im inp tw = Ret r /\ backward_good 64 n out_re out_im inp tw (- (1)) r) as (r & H & H1 & H2 & H3).
  { exists r. split; [exact H|]. split; [exact H1|]. split; [exact H2|]. intros i Hi. destruct (H3 i Hi) as [A B].
    split; (eapply adds_target; [|eassumption]); ring. }
  pose proof (mod8 k n Hn Hk) as M8. unfold convert_add_backward_torus. change (64 =? 32) with false. change (64 =? 64) with true. cbn iota. rewrite Hf1, Hf2. cbn [andb].
  unfold convert_add_backward_torus_u64_avx512f. rewrite L1. rewrite !x86_lengths_ok by assumption.
  eexists. split; [reflexivity|]. apply (loop_good 64 k); try assumption; [lia|right; split; [reflexivity|intros t Ht Ft; apply cvt64_512; assumption]|lia|apply prologue_512_ok].
Qed.
Print Assumptions C54_avx512_backward_refuted.
(** [1/2^61] at every coefficient is added as 8/n = 1 with the plain conversion and removed with the AVX-512 one. *)
Definition example_fourier : list (Q * Q) := repeat (1 # 2305843009213693952, 0)%Q 8.
Example C54_backward_add_case :
  convert_add_backward_torus Debug plain_cpu 64 (repeat 10 8) (repeat (2 ^ 64 - 1) 8) example_fourier (Twisties (repeat 1%Q 8) (repeat 0%Q 8)) = Ret (repeat 11 8, repeat (2 ^ 64 - 1) 8) /\
  convert_add_backward_torus Debug fma_cpu 64 (repeat 10 8) (repeat (2 ^ 64 - 1) 8) example_fourier (Twisties (repeat 1%Q 8) (repeat 0%Q 8)) = Ret (repeat 11 8, repeat (2 ^ 64 - 1) 8) /\
  convert_add_backward_torus Debug avx512_cpu 64 (repeat 10 8) (repeat (2 ^ 64 - 1) 8) example_fourier (Twisties (repeat 1%Q 8) (repeat 0%Q 8)) = Ret (repeat 9 8, repeat (2 ^ 64 - 1) 8) /\
  ((2 ^ 64 * fst (back_target 8 3 example_fourier (Twisties (repeat 1%Q 8) (repeat 0%Q 8))))%Q == 1)%Q /\ Forall fits53 (repeat 1%Q 8).
Proof.
  split; [vm_compute; reflexivity|]. split; [vm_compute; reflexivity|]. split; [vm_compute; reflexivity|]. split; [vm_compute; reflexivity|].
  apply Forall_forall. intros x Hx. apply repeat_spec in Hx. subst x. exists 1, 0. split; [lia|reflexivity].
Qed.

(** The overwriting version gives the same words from nothing. *)
Theorem C54_backward : forall w k n out_re out_im inp tw, 0 < w -> n = Nat.pow 2 k ->
  length out_re = n -> length out_im = n -> length inp = n -> length (tw_re tw) = n -> length (tw_im tw) = n ->
  Forall fits53 (tw_re tw) -> Forall fits53 (tw_im tw) ->
  let r := convert_backward_torus w out_re out_im inp tw in
  length (fst r) = n /\ length (snd r) = n /\
  forall i, (i < n)%nat ->
    adds w 0 (nth i (fst r) 0) (fst (back_target n i inp tw)) (fst (back_error w n i inp tw)) /\
    adds w 0 (nth i (snd r) 0) (snd (back_target n i inp tw)) (snd (back_error w n i inp tw)).
Proof.
  intros w k n out_re out_im inp tw Hw Hn L1 L2 L3 L4 L5 T1 T2. cbv zeta. unfold convert_backward_torus. cbn [fst snd].
  rewrite !overwrite_all by (rewrite !map_length, zip4_length; lia). split; [rewrite !map_length, zip4_length; lia|]. split; [rewrite !map_length, zip4_length; lia|]. intros i Hi.
  rewrite !map_map, !(nth_map_zip4 _ _ _ _ _ (0, 0)%Q 0%Q 0%Q (0, 0)%Q) by lia. rewrite L3.
  destruct (untwist_scalar_ok k n (nth i inp (0, 0)%Q) (nth i (tw_re tw) 0%Q) (nth i (tw_im tw) 0%Q) Hn) as (F1 & F2 & A1 & A2); [apply nth_fits; [assumption|lia]|apply nth_fits; [assumption|lia]|].
  assert (E : forall m, from_torus w m = wadd w 0 (from_torus w m)).
  { intros m. unfold wadd. rewrite Z.add_0_l. symmetry. apply Z.mod_small. unfold from_torus. apply Z.mod_pos_bound. apply pow2_pos. lia. }
  unfold back_target, back_error. cbn [fst snd]. rewrite (E (fst _)), (E (snd _)).
  split; (eapply adds_target; [apply Qmult_1_l|]); apply word_scalar; assumption.
Qed.
Print Assumptions C54_backward.
(** A torus value of exactly -1/2 saturates to 2^63 - 1: one unit off, inside the bound. *)
Example C54_backward_case :
  convert_backward_torus 64 (repeat 7 8) (repeat 7 8) (repeat (-4, 1)%Q 8) (Twisties (repeat 1%Q 8) (repeat 0%Q 8)) = (repeat (2 ^ 63 - 1) 8, repeat (2 ^ 61) 8) /\
  nth 0 (fst (convert_backward_torus 64 (repeat 7 8) (repeat 7 8) (repeat (4, 1)%Q 8) (Twisties (repeat 1%Q 8) (repeat 0%Q 8)))) 0 = 2 ^ 63.
Proof. split; vm_compute; reflexivity. Qed.

(** Two machines that differ in instruction sets get words that differ by at most twice the error. *)
Theorem C54_same_on_every_machine : forall p p' f f' w k n out_re out_im inp tw, w = 32 \/ w = 64 ->
  nightly_avx512 f = false \/ w = 32 -> nightly_avx512 f' = false \/ w = 32 -> n = Nat.pow 2 k -> (3 <= k)%nat ->
  length out_re = n -> length out_im = n -> length inp = n -> length (tw_re tw) = n -> length (tw_im tw) = n ->
  Forall fits53 (tw_re tw) -> Forall fits53 (tw_im tw) ->
  exists r r', convert_add_backward_torus p f w out_re out_im inp tw = Ret r /\ convert_add_backward_torus p' f' w out_re out_im inp tw = Ret r' /\
    forall i, (i < n)%nat ->
      (exists j, (Qabs (inject_Z (nth i (fst r) 0 - nth i (fst r') 0 + j * 2 ^ w)%Z) <= 2 * fst (back_error w n i inp tw))%Q) /\
      (exists j, (Qabs (inject_Z (nth i (snd r) 0 - nth i (snd r') 0 + j * 2 ^ w)%Z) <= 2 * snd (back_error w n i inp tw))%Q).
Proof.
  intros p p' f f' w k n out_re out_im inp tw Hw Hf Hf' Hn Hk L1 L2 L3 L4 L5 T1 T2.
  destruct (C54_backward_add p f w k n out_re out_im inp tw Hw Hf Hn Hk L1 L2 L3 L4 L5 T1 T2) as (r & E & _ & _ & H).
  destruct (C54_backward_add p' f' w k n out_re out_im inp tw Hw Hf' Hn Hk L1 L2 L3 L4 L5 T1 T2) as (r' & E' & _ & _ & H').
  exists r, r'. split; [exact E|]. split; [exact E'|]. intros i Hi. destruct (H i Hi) as [A B]. destruct (H' i Hi) as [A' B'].
  assert (G : forall old x y X e, adds w old x X e -> adds w old y X e -> exists j, (Qabs (inject_Z (x - y + j * 2 ^ w)%Z) <= 2 * e)%Q).
  { intros old x y X e [_ [j1 R1]] [_ [j2 R2]]. exists (j1 - j2).
    replace (x - y + (j1 - j2) * 2 ^ w) with ((x - old + j1 * 2 ^ w) + - (y - old + j2 * 2 ^ w)) by ring.
    rewrite inject_Z_plus, inject_Z_opp. set (a := inject_Z (x - old + j1 * 2 ^ w)) in *. set (b := inject_Z (y - old + j2 * 2 ^ w)) in *.
    setoid_replace (a + - b)%Q with ((a - 2 ^ w * X) + - (b - 2 ^ w * X))%Q by ring. eapply Qle_trans; [apply Qabs_triangle|]. rewrite Qabs_opp. lra. }
  split; [exact (G _ _ _ _ _ A A')|exact (G _ _ _ _ _ B B')].
Qed.
Print Assumptions C54_same_on_every_machine.
(** A value whose product is not exact: the two conversions agree within the bound (here: 256 units of 2^64). *)
Example C54_same_case :
  let tw := Twisties (repeat (6004799503160661 # 18014398509481984)%Q 8) (repeat (1 # 7)%Q 8) in
  exists a b, convert_add_backward_torus Debug plain_cpu 64 (repeat 0 8) (repeat 0 8) (repeat (1 # 3, 3 # 7)%Q 8) tw = Ret a /\
    convert_add_backward_torus Debug fma_cpu 64 (repeat 0 8) (repeat 0 8) (repeat (1 # 3, 3 # 7)%Q 8) tw = Ret b /\
    (Z.abs (nth 0 (fst a) 0 - nth 0 (fst b) 0) <=? 2 ^ 11) = true.
Proof. cbv zeta. eexists. eexists. split; [vm_compute; reflexivity|]. split; [vm_compute; reflexivity|]. vm_compute. reflexivity. Qed.

(** Below four coefficients (polynomials of 2 or 4 coefficients) the vector versions convert nothing: the output
    keeps what was in the buffer in an unchecked build, and a checked build panics. *)
Theorem C54_small_sizes_refuted : forall f n out in_re in_im tw out_re out_im inp, nightly_avx512 f = false -> has_avx2 f = true -> has_fma f = true -> (0 < n < 4)%nat ->
  length out = n -> length out_re = n ->
  convert_forward_integer Release f 64 out in_re in_im tw = Ret out /\ convert_forward_integer Debug f 64 out in_re in_im tw = Panic /\
  convert_forward_integer Release f 32 out in_re in_im tw = Ret out /\ convert_forward_integer Debug f 32 out in_re in_im tw = Panic /\
  convert_add_backward_torus Release f 64 out_re out_im inp tw = Ret (out_re, out_im) /\ convert_add_backward_torus Debug f 64 out_re out_im inp tw = Panic /\
  convert_add_backward_torus Release f 32 out_re out_im inp tw = Ret (out_re, out_im) /\ convert_add_backward_torus Debug f 32 out_re out_im inp tw = Panic.
Proof.
  intros f n out in_re in_im tw out_re out_im inp H1 H2 H3 Hn Lo Lr.
  unfold convert_forward_integer, convert_add_backward_torus, via_flat, convert_forward_integer_u32_fma, convert_forward_integer_u64_avx2_fma, convert_add_backward_torus_u32_fma, convert_add_backward_torus_u64_fma.
  rewrite !(div2_flat n) by exact Lo. rewrite H1, H2, H3, Lr. cbn [andb]. change (64 =? 32) with false. change (64 =? 64) with true. change (32 =? 32) with true. cbn iota.
  assert (D : forall A B C E (a : list A) (b : list B) (c : list C) (d : list E), x86_lengths Debug 4 n a b c d = Panic).
  { intros. unfold x86_lengths. replace (n mod 4 =? 0)%nat with false; [reflexivity|]. symmetry. apply Nat.eqb_neq. rewrite Nat.mod_small; lia. }
  assert (R : forall A B C E (a : list A) (b : list B) (c : list C) (d : list E), x86_lengths Release 4 n a b c d = Ret tt) by reflexivity.
  rewrite !D, !R. unfold fwd_loop, bwd_loop. rewrite (Nat.div_small n 4) by lia. cbn [seq fold_left obind]. rewrite pair_up_flat. repeat split; reflexivity.
Qed.
Print Assumptions C54_small_sizes_refuted.
(** Two coefficients: what the plain conversion computes is not what the vector version leaves. *)
Example C54_small_sizes_case :
  convert_forward_integer Release plain_cpu 64 [(9, 9); (9, 9)]%Q [1; 2] [3; 4] (Twisties [1; 1]%Q [0; 0]%Q) <> convert_forward_integer Release fma_cpu 64 [(9, 9); (9, 9)]%Q [1; 2] [3; 4] (Twisties [1; 1]%Q [0; 0]%Q).
Proof. vm_compute. congruence. Qed.
