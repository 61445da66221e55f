(** * The GPU bootstrap kernel computes the bootstrap of the CPU model *)
From Verif Require Import Base Word WordFacts DecompModel DecompProofs NegaRing PolySpec PolyModel PolyProofs PolyTheorems LweProofs GlweProofs GlweSpec GlweModel GgswSpec
  ExtProdModel ExtProdSpec ExtProdProofs BootstrapSpec BootstrapModel BootstrapTheorems
  CudaKsModel CudaKsFacts CudaBlockModel CudaFftModel CudaFftSpec CudaFftAlgebra CudaFftProofs CudaFftFacts CudaPbsModel CudaPbsPhases CudaPbsKernel CudaPbsFacts CudaPbsSpec.
From Coq Require Import Ring.
Local Open Scope nat_scope.

(** ** The modulus switch *)
Lemma to_double_range w x : (0 <= w)%Z -> is_word w x -> (0 <= to_double x <= 2 ^ w)%Z.
Proof.
  intros Hw [H0 H1]. unfold to_double. destruct (Z.ltb_spec x (2 ^ 53)) as [L|L]; [lia|].
  assert (Hx : (0 < x)%Z) by (assert (0 < 2 ^ 53)%Z by reflexivity; lia). destruct (Z.log2_spec x Hx) as [G1 G2].
  assert (G3 : (53 <= Z.log2 x)%Z) by (apply Z.log2_le_pow2; lia).
  set (e := Z.log2 x) in *. assert (G4 : (e < w)%Z) by (apply Z.log2_lt_pow2; lia). clearbody e.
  set (s := (e - 52)%Z). assert (Hs : (0 < 2 ^ s)%Z) by (apply pow2_pos; lia).
  assert (Hq : (0 <= x / 2 ^ s < 2 ^ 53)%Z).
  { split; [apply Z.div_pos; lia|]. apply Z.div_lt_upper_bound; [exact Hs|]. rewrite <- Z.pow_add_r by lia. replace (s + 53)%Z with (Z.succ e) by lia. exact G2. }
  assert (Hle : (2 ^ 53 * 2 ^ s <= 2 ^ w)%Z) by (rewrite <- Z.pow_add_r by lia; apply Z.pow_le_mono_r; lia).
  set (q := (x / 2 ^ s)%Z) in *. clearbody q. cbv zeta. destruct (_ || _); set (P := (2 ^ s)%Z) in *; set (W := (2 ^ w)%Z) in *; clearbody P W; clear - Hs Hq Hle; nia.
Qed.
Lemma as_double_word w x : (0 <= w)%Z -> is_word w (as_double w x).
Proof. intros Hw. apply Z.mod_pos_bound, pow2_pos, Hw. Qed.
Lemma rescale_ok w N x : (0 <= w)%Z -> (0 < 2 * Z.of_nat N < 2 ^ w)%Z -> (2 * Z.of_nat N < 2 ^ 32)%Z -> is_word w x ->
  rescale_torus_element w (2 * N) x <= 2 * N /\
  (rescale_torus_element w (2 * N) x = Z.to_nat (switched w (Z.of_nat N) 0 (as_double w x)) \/ (as_double w x = 0%Z /\ rescale_torus_element w (2 * N) x = 2 * N)).
Proof.
  intros Hw HN H32 Hx. pose proof (to_double_range w x Hw Hx) as Hd. unfold rescale_torus_element, as_double. set (D := to_double x) in *. clearbody D.
  replace (2 * D * Z.of_nat (2 * N) + 2 ^ w)%Z with (2 * (D * (2 * Z.of_nat N)) + 2 ^ w)%Z by lia. fold (round_div (D * (2 * Z.of_nat N)) (2 ^ w)).
  pose proof (pow2_pos w Hw) as HW.
  assert (Hr : (0 <= round_div (D * (2 * Z.of_nat N)) (2 ^ w) <= 2 * Z.of_nat N)%Z).
  { destruct (round_div_spec (D * (2 * Z.of_nat N)) (2 ^ w) HW) as [R1 R2]. set (r := round_div _ _) in *. set (W := (2 ^ w)%Z) in *. set (M := (2 * Z.of_nat N)%Z) in *. clearbody r W M. clear - R1 R2 HN HW Hd.
    assert (0 <= D * M <= W * M)%Z by nia. nia. }
  assert (E : Z.to_nat (round_div (D * (2 * Z.of_nat N)) (2 ^ w) mod 2 ^ w mod 2 ^ 32) = Z.to_nat (round_div (D * (2 * Z.of_nat N)) (2 ^ w))).
  { rewrite Z.mod_small; rewrite Z.mod_small; (reflexivity || lia). }
  rewrite E. clear E. split; [lia|]. destruct (Z.eq_dec D (2 ^ w)) as [->|Hne].
  - right. split; [apply Z.mod_same; lia|]. set (r := round_div _ _) in *. enough (r = 2 * Z.of_nat N)%Z by lia.
    destruct (round_div_spec (2 ^ w * (2 * Z.of_nat N)) (2 ^ w) HW) as [R1 R2]. fold r in R1, R2. set (W := (2 ^ w)%Z) in *. set (M := (2 * Z.of_nat N)%Z) in *. clearbody r W M. clear - R1 R2 HW. nia.
  - left. rewrite Z.mod_small by lia. unfold switched. change (2 ^ 0)%Z with 1%Z. rewrite !Z.mul_1_l. reflexivity.
Qed.

Section Link.
Context (w : Z) {R : Type} (rO rI : R) (radd rmul rsub : R -> R -> R) (ropp : R -> R).
Hypothesis R_ring : ring_theory rO rI radd rmul rsub ropp (@eq R).
Add Ring RRing : R_ring.
Context (H n : nat) (of_int frac : Z -> R) (torus1 torus2 : R -> Z) (tw : nat -> R * R) (h : R) (b : Z) (k l : nat).
Notation N := (2 * H).
Notation cadd := (cadd radd). Notation cmul := (cmul radd rmul rsub). Notation csub := (csub rsub). Notation conj := (conj ropp). Notation cO := (cO rO).
Notation dir := (dir cadd cmul csub tw n n). Notation inv := (inv cadd cmul csub (fun k => conj (tw k)) n n).
Notation csum := (csum cO cadd). Notation rsum := (rsum rO radd). Notation nega := (nega_coeff rO radd rmul ropp N).
Notation C_ring := (c_ring rO rI radd rmul rsub ropp R_ring).

(** ** The inverse transform of a sum of products *)
Section Transforms.
Hypothesis (Hn : H = 2 ^ n) (Hn1 : 1 <= n) (Htab : twiddle_table rO rI radd rmul ropp H tw) (Hh : copies rO radd H h = rI).
Lemma dir_sum m (A : nat -> nat -> R * R) i : i < H -> csum m (fun s => dir (A s) i) = dir (fun e => csum m (fun s => A s e)) i.
Proof.
  intros Hi.
  assert (E : forall A, dir A i = csum H (fun e => cmul (A e) (cpow (cI rO rI) cmul (r (copp ropp) tw (rO, rI) (H + i)) e))).
  { intros A'. exact (dir_ev cO (cI rO rI) cadd cmul csub (copp ropp) C_ring tw (fun k => conj (tw k)) (rO, rI) H (table_squares rO rI radd rmul rsub ropp R_ring H tw Htab) (table_inverse rO rI radd rmul rsub ropp R_ring H tw Htab) n Hn A' i Hi). }
  rewrite E. rewrite (csum_ext cO cadd m _ _ (fun s _ => E (A s))).
  rewrite (csum_swap cO (cI rO rI) cadd cmul csub (copp ropp) C_ring). apply csum_ext. intros e _. apply (csum_mul_r cO (cI rO rI) cadd cmul csub (copp ropp) C_ring).
Qed.
Lemma conv_dir A B i : i < H -> cmul (dir A i) (dir B i) = dir (conv cO cadd cmul (rO, rI) H A B) i.
Proof.
  intros Hi.
  assert (E : forall A, dir A i = ev cO (cI rO rI) cadd cmul H A (r (copp ropp) tw (rO, rI) (H + i))).
  { intros A'. exact (dir_ev cO (cI rO rI) cadd cmul csub (copp ropp) C_ring tw (fun k => conj (tw k)) (rO, rI) H (table_squares rO rI radd rmul rsub ropp R_ring H tw Htab) (table_inverse rO rI radd rmul rsub ropp R_ring H tw Htab) n Hn A' i Hi). }
  rewrite !E. symmetry. apply (ev_conv cO (cI rO rI) cadd cmul csub (copp ropp) C_ring tw (fun k => conj (tw k)) (rO, rI) H (table_squares rO rI radd rmul rsub ropp R_ring H tw Htab) (table_inverse rO rI radd rmul rsub ropp R_ring H tw Htab) n Hn).
  rewrite Hn. apply (r_pow cO (cI rO rI) cadd cmul csub (copp ropp) C_ring tw (fun k => conj (tw k)) (rO, rI) H (table_squares rO rI radd rmul rsub ropp R_ring H tw Htab) (table_inverse rO rI radd rmul rsub ropp R_ring H tw Htab) n Hn n (le_n n)).
  rewrite <- Hn. lia.
Qed.
Lemma inverse_of_sum m m' (A B : nat -> nat -> nat -> R) P i :
  (forall i, i < H -> P i = csum m (fun s => csum m' (fun p => cmul (dir (packed H (A s p)) i) (dir (packed H (B s p)) i)))) -> i < H ->
  inv (fun i => cmul (h, rO) (P i)) i = packed H (fun e => rsum m (fun s => rsum m' (fun p => nega (A s p) (B s p) e))) i.
Proof.
  intros HP Hi. set (S := fun e => csum m (fun s => csum m' (fun p => conv cO cadd cmul (rO, rI) H (packed H (A s p)) (packed H (B s p)) e))).
  rewrite (inv_local cadd cmul csub tw (fun k => conj (tw k)) H n Hn n (le_n n) _ (fun i => cmul (h, rO) (dir S i))); [| |exact Hi].
  2:{ intros j Hj. rewrite HP by exact Hj. f_equal. unfold S. rewrite <- dir_sum by exact Hj. apply csum_ext. intros s Hs. rewrite <- dir_sum by exact Hj. apply csum_ext. intros p Hp. apply conv_dir, Hj. }
  rewrite (inv_scale cO (cI rO rI) cadd cmul csub (copp ropp) C_ring).
  rewrite (inv_dir cO (cI rO rI) cadd cmul csub (copp ropp) C_ring tw (fun k => conj (tw k)) (rO, rI) H (table_squares rO rI radd rmul rsub ropp R_ring H tw Htab) (table_inverse rO rI radd rmul rsub ropp R_ring H tw Htab) n Hn n (le_n n) S i Hi).
  rewrite <- Hn. rewrite (Rmul_assoc C_ring), (copies_nat rO rI radd rmul rsub ropp R_ring H h Hh), (Rmul_1_l C_ring).
  unfold S. rewrite (csum_ext cO cadd m _ (fun s => csum m' (fun p => packed H (nega (A s p) (B s p)) i))).
  2:{ intros s Hs. apply csum_ext. intros p Hp. apply packed_product; [exact R_ring|exact Hi]. }
  unfold packed. rewrite csum_parts. f_equal; apply rsum_ext; intros s Hs; rewrite csum_parts; reflexivity.
Qed.
End Transforms.

(** ** Sums over lists *)
Fixpoint lsum (L : list R) : R := match L with [] => rO | x :: L => radd x (lsum L) end.
Lemma lsum_app L L' : lsum (L ++ L') = radd (lsum L) (lsum L'). Proof. induction L as [|x L IH]; cbn [lsum app]; [ring|]. rewrite IH. ring. Qed.
Lemma lsum_seq m f : lsum (map f (seq 0 m)) = rsum m f.
Proof. induction m as [|m IH]; [reflexivity|]. rewrite seq_S, map_app, lsum_app, IH. cbn. ring. Qed.
Lemma lsum_flat {A} (f : A -> R) (g : nat -> list A) m : lsum (map f (flat_map g (seq 0 m))) = rsum m (fun s => lsum (map f (g s))).
Proof. induction m as [|m IH]; [reflexivity|]. rewrite seq_S, flat_map_app, map_app, lsum_app, IH. cbn. rewrite app_nil_r. ring. Qed.

(** ** The external product of the CPU model with the products of the GPU *)
Notation B := (gpu_backend w rO radd rmul ropp H of_int frac torus1 torus2).
Definition key_of (a : list Z) (i : nat) : R := frac (sgn w (nth i a 0%Z)).
Definition digit_poly (a : list Z) (i : nat) : R := of_int (sgn w (nth i a 0%Z)).
Lemma run_value out pairs : pairs <> [] ->
  bk_run B out pairs = poly N (fun i => wadd w (nth i out 0%Z) ((if i <? H then torus1 else torus2) (lsum (map (fun gd => nega (digit_poly (snd gd)) (key_of (fst gd)) i) pairs)))).
Proof.
  destruct pairs as [|[g d] rest]; [contradiction|]. intros _. cbn [bk_run]. cbn [gpu_backend bk_add_back bk_mac bk_mul bk_key bk_digit].
  assert (G : forall rest (o : nat -> R) i, fold_left (fun (o : nat -> R) '(g, d) => fun i => radd (o i) (nega (digit_poly d) (key_of g) i)) rest o i =
    radd (o i) (lsum (map (fun gd => nega (digit_poly (snd gd)) (key_of (fst gd)) i) rest))).
  { clear rest. induction rest as [|[g' d'] rest IH]; intros o i; cbn [fold_left map lsum fst snd]; [ring|]. rewrite IH. ring. }
  apply poly_ext. intros i Hi. do 2 f_equal. exact (G rest (nega (digit_poly d) (key_of g)) i).
Qed.
Lemma combine_seq {A C} (L : list A) (M : list C) m a c : length L = m -> length M = m -> combine L M = map (fun p => (nth p L a, nth p M c)) (seq 0 m).
Proof.
  clear. revert L M. induction m as [|m IH]; intros [|x L] [|y M] H1 H2; try discriminate; [reflexivity|]. rewrite map_seq_S. cbn [combine nth]. f_equal. apply IH; cbn in *; lia.
Qed.
Lemma nth_rev' {A} (G : list A) m s (dflt : A) : length G = m -> s < m -> nth s (rev G) dflt = nth (m - 1 - s) G dflt.
Proof. clear. intros <- Hs. rewrite rev_nth by exact Hs. f_equal. lia. Qed.

Notation d := (Dec b l).
Notation glwe acc := (map (fun z => poly N (acc z)) (seq 0 (S k))).
Hypothesis (Hd : dec_wf w d) (H32 : (32 <= w)%Z) (Hb31 : (b <= 31)%Z) (HH : 0 < H).
Lemma Hw0 : (0 <= w)%Z. Proof. lia. Qed.
Definition words_of (acc : nat -> nat -> Z) : Prop := forall z i, z <= k -> i < N -> is_word w (acc z i).
Lemma glwe_wf_of acc : words_of acc -> glwe_wf w k N (glwe acc).
Proof.
  intros Hx. split; [rewrite map_length, seq_length; reflexivity|]. apply Forall_forall. intros y Hy. apply in_map_iff in Hy. destruct Hy as (z & <- & Hz%in_seq).
  apply poly_wf_of. intros i Hi. apply Hx; lia.
Qed.
Lemma external_ok p acc diff G : words_of acc -> words_of diff -> ggsw_wf w k N l G ->
  external_product p w B N b (glwe acc) (fill_with_forward_fourier B G) (glwe diff) =
  Ret (glwe (fun z i => wadd w (acc z i) ((if i <? H then torus1 else torus2)
    (rsum l (fun s => rsum (S k) (fun p => nega (fun e => of_int (digit_of w b (nth_state w b l s (diff p e)))) (key_of (nth z (nth p (nth (l - 1 - s) G []) []) [])) i)))))).
Proof.
  intros Ha Hdf HG. pose proof (external_product_run p w B N k d (glwe acc) G (glwe diff) Hd ltac:(lia) (glwe_wf_of acc Ha) (glwe_wf_of diff Hdf) HG) as E.
  cbn [base_log] in E. rewrite E. f_equal. apply map_ext_in. intros u Hu%in_seq. destruct HG as [HGl HGf]. rewrite Forall_forall in HGf.
  assert (Hl : 0 < l) by (destruct Hd as (_ & Hl & _); exact Hl).
  assert (Erow : forall s, s < l -> combine (nth s (rev G) []) (map (map (xdigit w d s)) (glwe diff)) =
    map (fun p => (nth p (nth (l - 1 - s) G []) [], poly N (fun i => xdigit w d s (diff p i)))) (seq 0 (S k))).
  { intros s Hs. rewrite (nth_rev' G l s [] HGl Hs). destruct (HGf (nth (l - 1 - s) G [])) as [Hr _]; [apply nth_In; lia|].
    rewrite (combine_seq _ _ (S k) [] []); [|exact Hr|rewrite !map_length, seq_length; reflexivity]. apply map_ext_in. intros q Hq%in_seq. f_equal.
    rewrite map_map. rewrite nth_map_seq by lia. unfold poly. rewrite map_map. reflexivity. }
  rewrite run_value.
  - apply poly_ext. intros i Hi. rewrite nth_map_seq by lia. rewrite poly_nth by exact Hi. do 2 f_equal. unfold pairs_of, ep_flat. rewrite map_map, lsum_flat. rewrite HGl.
    apply rsum_ext. intros s Hs. rewrite Erow by exact Hs. rewrite map_map. rewrite lsum_seq. apply rsum_ext. intros q Hq.
    cbn [fst snd]. unfold nega_coeff. apply rsum_ext. intros e He. 
    assert (Ed : digit_poly (poly N (fun i => xdigit w d s (diff q i))) e = of_int (digit_of w b (nth_state w b l s (diff q e)))).
    { unfold digit_poly. rewrite poly_nth by exact He. f_equal. symmetry. apply digit_spec; try assumption. apply Hdf; lia. }
    rewrite Ed. reflexivity.
  - unfold pairs_of, ep_flat. rewrite HGl. destruct l as [|l']; [lia|]. cbn [seq flat_map]. rewrite Erow by lia. cbn. discriminate.
Qed.

(** ** One iteration *)
Hypothesis (Hn : H = 2 ^ n) (Hn1 : 1 <= n) (Htab : twiddle_table rO rI radd rmul ropp H tw) (Hh : copies rO radd H h = rI).
Hypothesis (Hof : of_int 0 = rO) (Ht1 : torus1 rO = 0%Z) (Ht2 : torus2 rO = 0%Z).
Context (key : nat -> nat -> nat -> nat -> nat -> R * R) (bsk : list (list (list (list (list Z))))).
Hypothesis (Hkey : forall it level p z i, it < length bsk -> level < l -> p <= k -> z <= k -> i < H ->
  key it level p z i = dir (packed H (key_of (nth z (nth p (nth level (nth it bsk []) []) []) []))) i) (Hbsk : Forall (ggsw_wf w k N l) bsk).
Notation back := (back w rO radd rmul rsub ropp H n of_int tw h b k l key).
Notation step := (step w rO radd rmul rsub ropp H n of_int torus1 torus2 tw h b k l key).
Definition turned (a_hat : nat) (acc : nat -> nat -> Z) (z i : nat) : Z := wsub w (rotated w H a_hat (acc z) i) (acc z i).
Lemma state_nth a_hat acc s z i : state w H b l a_hat acc s z i = nth_state w b l s (turned a_hat acc z i).
Proof. clear. induction s as [|s IH]; [reflexivity|]. cbn [state nth_state]. rewrite IH. reflexivity. Qed.
Lemma back_value it a_hat acc z i : it < length bsk -> z <= k -> i < H ->
  back it a_hat acc z i = packed H (fun e => rsum l (fun s => rsum (S k) (fun p => nega (fun e => of_int (digit_of w b (nth_state w b l s (turned a_hat acc p e))))
    (key_of (nth z (nth p (nth (l - 1 - s) (nth it bsk []) []) []) [])) e))) i.
Proof.
  intros Hit Hz Hi. unfold CudaPbsKernel.back.
  apply (inverse_of_sum Hn Hn1 Htab Hh l (S k) (fun s p e => of_int (digit_of w b (nth_state w b l s (turned a_hat acc p e)))) (fun s p => key_of (nth z (nth p (nth (l - 1 - s) (nth it bsk []) []) []) []))); [|exact Hi].
  clear i Hi. intros i Hi. unfold total. etransitivity; [apply (cadd_O_r rO rI radd rmul rsub ropp R_ring)|]. apply csum_ext. intros s Hs. rewrite Nat.add_1_r. apply csum_ext. intros p Hp.
  unfold term. rewrite Hkey by lia. f_equal. apply (dir_local cadd cmul csub tw tw H n Hn n (le_n n)); [|exact Hi]. intros j Hj. unfold digit_cplx, packed. rewrite !state_nth. reflexivity.
Qed.
Lemma turned_word a_hat acc : words_of (turned a_hat acc).
Proof. intros z i Hz Hi. apply Z.mod_pos_bound, pow2_pos, Hw0. Qed.
Lemma step_value it a_hat acc z i : it < length bsk -> z <= k -> i < N ->
  step it a_hat acc z i = wadd w (acc z i) ((if i <? H then torus1 else torus2)
    (rsum l (fun s => rsum (S k) (fun p => nega (fun e => of_int (digit_of w b (nth_state w b l s (turned a_hat acc p e)))) (key_of (nth z (nth p (nth (l - 1 - s) (nth it bsk []) []) []) [])) i)))).
Proof.
  intros Hit Hz Hi. unfold CudaPbsKernel.step, added. f_equal. destruct (Nat.ltb_spec i H).
  - rewrite back_value by assumption. reflexivity.
  - rewrite back_value by lia. unfold packed. cbn [snd]. replace (i - H + H) with i by lia. reflexivity.
Qed.
Lemma step_word it a_hat acc : words_of (step it a_hat acc).
Proof. intros z i Hz Hi. apply Z.mod_pos_bound, pow2_pos, Hw0. Qed.
Lemma rsum_zero m (f : nat -> R) : (forall i, i < m -> f i = rO) -> rsum m f = rO.
Proof. clear - R_ring. intros E. induction m as [|m IH]; [reflexivity|]. cbn [CudaFftSpec.rsum]. rewrite IH by (intros; apply E; lia). rewrite E by lia. ring. Qed.
Lemma step_still it a_hat acc z i : it < length bsk -> a_hat = 0 \/ a_hat = 2 * N -> words_of acc -> z <= k -> i < N -> step it a_hat acc z i = acc z i.
Proof.
  intros Hit Ha Hacc Hz Hi. rewrite step_value by assumption. rewrite rsum_zero.
  - replace ((if i <? H then torus1 else torus2) rO) with 0%Z by (destruct (i <? H); auto). unfold wadd. rewrite Z.add_0_r. apply word_mod, Hacc; assumption.
  - intros s Hs. apply rsum_zero. intros p Hp. unfold nega_coeff. apply rsum_zero. intros e He.
    assert (E : of_int (digit_of w b (nth_state w b l s (turned a_hat acc p e))) = rO).
    { unfold turned. replace (rotated w H a_hat (acc p) e) with (acc p e) by (destruct (rotated_none w H HH (acc p) e He) as [E1 E2]; destruct Ha as [-> | ->]; [exact (eq_sym E1)|exact (eq_sym E2)]).
      unfold wsub. rewrite Z.sub_diag, Zmod_0_l, zero_states, (zero_digit w b). exact Hof. }
    rewrite E. destruct (e <=? i); ring.
Qed.
Lemma cmux_ok p it a_hat acc : it < length bsk -> a_hat <= 2 * N -> words_of acc ->
  exists diff, cmux p w B N b (glwe acc) (list_monic_monomial_mul w (glwe acc) a_hat) (fill_with_forward_fourier B (nth it bsk [])) = Ret (glwe (step it a_hat acc), diff).
Proof.
  intros Hit Ha Hacc. unfold cmux.
  assert (E : zip_update (zip_update (wsub w)) (list_monic_monomial_mul w (glwe acc) a_hat) (glwe acc) = glwe (turned a_hat acc)).
  { unfold list_monic_monomial_mul. rewrite map_map. apply (nth_ext _ _ [] []); [rewrite zip_update_length, !map_length, !seq_length; reflexivity|].
    intros z Hz. rewrite zip_update_length, map_length, seq_length in Hz. rewrite (nth_zip_update _ _ _ _ [] []) by (rewrite ?map_length, ?seq_length; lia || reflexivity).
    rewrite !nth_map_seq by exact Hz. rewrite rotated_poly; [|exact Hw0|exact HH|exact Ha|intros; apply Hacc; lia].
    apply (nth_ext _ _ 0%Z 0%Z); [rewrite zip_update_length, !poly_length; reflexivity|]. intros i Hi. rewrite zip_update_length, poly_length in Hi.
    rewrite (nth_zip_update _ _ _ _ 0%Z 0%Z) by (rewrite ?poly_length; lia || reflexivity). rewrite !poly_nth by exact Hi. reflexivity. }
  rewrite E. rewrite Forall_forall in Hbsk. rewrite external_ok; [|exact Hacc|apply turned_word|apply Hbsk, nth_In, Hit]. cbn [obind]. eexists. f_equal. f_equal.
  apply map_ext_in. intros z Hz%in_seq. apply poly_ext. intros i Hi. symmetry. apply step_value; lia.
Qed.

(** ** All the iterations *)
Context (lwe_in : list Z) (tv : nat -> nat -> Z).
Hypothesis (Hlen : length lwe_in = S (length bsk)) (Hlwe : Forall (is_word w) lwe_in) (Htv : words_of tv) (HN32 : (2 * Z.of_nat N < 2 ^ 32)%Z) (Hnw : (Z.of_nat n + 3 < w)%Z).
Definition a_hat (it : nat) : nat := rescale_torus_element w (2 * N) (nth it lwe_in 0%Z).
Notation accumulator := (accumulator w rO radd rmul rsub ropp H n of_int torus1 torus2 tw h b k l key tv a_hat (a_hat (length bsk))).
Lemma N_pow : Z.of_nat N = (2 ^ (Z.of_nat n + 1))%Z.
Proof. rewrite Hn, Nat2Z.inj_mul, Nat2Z.inj_pow, Z.add_1_r, Z.pow_succ_r by lia. reflexivity. Qed.
Lemma N_w : (0 < 2 * Z.of_nat N < 2 ^ w)%Z.
Proof. rewrite N_pow. pose proof (pow2_pos (Z.of_nat n + 1) ltac:(lia)) as HP. split; [apply Z.mul_pos_pos; [reflexivity|exact HP]|]. rewrite <- Z.pow_succ_r by lia. apply Z.pow_lt_mono_r; lia. Qed.
Lemma lwe_word it : is_word w (nth it lwe_in 0%Z).
Proof. destruct (Nat.lt_ge_cases it (length lwe_in)) as [L|L]; [rewrite Forall_forall in Hlwe; apply Hlwe, nth_In, L|]. rewrite nth_overflow by exact L. split; [lia|apply pow2_pos, Hw0]. Qed.
Lemma a_hat_range it : a_hat it <= 2 * N. Proof. apply (rescale_ok w N _ Hw0 N_w HN32 (lwe_word it)). Qed.
Lemma acc_words it : words_of (accumulator it).
Proof. destruct it as [|it]; [|apply step_word]. intros z i Hz Hi. cbn [CudaPbsKernel.accumulator]. apply divided_word; [exact Hw0|exact HH|apply a_hat_range|exact Hi|intros; apply Htv; assumption]. Qed.
Lemma switch_word p x : is_word w x -> pbs_modulus_switch p w x (Z.of_nat N) 0 0 = Ret (switched w (Z.of_nat N) 0 x).
Proof.
  intros Hx. assert (E : N = Z.to_nat (2 ^ (Z.of_nat n + 1))) by (rewrite <- N_pow, Nat2Z.id; reflexivity).
  destruct Hd as (_ & _ & _ & H64). pose proof (switch_ok (K := unit) p w (Z.of_nat n + 1) [] (fun _ _ _ => Panic) ltac:(clear; lia) ltac:(clear - Hnw; lia) H64 x Hx) as [S _]. rewrite <- E in S. exact S.
Qed.
Definition steps (a m : nat) : list (Z * list (list (list (nat -> R)))) := map (fun it => (as_double w (nth it lwe_in 0%Z), fill_with_forward_fourier B (nth it bsk []))) (seq a m).
Lemma rotate_ok p : forall m a, a + m <= length bsk -> rotate_loop p w (cmux p w B N b) N (steps a m) (glwe (accumulator a)) = Ret (glwe (accumulator (a + m))).
Proof.
  induction m as [|m IH]; intros a Ham; [rewrite Nat.add_0_r; reflexivity|]. change (steps a (S m)) with ((as_double w (nth a lwe_in 0%Z), fill_with_forward_fourier B (nth a bsk [])) :: steps (S a) m). cbn [rotate_loop].
  destruct (rescale_ok w N _ Hw0 N_w HN32 (lwe_word a)) as [Hr Hc]. fold (a_hat a) in Hr, Hc. replace (a + S m) with (S a + m) by lia.
  destruct (Z.eqb_spec (as_double w (nth a lwe_in 0%Z)) 0) as [E|E].
  - rewrite <- (IH (S a)) by lia. f_equal. apply map_ext_in. intros z Hz%in_seq. apply poly_ext. intros i Hi. cbn [CudaPbsKernel.accumulator]. symmetry.
    apply step_still; [lia| |apply acc_words|lia|exact Hi]. destruct Hc as [Hc|[_ Hc]]; [left|right; exact Hc]. rewrite Hc, E.
    unfold switched, round_div. change (2 ^ 0)%Z with 1%Z. rewrite Z.mul_0_l, !Z.mul_1_l, Z.mul_0_r, Z.add_0_l. rewrite Z.div_small by (pose proof (pow2_pos w Hw0); lia). reflexivity.
  - destruct Hc as [Hc|[Hc _]]; [|contradiction]. rewrite switch_word by (apply as_double_word, Hw0). cbn [obind]. rewrite <- Hc.
    destruct (cmux_ok p a (a_hat a) (accumulator a) ltac:(lia) Hr (acc_words a)) as (diff & Ec). rewrite Ec. cbn [obind]. apply (IH (S a)). lia.
Qed.
Lemma steps_combine : combine (removelast (map (as_double w) lwe_in)) (bsk_forward_fourier B bsk) = steps 0 (length bsk).
Proof.
  unfold steps. rewrite (combine_seq _ _ (length bsk) 0%Z (fill_with_forward_fourier B [])).
  - apply map_ext_in. intros it Hit%in_seq. f_equal.
    + destruct (snoc_dec lwe_in _ Hlen) as (a & x & -> & Hl). rewrite map_app. cbn [map]. rewrite removelast_last, app_nth1 by lia.
      rewrite (nth_indep _ 0%Z (as_double w 0)) by (rewrite map_length; lia). apply map_nth.
    + unfold bsk_forward_fourier. apply (map_nth (fill_with_forward_fourier B)).
  - destruct (snoc_dec lwe_in _ Hlen) as (a & x & -> & Hl). rewrite map_app. cbn [map]. rewrite removelast_last, map_length. exact Hl.
  - unfold bsk_forward_fourier. apply map_length.
Qed.
Lemma blind_ok p : blind_rotate p w (cmux p w B N b) N (bsk_forward_fourier B bsk) (glwe tv) (map (as_double w) lwe_in) = Ret (glwe (accumulator (length bsk))).
Proof.
  unfold blind_rotate. destruct (map (as_double w) lwe_in) as [|x0 xs] eqn:El; [destruct lwe_in; discriminate|]. rewrite <- El. clear El.
  assert (Elast : last (map (as_double w) lwe_in) 0%Z = as_double w (nth (length bsk) lwe_in 0%Z)).
  { destruct (snoc_dec lwe_in _ Hlen) as (a & x & -> & Hl). rewrite map_app. cbn [map]. rewrite last_last, app_nth2, Hl, Nat.sub_diag by lia. reflexivity. }
  rewrite Elast, switch_word by (apply as_double_word, Hw0). cbn [obind]. rewrite steps_combine. pose proof (rotate_ok p (length bsk) 0 ltac:(lia)) as ER. cbn [Nat.add] in ER. rewrite <- ER. clear ER. f_equal.
  unfold list_monic_monomial_div. rewrite map_map. apply map_ext_in. intros z Hz%in_seq.
  destruct (rescale_ok w N _ Hw0 N_w HN32 (lwe_word (length bsk))) as [Hr Hc]. fold (a_hat (length bsk)) in Hr, Hc. cbn [CudaPbsKernel.accumulator].
  set (D := Z.to_nat (switched w (Z.of_nat N) 0 (as_double w (nth (length bsk) lwe_in 0%Z)))) in *.
  assert (HD : D <= 2 * N). { unfold D. pose proof (switched_range w (Z.of_nat N) 0 (as_double w (nth (length bsk) lwe_in 0%Z)) Hw0 ltac:(lia) ltac:(lia) (Z.divide_1_l _) (as_double_word w _ Hw0)). lia. }
  rewrite divided_poly; [|exact Hw0|exact HH|exact HD|intros; apply Htv; lia]. apply poly_ext. intros i Hi.
  destruct Hc as [Hc|[Hc1 Hc2]]; [rewrite Hc; reflexivity|]. rewrite Hc2. rewrite (divided_none w H HH) by exact Hi. f_equal. unfold D. rewrite Hc1.
  unfold switched, round_div. change (2 ^ 0)%Z with 1%Z. rewrite Z.mul_0_l, !Z.mul_1_l, Z.mul_0_r, Z.add_0_l. rewrite Z.div_small by (pose proof (pow2_pos w Hw0); lia). reflexivity.
Qed.
(** The words that the kernel writes are the bootstrap of the CPU model. *)
Lemma bootstrap_value p before : length before = S (k * N) ->
  exists result, fft_bootstrap p w B N b (bsk_forward_fourier B bsk) before (map (as_double w) lwe_in) (glwe tv) = Ret result /\ length result = S (k * N) /\
    (forall z i, z < k -> i < N -> nth (z * N + i) result 0%Z = extracted w H (accumulator (length bsk) z) i) /\ nth (k * N) result 0%Z = accumulator (length bsk) k 0.
Proof.
  intros Hbf. unfold fft_bootstrap, bootstrap. rewrite blind_ok. cbn [obind]. set (acc := accumulator (length bsk)).
  assert (Hacc : words_of acc) by apply acc_words. clearbody acc.
  unfold fill_lwe_with_sample_extraction. destruct before as [|x0 before0] eqn:Eb; [discriminate|]. rewrite <- Eb in *. clear Eb x0 before0.
  assert (Es : glwe_split (glwe acc) = Ret (map (fun z => poly N (acc z)) (seq 0 k), poly N (acc k))).
  { rewrite seq_S, map_app. cbn [map Nat.add]. unfold glwe_split. destruct (map (fun z => poly N (acc z)) (seq 0 k) ++ [poly N (acc k)]) eqn:E0; [destruct (map (fun z => poly N (acc z)) (seq 0 k)); discriminate|]. rewrite <- E0. rewrite removelast_last, last_last. reflexivity. }
  rewrite Es. cbn [obind]. assert (E0 : nth_error (poly N (acc k)) 0 = Some (acc k 0)).
  { rewrite (nth_error_nth' _ 0%Z) by (rewrite poly_length; lia). rewrite poly_nth by lia. reflexivity. }
  rewrite E0. set (masks := map (fun z => poly N (acc z)) (seq 0 k)).
  assert (Hm : Forall (fun c => length c = N) masks). { apply Forall_forall. intros c Hc. apply in_map_iff in Hc. destruct Hc as (z & <- & _). apply poly_length. }
  assert (Lm : length masks = k) by (unfold masks; rewrite map_length, seq_length; reflexivity).
  assert (Hconcat : forall (L : list (list Z)), Forall (fun c => length c = N) L -> length (concat L) = length L * N).
  { clear. induction L as [|a L IH]; intros HL; [reflexivity|]. cbn [concat length]. rewrite app_length, IH by (inversion HL; assumption). rewrite (Forall_inv HL). lia. }
  assert (Lb : length (removelast before) = k * N). { destruct (snoc_dec before _ Hbf) as (a & x & -> & Hl). rewrite removelast_last. exact Hl. }
  rewrite Lb, Hconcat, Lm, Nat.eqb_refl by exact Hm. rewrite chunks_concat by (try exact Hm; lia).
  assert (Ex : map (extract_poly w (N - 0 - 1)) masks = map (fun z => poly N (extracted w H (acc z))) (seq 0 k)).
  { unfold masks. rewrite map_map. apply map_ext_in. intros z Hz%in_seq. apply extracted_poly; [exact HH|intros; apply Hacc; lia]. }
  rewrite Ex. assert (He : Forall (fun c => length c = N) (map (fun z => poly N (extracted w H (acc z))) (seq 0 k))).
  { apply Forall_forall. intros c Hc. apply in_map_iff in Hc. destruct Hc as (z & <- & _). apply poly_length. }
  eexists. split; [reflexivity|]. split; [|split].
  - rewrite app_length, Hconcat, map_length, seq_length by exact He. cbn. lia.
  - intros z i Hz Hi. rewrite app_nth1 by (rewrite Hconcat, map_length, seq_length by exact He; nia).
    assert (En : nth_error (concat (map (fun z => poly N (extracted w H (acc z))) (seq 0 k))) (z * N + i) = Some (extracted w H (acc z) i)).
    { rewrite (nth_error_concat_gen N _ z i []) by (try exact He; try exact Hi; rewrite map_length, seq_length; exact Hz). rewrite nth_map_seq by exact Hz.
      rewrite (nth_error_nth' _ 0%Z) by (rewrite poly_length; exact Hi). rewrite poly_nth by exact Hi. reflexivity. }
    apply nth_error_nth with (d := 0%Z) in En. exact En.
  - rewrite app_nth2 by (rewrite Hconcat, map_length, seq_length by exact He; lia). rewrite Hconcat, map_length, seq_length by exact He. rewrite Nat.sub_diag. reflexivity.
Qed.
End Link.
