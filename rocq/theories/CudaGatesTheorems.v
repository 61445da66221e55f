(** * C68: the boolean gates of the CUDA backend *)
From Coq Require Import Reals Lra.
From Verif Require Import Base Word WordFacts DecompModel DecompProofs NegaRing PolySpec LweSpec LweModel LweProofs GlweSpec GlweModel GgswSpec ExtProdModel ExtProdSpec ExtProdTheorems
  BootstrapSpec BootstrapModel BootstrapTheorems KeyswitchSpec KeyswitchModel KeyswitchTheorems WopBitsTheorems
  CudaBlockModel CudaBlockProofs CudaFftModel CudaFftSpec CudaFftAlgebra CudaFftProofs CudaFftFacts CudaFftTheorems CudaFftRealTheorems
  CudaPbsModel CudaPbsSpec CudaPbsLink CudaPbsTheorems CudaPbsRealModel CudaPbsReal CudaPbsRealBackend CudaPbsRealTheorems
  CudaSpec CudaKsModel CudaKsTheorems CudaGatesSpec CudaGatesModel.
From Verif Require CudaModel CudaFacts CudaTheorems.
Local Open Scope Z_scope.
Notation phase := LweSpec.phase.

(** ** The linear combination *)
Lemma last_snoc {A} (m : list A) b d : last (m ++ [b]) d = b.
Proof. apply last_last. Qed.
Lemma map2_snoc {A B C} (f : A -> B -> C) l m a b : length l = length m -> map2 f (l ++ [a]) (m ++ [b]) = map2 f l m ++ [f a b].
Proof. intros H. rewrite CudaTheorems.map2_app by exact H. reflexivity. Qed.
Lemma map2_eq {A B C} (f g : A -> B -> C) : forall l m, (forall a b, f a b = g a b) -> map2 f l m = map2 g l m.
Proof. induction l as [|a l IH]; intros [|b m] H; [reflexivity..|]. cbn. rewrite H, (IH m H). reflexivity. Qed.
Lemma map_snoc {A B} (f : A -> B) l a : map f (l ++ [a]) = map f l ++ [f a].
Proof. apply map_app. Qed.

Definition c_add (x y : list Z) : list Z := map2 (wadd 32) x y.
Definition c_plain (m : Z) (c : list Z) : list Z := removelast c ++ [wadd 32 (last c 0) m].
Definition c_neg (c : list Z) : list Z := map (wneg 32) c.
Definition c_mul (m : Z) (c : list Z) : list Z := map (fun x => wmul 32 x m) c.
Definition c_gate (g : binary_gate) (x y : list Z) : list Z :=
  match g with
  | And => c_plain PLAINTEXT_FALSE (c_add x y)
  | Nand => c_plain PLAINTEXT_TRUE (c_neg (c_add x y))
  | Nor => c_plain PLAINTEXT_FALSE (c_neg (c_add x y))
  | Or => c_plain PLAINTEXT_TRUE (c_add x y)
  | Xor => c_mul 2 (c_plain PLAINTEXT_TRUE (c_add x y))
  | Xnor => c_mul 2 (c_neg (c_plain PLAINTEXT_TRUE (c_add x y)))
  end.
Lemma opp_mod a q : (- (a mod q)) mod q = (- a) mod q.
Proof. rewrite <- (Z.sub_0_l (a mod q)), Zminus_mod_idemp_r. f_equal. Qed.
Lemma mod_shift t a b q : a = b + t * q -> a mod q = b mod q.
Proof. intros ->. apply Z_mod_plus_full. Qed.
Lemma c_gate_spec g n x y : length x = S n -> length y = S n -> c_gate g x y = combination (factor g) (constant g) x y.
Proof.
  intros Hx Hy. destruct (snoc_dec x n Hx) as (mx & bx & -> & Lx). destruct (snoc_dec y n Hy) as (my & by_ & -> & Ly).
  assert (L : length mx = length my) by congruence. unfold combination. rewrite !removelast_last, !last_last.
  assert (M : forall (f : Z -> Z -> Z) a, (forall u v, f u v = (a * (u + v)) mod 2 ^ 32) -> map2 f mx my = map2 (fun u v => (a * (u + v)) mod 2 ^ 32) mx my) by (intros; apply map2_eq; auto).
  destruct g; unfold c_gate, c_plain, c_neg, c_mul, c_add; rewrite ?map2_snoc by exact L; rewrite ?map_snoc, ?removelast_last, ?last_last, ?map_snoc, ?removelast_last, ?last_last, ?map_snoc, ?CudaTheorems.map_map2, ?CudaTheorems.map_map2; cbn [factor constant];
    (f_equal; [apply M; intros u v|f_equal]); unfold wadd, wneg, wmul; change PLAINTEXT_TRUE with (2 ^ 29); change PLAINTEXT_FALSE with (7 * 2 ^ 29);
    rewrite ?opp_mod, ?Zplus_mod_idemp_l, ?Zmult_mod_idemp_l, ?opp_mod, ?Zplus_mod_idemp_l, ?Zmult_mod_idemp_l;
    first [apply (mod_shift 0); ring|apply (mod_shift 1); ring|idtac].
  rewrite (Z.mod_eq (bx + by_) (2 ^ 32)) by discriminate. apply (mod_shift (2 * ((bx + by_) / 2 ^ 32))). ring.
Qed.

(** ** The kernels before the bootstrap *)
Lemma map2_repeat {A B C} (f : A -> B -> C) v : forall l, map2 f l (repeat v (length l)) = map (fun c => f c v) l.
Proof. induction l as [|a l IH]; [reflexivity|]. cbn. rewrite IH. reflexivity. Qed.
Lemma map_map2' {A B C D} (h : C -> D) (f : A -> B -> C) l m : map h (map2 f l m) = map2 (fun a b => h (f a b)) l m.
Proof. apply CudaTheorems.map_map2. Qed.

Section Linear.
Context (h : hardware) (n count : nat).
Hypothesis Horder : forall j, any_order (h_order h j).
Hypothesis Hbuf : forall j, length (h_buffer h j) = (count * S n)%nat.
Hypothesis Hcount : (0 < count)%nat.
Hypothesis Hsmall : Z.of_nat (count * S n) <= 2 ^ 31 - 512.
Notation sized := CudaTheorems.sized.

Lemma sized_map f cs : sized (S n) cs -> (forall c, length c = S n -> length (f c) = S n) -> sized (S n) (map f cs).
Proof. intros H Hf. unfold CudaTheorems.sized in *. apply Forall_map. eapply Forall_impl; [|exact H]. auto. Qed.
Lemma gpu_add j xs ys : length xs = count -> length ys = count -> sized (S n) xs -> sized (S n) ys ->
  CudaModel.host_addition 32 (h_order h j) (h_buffer h j) (concat xs) (concat ys) (CudaModel.u32 (Z.of_nat n)) (CudaModel.u32 (Z.of_nat count)) = Ret (concat (map2 c_add xs ys)).
Proof.
  intros Lx Ly Sx Sy. rewrite (CudaTheorems.addition_gpu 32 (h_order h j) n (Horder j)); try assumption.
  - f_equal. unfold c_add. symmetry. apply (CudaTheorems.map2_concat (wadd 32)); [congruence|]. intros i a b Ea Eb.
    unfold CudaTheorems.sized in *. rewrite Forall_forall in Sx, Sy. rewrite (Sx a), (Sy b); [reflexivity|apply (nth_error_In _ i); assumption..].
  - rewrite (CudaFacts.concat_len (S n)); [congruence|exact Sx].
  - rewrite (CudaFacts.concat_len (S n)); [congruence|exact Sy].
  - apply Hbuf.
Qed.
Lemma gpu_neg j out cs : length cs = count -> length out = (count * S n)%nat -> sized (S n) cs ->
  CudaModel.host_negation 32 (h_order h j) out (concat cs) (CudaModel.u32 (Z.of_nat n)) (CudaModel.u32 (Z.of_nat count)) = Ret (concat (map c_neg cs)).
Proof.
  intros L Lo HS. rewrite (CudaTheorems.negation_gpu 32 (h_order h j) n (Horder j)); try assumption.
  - f_equal. apply concat_map.
  - rewrite (CudaFacts.concat_len (S n)); [congruence|exact HS].
Qed.
Lemma gpu_plain j v cs : length cs = count -> sized (S n) cs ->
  CudaModel.host_addition_plaintext 32 (h_order h j) (h_buffer h j) (concat cs) (same_value count v) (CudaModel.u32 (Z.of_nat n)) (CudaModel.u32 (Z.of_nat count)) = Ret (concat (map (c_plain v) cs)).
Proof.
  intros L HS. rewrite <- L. rewrite (CudaTheorems.plaintext_gpu 32 (h_order h j) n (Horder j)).
  - unfold same_value. rewrite map2_repeat. reflexivity.
  - lia.
  - exact HS.
  - apply repeat_length.
  - rewrite L. apply Hbuf.
  - rewrite L. exact Hsmall.
Qed.
Lemma gpu_mul j v cs : length cs = count -> sized (S n) cs ->
  CudaModel.host_cleartext_multiplication 32 (h_order h j) (h_buffer h j) (concat cs) (same_value count v) (CudaModel.u32 (Z.of_nat n)) (CudaModel.u32 (Z.of_nat count)) = Ret (concat (map (c_mul v) cs)).
Proof.
  intros L HS. rewrite <- L. rewrite (CudaTheorems.multiplication_gpu 32 (h_order h j) n (Horder j)).
  - unfold same_value. rewrite map2_repeat. reflexivity.
  - lia.
  - exact HS.
  - apply repeat_length.
  - rewrite L. apply Hbuf.
  - rewrite L. exact Hsmall.
Qed.
Lemma length_add x y : length x = S n -> length y = S n -> length (c_add x y) = S n.
Proof. intros Hx Hy. unfold c_add. rewrite CudaTheorems.map2_len by congruence. exact Hx. Qed.
Lemma length_plain v c : length c = S n -> length (c_plain v c) = S n.
Proof. intros H. destruct (snoc_dec c n H) as (m & b & -> & L). unfold c_plain. rewrite removelast_last, app_length. cbn. lia. Qed.
Lemma sized_add : forall xs ys, length xs = length ys -> sized (S n) xs -> sized (S n) ys -> sized (S n) (map2 c_add xs ys).
Proof.
  induction xs as [|x xs IH]; intros [|y ys] L Sx Sy; try discriminate; [constructor|]. inversion Sx; inversion Sy; subst. cbn [map2]. constructor; [apply length_add; assumption|].
  apply IH; [cbn in L; lia|assumption..].
Qed.
Lemma map2_ext_sized : forall (f f' : list Z -> list Z -> list Z) xs ys, sized (S n) xs -> sized (S n) ys ->
  (forall x y, length x = S n -> length y = S n -> f x y = f' x y) -> map2 f xs ys = map2 f' xs ys.
Proof.
  intros f f' xs. induction xs as [|x xs IH]; intros [|y ys] Sx Sy E; [reflexivity..|]. inversion Sx; inversion Sy; subst. cbn. rewrite E, IH; auto.
Qed.

(** Whatever the order of the threads, the buffer that is bootstrapped has the linear combination of every pair of ciphertexts. *)
Lemma linear_part_ok g xs ys : length xs = count -> length ys = count -> sized (S n) xs -> sized (S n) ys ->
  linear_part h n count g (concat xs) (concat ys) = Ret (concat (map2 (combination (factor g) (constant g)) xs ys)).
Proof.
  intros Lx Ly Sx Sy. assert (La : length (map2 c_add xs ys) = count) by (rewrite CudaTheorems.map2_len by congruence; exact Lx).
  assert (Sa : sized (S n) (map2 c_add xs ys)) by (apply sized_add; congruence || assumption).
  assert (Sn : forall f, (forall c, length c = S n -> length (f c) = S n) -> sized (S n) (map f (map2 c_add xs ys))) by (intros f Hf; apply sized_map; assumption).
  assert (Ln : forall c, length c = S n -> length (c_neg c) = S n) by (intros c Hc; unfold c_neg; rewrite map_length; exact Hc).
  rewrite <- (map2_ext_sized (c_gate g)) by (try assumption; intros; eapply c_gate_spec; eassumption).
  unfold linear_part. rewrite gpu_add by assumption. cbn [obind].
  destruct g; cbn [c_gate].
  - rewrite gpu_plain by assumption. rewrite map_map2'. reflexivity.
  - rewrite gpu_neg by (try assumption; apply Hbuf). cbn [obind]. rewrite gpu_plain by (rewrite ?map_length; auto). rewrite !map_map2'. reflexivity.
  - rewrite gpu_neg by (try assumption; apply Hbuf). cbn [obind]. rewrite gpu_plain by (rewrite ?map_length; auto). rewrite !map_map2'. reflexivity.
  - rewrite gpu_plain by assumption. rewrite map_map2'. reflexivity.
  - rewrite gpu_plain by assumption. cbn [obind]. rewrite gpu_mul by (rewrite ?map_length; auto using length_plain). rewrite !map_map2'. reflexivity.
  - rewrite gpu_plain by assumption. cbn [obind]. rewrite gpu_neg by (rewrite ?map_length; auto using length_plain). cbn [obind].
    rewrite gpu_mul by (rewrite ?map_length; auto; apply sized_map; auto using length_plain). rewrite !map_map2'. reflexivity.
Qed.
End Linear.

Lemma combination_wf a c n x y : lwe_wf 32 n x -> lwe_wf 32 n y -> lwe_wf 32 n (combination a c x y).
Proof.
  intros [Lx _] [Ly _]. destruct (snoc_dec x n Lx) as (mx & bx & -> & Hx). destruct (snoc_dec y n Ly) as (my & b' & -> & Hy). unfold combination. rewrite !removelast_last, !last_last.
  split; [rewrite app_length, CudaTheorems.map2_len by congruence; cbn; lia|]. apply Forall_app. split; [|constructor; [apply Z.mod_pos_bound; reflexivity|constructor]].
  clear. revert my. induction mx as [|u mx IH]; intros [|v my]; [constructor..|]. cbn [map2]. constructor; [apply Z.mod_pos_bound; reflexivity|apply IH].
Qed.
Lemma combination_phase s a c x y : length x = S (length s) -> length y = S (length s) ->
  phase 32 s (combination a c x y) = (a * (phase 32 s x + phase 32 s y) + c) mod 2 ^ 32.
Proof.
  intros Lx Ly. destruct (snoc_dec x _ Lx) as (mx & bx & -> & Hx). destruct (snoc_dec y _ Ly) as (my & b' & -> & Hy). unfold combination. rewrite !removelast_last, !last_last.
  apply phase_eq. rewrite raw_snoc, !phase_eqm, !raw_snoc.
  rewrite (dot_map2 (2 ^ 32) _ a a mx my s) by (try congruence; intros u v; change (eqm (2 ^ 32) ((a * (u + v)) mod 2 ^ 32) (a * u + a * v)); rewrite eqm_mod; apply eqm_eq; ring).
  rewrite eqm_mod. apply eqm_eq. ring.
Qed.

(** ** The table *)
Lemma lut_const N v j : (0 < N)%nat -> lut_at N (repeat v N) j = if Z.even (j / Z.of_nat N) then v else - v.
Proof.
  intros HN. unfold lut_at, coef. pose proof (Z.mod_pos_bound j (Z.of_nat N) ltac:(lia)).
  assert (E : nth (Z.to_nat (j mod Z.of_nat N)) (repeat v N) 0 = v).
  { rewrite (nth_indep _ 0 v) by (rewrite repeat_length; lia). apply nth_repeat. }
  rewrite E. reflexivity.
Qed.
Lemma table_sign N s c d m : (0 < N)%nat -> switch_within N s d c -> 2 ^ 30 * d < Z.of_nat N * m ->
  (m <= phase 32 s c <= 2 ^ 31 - m -> lut_at N (repeat (2 ^ 29) N) (rot_exponent 32 N s c) = 2 ^ 29) /\
  (2 ^ 31 + m <= phase 32 s c <= 2 ^ 32 - m -> lut_at N (repeat (2 ^ 29) N) (rot_exponent 32 N s c) = - 2 ^ 29).
Proof.
  intros HN (t & Ht) Hm. rewrite <- !(lut_at_period N _ (rot_exponent 32 N s c) t HN). rewrite lut_const by exact HN.
  set (j := rot_exponent 32 N s c + 2 * Z.of_nat N * t) in *. set (phi := phase 32 s c) in *. clearbody j phi.
  assert (A : 2 ^ 32 * j <= 2 * Z.of_nat N * phi + 2 ^ 31 * d /\ 2 * Z.of_nat N * phi - 2 ^ 31 * d <= 2 ^ 32 * j) by (split; lia).
  set (M := Z.of_nat N) in *. assert (0 < M) by lia. clearbody M. split; intros [P1 P2].
  - assert (0 <= j < M).
    { pose proof (Z.mul_le_mono_nonneg_l _ _ M ltac:(lia) P1). pose proof (Z.mul_le_mono_nonneg_l _ _ M ltac:(lia) P2). split; lia. }
    rewrite Z.div_small by lia. reflexivity.
  - assert (M <= j < 2 * M).
    { pose proof (Z.mul_le_mono_nonneg_l _ _ M ltac:(lia) P1). pose proof (Z.mul_le_mono_nonneg_l _ _ M ltac:(lia) P2). split; lia. }
    replace (j / M) with 1; [reflexivity|]. apply (Z.div_unique j M 1 (j - M)); lia.
Qed.
Lemma gate_phase g b1 b2 e1 e2 eta : Z.abs e1 <= eta -> Z.abs e2 <= eta -> 2 * eta < 2 ^ 29 ->
  let phi := (factor g * ((message b1 + e1) + (message b2 + e2)) + constant g) mod 2 ^ 32 in let m := 2 ^ 29 - 2 * eta in
  if truth g b1 b2 then m <= phi <= 2 ^ 31 - m else 2 ^ 31 + m <= phi <= 2 ^ 32 - m.
Proof.
  intros H1 H2 He phi m. subst phi m.
  assert (G : forall X t lo hi, 0 <= lo -> hi < 2 ^ 32 -> lo <= X + t * 2 ^ 32 <= hi -> lo <= X mod 2 ^ 32 <= hi).
  { intros X t lo hi P1 P2 P3. rewrite <- (Z_mod_plus_full X t). rewrite Z.mod_small; lia. }
  destruct g, b1, b2; cbn [truth andb orb negb xorb factor constant message];
    first [apply (G _ 0); lia|apply (G _ 1); lia|apply (G _ (-1)); lia].
Qed.
Lemma gate_table g N s d eta b1 b2 x y : (0 < N)%nat -> 0 <= d -> 2 * eta * Z.of_nat N + 2 ^ 30 * d < 2 ^ 29 * Z.of_nat N ->
  encrypts_bool s eta b1 x -> encrypts_bool s eta b2 y -> switch_within N s d (combination (factor g) (constant g) x y) ->
  lut_at N (repeat (2 ^ 29) N) (rot_exponent 32 N s (combination (factor g) (constant g) x y)) = message (truth g b1 b2).
Proof.
  intros HN Hd0 Hb ([Lx Wx] & e1 & B1 & P1) ([Ly Wy] & e2 & B2 & P2) Hsw.
  assert (He : 2 * eta < 2 ^ 29) by (assert (0 < Z.of_nat N) by lia; clear - H Hb Hd0; nia).
  destruct (table_sign N s _ d (2 ^ 29 - 2 * eta) HN Hsw) as [T1 T2]; [lia|].
  pose proof (combination_phase s (factor g) (constant g) x y Lx Ly) as Ph.
  assert (E : phase 32 s (combination (factor g) (constant g) x y) = (factor g * ((message b1 + e1) + (message b2 + e2)) + constant g) mod 2 ^ 32).
  { rewrite Ph, P1, P2. change (eqm (2 ^ 32) (factor g * ((message b1 + e1) mod 2 ^ 32 + (message b2 + e2) mod 2 ^ 32) + constant g) (factor g * (message b1 + e1 + (message b2 + e2)) + constant g)).
    rewrite !eqm_mod. reflexivity. }
  pose proof (gate_phase g b1 b2 e1 e2 eta B1 B2 He) as GP. cbv zeta in GP. rewrite <- E in GP.
  destruct (truth g b1 b2); [apply T1|apply T2]; exact GP.
Qed.

(** ** Negation *)
Theorem C68_not : forall h s eta count out cs bs, any_order (h_order h 0) -> (0 < count)%nat -> Z.of_nat (count * S (length s)) <= 2 ^ 31 - 512 ->
  length cs = count -> length out = (count * S (length s))%nat -> encrypt_bools s eta bs cs ->
  exists rs, boolean_not h (length s) count out (concat cs) = Ret (concat rs) /\ encrypt_bools s eta (map negb bs) rs.
Proof.
  intros h s eta count out cs bs Ho Hc Hsm L Lo E. exists (map c_neg cs). split.
  - unfold boolean_not. rewrite (CudaTheorems.negation_gpu 32 (h_order h 0) (length s) Ho); try assumption; [f_equal; apply concat_map|].
    rewrite (CudaFacts.concat_len (S (length s))); [congruence|]. clear - E. induction E as [|b x bs xs [[Hx _] _] Ex IH]; constructor; assumption.
  - clear - E. induction E as [|b c bs cs ([Lc Wc] & e & He & Hp) E IH]; [constructor|]. cbn [map]. constructor; [|exact IH]. split.
    + unfold c_neg. split; [rewrite map_length; exact Lc|]. apply Forall_map, Forall_forall. intros x _. apply Z.mod_pos_bound. reflexivity.
    + exists (- e). split; [lia|]. apply phase_eq. unfold c_neg. rewrite (raw_map (2 ^ 32) (wneg 32) (-1) (length s) c s) by (try assumption; intros x; unfold wneg; rewrite eqm_mod; apply eqm_eq; ring).
      rewrite <- phase_eqm, Hp, eqm_mod. apply eqm_eq. destruct b; cbn [message negb]; ring.
Qed.
(** Decryption: the sign *)
Theorem C68_decrypts : forall s eta b c, eta < 2 ^ 29 -> encrypts_bool s eta b c -> (phase 32 s c <? 2 ^ 31) = b.
Proof.
  intros s eta b c He (_ & e & Hb & ->). destruct b; cbn [message].
  - rewrite Z.mod_small by lia. apply Z.ltb_lt. lia.
  - rewrite <- (Z_mod_plus_full _ 1), Z.mod_small by lia. apply Z.ltb_ge. lia.
Qed.
(** The switch to the modulus 2N moves no ciphertext by more than half a step for every coefficient. *)
Theorem C68_worst_case : forall N s c, Forall (fun x => x = 0 \/ x = 1) s -> lwe_wf 32 (length s) c -> switch_within N s (Z.of_nat (length s) + 1) c.
Proof. intros N s c Hs Hc. destruct (C28_exponent 32 N s c ltac:(lia) Hc Hs) as (t & Ht). exists t. exact Ht. Qed.

(** ** The bootstrap and the keyswitch *)
Lemma nth_seq_map {A} (f : nat -> A) n i d : (i < n)%nat -> nth i (map f (seq 0 n)) d = f i.
Proof. intros H. rewrite (nth_indep _ d (f 0%nat)) by (rewrite map_length, seq_length; exact H). rewrite map_nth, seq_nth by exact H. reflexivity. Qed.
Lemma Forall2_combine_nth {A B} (P : A -> B -> Prop) da db : forall l m, length l = length m -> (forall i, (i < length l)%nat -> P (nth i l da) (nth i m db)) -> Forall2 P l m.
Proof.
  induction l as [|a l IH]; intros [|b m] L H; try discriminate; [constructor|]. constructor; [apply (H 0%nat); cbn; lia|].
  apply IH; [cbn in L; lia|]. intros i Hi. apply (H (S i)). cbn. lia.
Qed.
Lemma Forall2_nth_elim {A B} (P : A -> B -> Prop) da db : forall l m, Forall2 P l m -> length l = length m /\ forall i, (i < length l)%nat -> P (nth i l da) (nth i m db).
Proof.
  intros l m H. induction H as [|a b l m Hab H [L IH]]; [split; [reflexivity|cbn; lia]|]. split; [cbn; lia|]. intros [|i] Hi; [exact Hab|]. apply IH. cbn in Hi. lia.
Qed.

Lemma firstn_snoc {A} (m : list A) b n : length m = n -> firstn n (m ++ [b]) = m.
Proof. intros <-. rewrite firstn_app, Nat.sub_diag, firstn_all. apply app_nil_r. Qed.

Section Gate.
Context (ok : addr -> bool) (size : nat -> nat) (H T opt : nat) (s : list Z) (key : list (list Z)).
Context (pbs_b : Z) (pbs_l : nat) (beta : Z) (bsk : list (list (list (list (list Z))))) (partial : bool).
Context (ks_b : Z) (ks_l : nat) (gamma : Z) (noise : nat -> nat -> Z) (ksk : list (list (list Z))).
Context (count : nat) (max_shared d eta : Z).
Notation n := (length s).
Notation k := (length key).
Notation N := (2 * H)%nat.
Notation big := (glwe_key_into_lwe_key key).
(** The bootstrap key, for the key [s] of the ciphertexts under the GLWE key, and the memory of the kernel *)
Hypothesis (Hshape : shape H T opt) (Hvars : has_variables ok) (Hmem : has_memory ok size).
Hypothesis (Hb31 : pbs_b <= 31) (Hd : dec_wf 32 (Dec pbs_b pbs_l)) (HN4 : 4 * Z.of_nat N < 2 ^ 32).
Hypothesis (Hidx : 2 * Z.of_nat n * Z.of_nat pbs_l * (Z.of_nat k + 1) * (Z.of_nat k + 1) * Z.of_nat H < 2 ^ 32).
Hypothesis (Hbeta : 0 <= beta) (Hkey : binary_key N key) (Hs : Forall (fun x => x = 0 \/ x = 1) s) (Hbsk : bsk_encrypts 32 pbs_b N pbs_l key beta bsk s).
Hypothesis (Hsize : forall i, (i < count)%nat -> enough_memory H k pbs_l n 0 (i * (k * N + 1)) size).
(** The keyswitch key, back to [s] *)
Hypothesis (Hdk : dec_wf 32 (Dec ks_b ks_l)) (Hksk : ksk_encrypts 32 ks_b ks_l s big noise ksk).
Hypothesis (Hgamma : forall i j, (i < k * N)%nat -> (j < ks_l)%nat -> Z.abs (noise i j) <= gamma).
Hypothesis (Hk0 : (0 < k * N)%nat) (Hksmall : Z.of_nat (k * N) * Z.of_nat ks_l * (Z.of_nat n + 1) < 2 ^ 31) (Hshared : 32 / 8 * (Z.of_nat n + 1) <= max_shared).
(** The vectors *)
Hypothesis (Hcount : (0 < count)%nat) (Hsmall : Z.of_nat (count * S n) <= 2 ^ 31 - 512).
(** The budget of noise *)
Hypothesis (Hd0 : 0 <= d) (Hbudget : 2 * eta * Z.of_nat N + 2 ^ 30 * d < 2 ^ 29 * Z.of_nat N).

(** Any order of the threads, any content of the buffers that are allocated, and the bootstrap key in memory *)
Definition hardware_ok (h : hardware) : Prop :=
  (forall j, any_order (h_order h j)) /\ (forall j, length (h_buffer h j) = (count * S n)%nat) /\
  (forall i, key_at 32 0%R 1%R Rplus Rmult Ropp H k pbs_l (key_to_double 32) exact_twiddle bsk (h_memory h i)) /\
  (forall i, length (h_shared h i) = S n).
Definition pbs_noise : Z := Z.of_nat n * ep_error 32 pbs_b k N pbs_l 1 beta (gpu_error 32 N pbs_b (pbs_l * S k)).
Definition keyswitch_noise : Z := Z.of_nat (k * N) * 2 ^ (32 - ks_b * Z.of_nat ks_l - 1) + Z.of_nat (k * N) * Z.of_nat ks_l * 2 ^ (ks_b - 1) * gamma.
Definition gate_noise : Z := pbs_noise + keyswitch_noise.
Definition run (h : hardware) (g : binary_gate) (out x y : list Z) : outcome (list Z) :=
  boolean_gate h n count ok H T opt k pbs_b pbs_l partial max_shared ks_b ks_l g (concat (concat ksk)) out x y.

Lemma HH1 : (1 <= H)%nat.
Proof. destruct Hshape as (_ & _ & _ & n0 & _ & ->). pose proof (Nat.pow_nonzero 2 n0). lia. Qed.

Lemma table_in_memory m : test_vector_at H 0 (repeat (repeat 0 N) k ++ [repeat (2 ^ 29) N]) (copied_words LUT (h_pbs_lut H k) m).
Proof.
  intros z i Hz Hi. unfold copied_words. rewrite Nat.eqb_refl. cbn [andb]. rewrite app_length, repeat_length in Hz. cbn [length] in Hz.
  assert (L : length (h_pbs_lut H k) = ((k + 1) * N)%nat) by (unfold h_pbs_lut; rewrite map_length, seq_length; reflexivity).
  assert (B : (0 + z * N + i < (k + 1) * N)%nat) by nia. rewrite L. destruct (Nat.ltb_spec (0 + z * N + i) ((k + 1) * N)) as [_|]; [|lia]. f_equal.
  unfold h_pbs_lut. rewrite nth_seq_map by exact B. destruct (Nat.ltb_spec (0 + z * N + i) (k * N)) as [Hlt|Hge].
  - assert (z < k)%nat by nia. rewrite app_nth1 by (rewrite repeat_length; lia). rewrite (nth_indep _ [] (repeat 0 N)) by (rewrite repeat_length; lia). rewrite nth_repeat.
    symmetry. apply nth_repeat.
  - assert (z = k) by nia. subst z. rewrite app_nth2 by (rewrite repeat_length; lia). rewrite repeat_length, Nat.sub_diag. cbn [nth].
    rewrite (nth_indep _ 0 (2 ^ 29)) by (rewrite repeat_length; lia). rewrite nth_repeat. reflexivity.
Qed.

Lemma bootstrap_block_ok h cs i c : hardware_ok h -> length cs = count -> Forall (lwe_wf 32 n) cs -> (i < count)%nat -> nth i cs [] = c ->
  exists r e, bootstrap_block h n count ok H T opt k pbs_b pbs_l partial (concat cs) i = Ret r /\ lwe_wf 32 (k * N) r /\ Z.abs e <= pbs_noise /\
    phase 32 big r = (lut_at N (repeat (2 ^ 29) N) (rot_exponent 32 N s c) + e) mod 2 ^ 32.
Proof.
  intros (_ & _ & Hmk & _) Lc Hcs Hi Ec. pose proof HH1 as HH.
  assert (Wc : lwe_wf 32 n c) by (rewrite Forall_forall in Hcs; apply Hcs; rewrite <- Ec; apply nth_In; lia).
  unfold bootstrap_block. unfold h_pbs_lut_indexes. rewrite (CudaFacts.get_some _ _ 0) by (rewrite (nth_error_nth' _ 0) by (rewrite repeat_length; lia); f_equal; apply nth_repeat). cbn [obind].
  change (Z.to_nat 0 * N * (k + 1))%nat with 0%nat. replace (i * (n + 1))%nat with (i * S n)%nat by lia.
  rewrite (nth_chunk (S n) cs i); [|eapply Forall_impl; [|exact Hcs]; intros a [Ha _]; exact Ha|lia]. rewrite Ec.
  destruct (C61_lookup 32 ok size H T opt ltac:(auto) Hshape Hvars Hmem pbs_b pbs_l key beta bsk s (repeat (2 ^ 29) N) c partial 0 (i * (k * N + 1)) (h_pbs h i) (copied_words LUT (h_pbs_lut H k) (h_memory h i)))
    as (m' & r & e & El & Hr & Wr & He & Hrot & _); try assumption.
  - split; [apply repeat_length|]. apply Forall_forall. intros x Hx. apply repeat_spec in Hx. subst x. split; [discriminate|reflexivity].
  - apply Hsize, Hi.
  - apply table_in_memory.
  - exact (Hmk i).
  - assert (Ed : map (as_double 32) c = c).
    { destruct Wc as [_ Wc]. clear - Wc. induction Wc as [|x c Hx Hc IH]; [reflexivity|]. cbn [map]. rewrite IH, (proj1 C61_ciphertext_rounding x Hx). reflexivity. }
    rewrite Ed in He, Hrot. rewrite El. cbn [obind]. exists r, e. split; [|split; [exact Wr|]; split; [|exact Hrot]].
    + f_equal. destruct Wr as [Lr _]. apply (nth_ext _ _ 0 0); [rewrite map_length, seq_length; lia|]. rewrite map_length, seq_length. intros j Hj. rewrite nth_seq_map by exact Hj.
      rewrite Hr by lia. reflexivity.
    + unfold pbs_noise. eapply Z.le_trans; [exact He|]. apply Z.mul_le_mono_nonneg_r.
      * unfold ep_error, gpu_error. change (32 =? 32) with true. cbv iota. destruct Hd as (D1 & D2 & D3 & D4). cbn [base_log level_count] in *.
        assert (0 <= 2 ^ (pbs_b - 1)) by (apply Z.pow_nonneg; lia). assert (0 <= 2 ^ (32 - pbs_b * Z.of_nat pbs_l - 1)) by (apply Z.pow_nonneg; lia).
        repeat (apply Z.add_nonneg_nonneg || apply Z.mul_nonneg_nonneg || lia).
      * pose proof (nonzeros_le (removelast c)) as L. assert (length (removelast c) = n); [|lia]. destruct Wc as [Lw _]. destruct (snoc_dec c n Lw) as (m & x & -> & Lm). rewrite removelast_last. exact Lm.
Qed.

Lemma bootstrap_part_ok h cs : hardware_ok h -> length cs = count -> Forall (lwe_wf 32 n) cs ->
  exists rs, bootstrap_part h n count ok H T opt k pbs_b pbs_l partial (concat cs) = Ret (concat rs) /\ length rs = count /\ Forall (lwe_wf 32 (k * N)) rs /\
    forall i, (i < count)%nat -> exists e, Z.abs e <= pbs_noise /\
      phase 32 big (nth i rs []) = (lut_at N (repeat (2 ^ 29) N) (rot_exponent 32 N s (nth i cs [])) + e) mod 2 ^ 32.
Proof.
  intros Hh Lc Hcs. unfold bootstrap_part.
  destruct (omap_ex (bootstrap_block h n count ok H T opt k pbs_b pbs_l partial (concat cs))
    (fun i r => lwe_wf 32 (k * N) r /\ exists e, Z.abs e <= pbs_noise /\ phase 32 big r = (lut_at N (repeat (2 ^ 29) N) (rot_exponent 32 N s (nth i cs [])) + e) mod 2 ^ 32) (seq 0 count)) as (rs & E & F).
  - intros i Hi. apply in_seq in Hi. destruct (bootstrap_block_ok h cs i (nth i cs []) Hh Lc Hcs ltac:(lia) eq_refl) as (r & e & E1 & W & He & Hp). exists r. split; [exact E1|]. split; [exact W|]. exists e. auto.
  - rewrite E. cbn [obind]. exists rs. split; [reflexivity|]. destruct (Forall2_nth_elim _ 0%nat [] _ _ F) as [L FF]. rewrite seq_length in L, FF.
    split; [auto|]. split.
    + apply Forall_forall. intros r Hr. destruct (In_nth _ _ [] Hr) as (i & Hi & <-). apply (FF i). lia.
    + intros i Hi. destruct (FF i Hi) as [_ X]. rewrite seq_nth in X by exact Hi. exact X.
Qed.

(** The ciphertext that a block of the keyswitch writes *)
Definition switched_back (choices : list nat) (c r : list Z) : Prop :=
  exists good, keyswitch_ciphertext Release 32 ks_b ks_l n ksk (repeat 0 (S n)) c = Ret good /\ same_but_body 32 n (last c 0) good r /\
    ((n mod 128 = 0)%nat -> r = good) /\ ((n mod 128 <> 0)%nat -> choices = [] -> nth n r 0 = (nth n good 0 - last c 0) mod 2 ^ 32).
Lemma keyswitch_blocks choices shared out pbs : (forall i, length (shared i) = S n) -> length pbs = count -> Forall (lwe_wf 32 (k * N)) pbs -> length out = (count * S n)%nat ->
  exists rs, host_keyswitch 32 max_shared choices shared out (concat pbs) (concat (concat ksk)) (k * N) n ks_b ks_l count = Ret (concat rs) /\ length rs = count /\
    forall i, (i < count)%nat -> switched_back (choices i) (nth i pbs []) (nth i rs []).
Proof.
  intros Hsh Lp Wp Lo.
  assert (Lbig : length big = (k * N)%nat) by (apply length_big; eapply Forall_impl; [|exact Hkey]; intros a Ha; apply Ha).
  assert (Kl : length ksk = (k * N)%nat) by (destruct Hksk as [Hl _]; congruence).
  assert (Kw : Forall (fun block => length block = ks_l /\ Forall (lwe_wf 32 n) block) ksk).
  { destruct Hksk as [_ Hr]. apply Forall_forall. intros block Hin. destruct (In_nth_error _ _ Hin) as (i & Hi). destruct (Hr i block Hi) as [Hl Hrow]. split; [exact Hl|].
    apply Forall_forall. intros row Hrw. destruct (In_nth_error _ _ Hrw) as (j & Hj). apply (Hrow j row Hj). }
  assert (Hc31 : Z.of_nat count < 2 ^ 31) by (assert (Z.of_nat count <= Z.of_nat (count * S n)) by (apply inj_le; nia); lia).
  assert (Sp : Forall (fun c => length c = S (k * N)) pbs) by (eapply Forall_impl; [|exact Wp]; intros c [Hc _]; exact Hc).
  unfold host_keyswitch. rewrite (CudaFacts.concat_len (S (k * N)) pbs Sp), Lo, Lp, !Nat.leb_refl. cbn [andb assert_].
  replace (Z.of_nat (S n)) with (Z.of_nat n + 1) by lia.
  destruct (Z.leb_spec 1 (Z.of_nat count)); [|lia]. destruct (Z.ltb_spec (Z.of_nat count) (2 ^ 31)); [|lia]. destruct (Z.leb_spec (32 / 8 * (Z.of_nat n + 1)) max_shared); [|lia].
  cbn [andb assert_ obind].
  match goal with |- context [omap ?F _] => destruct (omap_ex F (fun i r => switched_back (choices i) (nth i pbs []) r) (seq 0 count)) as (rs & E & F2) end.
  - intros i Hi. apply in_seq in Hi. rewrite nth_chunk by (auto; lia). assert (Wc : lwe_wf 32 (k * N) (nth i pbs [])) by (rewrite Forall_forall in Wp; apply Wp, nth_In; lia).
    destruct (block_run_ok Release 32 ks_b ks_l (k * N) n ksk Hdk Kl Kw Hksmall Hk0 (nth i pbs []) (shared i) (repeat 0 (S n)) (choices i) Wc (Hsh i) (repeat_length _ _)) as (good & r & E1 & E2 & E3 & E4 & E5).
    exists r. split; [exact E2|]. exists good. auto.
  - rewrite E. cbn [obind]. exists rs. rewrite skipn_all2 by lia. rewrite app_nil_r. split; [reflexivity|].
    destruct (Forall2_nth_elim _ 0%nat [] _ _ F2) as [L X]. rewrite seq_length in L, X. split; [auto|]. intros i Hi. specialize (X i Hi). rewrite seq_nth in X by exact Hi. exact X.
Qed.

(** What a gate writes: the keyswitch of ciphertexts of the values of the gate *)
Lemma gate_run h g out xs ys b1 b2 : hardware_ok h -> length xs = count -> length ys = count -> length out = (count * S n)%nat ->
  encrypt_bools s eta b1 xs -> encrypt_bools s eta b2 ys -> Forall (switch_within N s d) (map2 (combination (factor g) (constant g)) xs ys) ->
  exists cs pbs rs, linear_part h n count g (concat xs) (concat ys) = Ret (concat cs) /\
    bootstrap_part h n count ok H T opt k pbs_b pbs_l partial (concat cs) = Ret (concat pbs) /\ run h g out (concat xs) (concat ys) = Ret (concat rs) /\
    length pbs = count /\ length rs = count /\
    forall i, (i < count)%nat -> lwe_wf 32 (k * N) (nth i pbs []) /\ switched_back (h_keyswitch h i) (nth i pbs []) (nth i rs []) /\
      exists e, Z.abs e <= pbs_noise /\ phase 32 big (nth i pbs []) = (message (truth g (nth i b1 false) (nth i b2 false)) + e) mod 2 ^ 32.
Proof.
  intros Hh Lx Ly Lo Ex Ey Hsw. pose proof Hh as (Ho & Hbuf & _ & Hsh). set (cs := map2 (combination (factor g) (constant g)) xs ys) in *.
  assert (Lc : length cs = count) by (unfold cs; rewrite CudaTheorems.map2_len by congruence; exact Lx).
  destruct (Forall2_nth_elim _ false [] _ _ Ex) as [L1 X1]. destruct (Forall2_nth_elim _ false [] _ _ Ey) as [L2 X2].
  assert (Sx : CudaTheorems.sized (S n) xs) by (clear - Ex; induction Ex as [|b x bs xs [[Hx _] _] Ex IH]; constructor; assumption).
  assert (Sy : CudaTheorems.sized (S n) ys) by (clear - Ey; induction Ey as [|b x bs xs [[Hx _] _] Ex IH]; constructor; assumption).
  assert (Nc : forall i, (i < count)%nat -> nth i cs [] = combination (factor g) (constant g) (nth i xs []) (nth i ys [])).
  { intros i Hi. apply nth_error_nth. unfold cs. rewrite CudaTheorems.map2_nth, !(nth_error_nth' _ []) by lia. reflexivity. }
  assert (Wc : Forall (lwe_wf 32 n) cs).
  { apply Forall_forall. intros c Hc. destruct (In_nth _ _ [] Hc) as (i & Hi & <-). rewrite Lc in Hi. rewrite Nc by exact Hi. apply combination_wf; [apply (X1 i)|apply (X2 i)]; lia. }
  destruct (bootstrap_part_ok h cs Hh Lc Wc) as (pbs & Ep & Lp & Wp & Hp).
  destruct (keyswitch_blocks (h_keyswitch h) (h_shared h) out pbs Hsh Lp Wp Lo) as (rs & Er & Lr & X3). exists cs, pbs, rs.
  assert (El : linear_part h n count g (concat xs) (concat ys) = Ret (concat cs)) by (apply linear_part_ok; assumption).
  split; [exact El|]. split; [exact Ep|]. split; [unfold run, boolean_gate; rewrite El; cbn [obind]; rewrite Ep; exact Er|].
  split; [exact Lp|]. split; [exact Lr|]. intros i Hi.
  split; [rewrite Forall_forall in Wp; apply Wp, nth_In; lia|]. split; [apply (X3 i Hi)|]. destruct (Hp i Hi) as (e & He & Hph). exists e. split; [exact He|]. rewrite Hph. f_equal. f_equal.
  rewrite Nc by exact Hi. apply (gate_table g N s d eta); try assumption; [pose proof HH1; lia|apply (X1 i); lia|apply (X2 i); lia|].
  rewrite <- Nc by exact Hi. rewrite Forall_forall in Hsw. apply Hsw, nth_In. lia.
Qed.
Lemma good_phase c good : lwe_wf 32 (k * N) c -> keyswitch_ciphertext Release 32 ks_b ks_l n ksk (repeat 0 (S n)) c = Ret good ->
  lwe_wf 32 n good /\ exists e, Z.abs e <= keyswitch_noise /\ eqm (2 ^ 32) (phase 32 s good) (phase 32 big c + e).
Proof.
  intros Wc E. assert (Lbig : length big = (k * N)%nat) by (apply length_big; eapply Forall_impl; [|exact Hkey]; intros a Ha; apply Ha).
  destruct (C30_error_bound Release 32 ks_b ks_l s big noise gamma ksk (repeat 0 (S n)) c Hdk Hksk) as (o & E2 & Wo & Hdist); try (rewrite Lbig; assumption).
  - apply (binary_big N), Hkey.
  - apply repeat_length.
  - assert (o = good) by congruence. subst o. split; [exact Wo|]. rewrite Lbig in Hdist. destruct (torus_dist_witness 32 _ _ _ ltac:(lia) Hdist) as (e & He & X). exists e. split; [exact He|exact X].
Qed.

(** A gate of the GPU gives ciphertexts of the values of the gate, whatever the schedule. *)
Theorem C68_gate : forall h g out xs ys b1 b2, hardware_ok h -> (n mod 128 = 0)%nat -> length xs = count -> length ys = count -> length out = (count * S n)%nat ->
  encrypt_bools s eta b1 xs -> encrypt_bools s eta b2 ys -> Forall (switch_within N s d) (map2 (combination (factor g) (constant g)) xs ys) ->
  exists rs, run h g out (concat xs) (concat ys) = Ret (concat rs) /\ encrypt_bools s gate_noise (map2 (truth g) b1 b2) rs.
Proof.
  intros h g out xs ys b1 b2 Hh H128 Lx Ly Lo Ex Ey Hsw. destruct (gate_run h g out xs ys b1 b2 Hh Lx Ly Lo Ex Ey Hsw) as (cs & pbs & rs & _ & _ & E & Lp & Lr & X).
  exists rs. split; [exact E|]. pose proof (proj1 (Forall2_nth_elim _ false [] _ _ Ex)) as L1. pose proof (proj1 (Forall2_nth_elim _ false [] _ _ Ey)) as L2.
  apply (Forall2_combine_nth _ false []); [rewrite CudaTheorems.map2_len by congruence; congruence|]. rewrite CudaTheorems.map2_len by congruence. intros i Hi.
  destruct (X i ltac:(lia)) as (Wp & (good & Eg & _ & Hgood & _) & e & He & Hp). rewrite (Hgood H128). destruct (good_phase _ _ Wp Eg) as (Wg & e' & He' & Hq).
  assert (En : nth i (map2 (truth g) b1 b2) false = truth g (nth i b1 false) (nth i b2 false)).
  { apply nth_error_nth. rewrite CudaTheorems.map2_nth, !(nth_error_nth' _ false) by lia. reflexivity. }
  rewrite En. split; [exact Wg|]. exists (e + e'). split; [unfold gate_noise; lia|].
  assert (Q : eqm (2 ^ 32) (phase 32 s good) (message (truth g (nth i b1 false) (nth i b2 false)) + (e + e'))).
  { rewrite Hq, Hp, eqm_mod. apply eqm_eq. ring. }
  unfold eqm in Q. rewrite <- Q. symmetry. apply Z.mod_small, phase_word. lia.
Qed.

(** When the dimension is not a multiple of 128, there are schedules for which every output misses the body of the bootstrapped
    ciphertext (C59_block_any_dimension_refuted). *)
Theorem C68_gate_any_dimension_refuted : forall h g out xs ys b1 b2, hardware_ok h -> (n mod 128 <> 0)%nat -> length xs = count -> length ys = count -> length out = (count * S n)%nat ->
  encrypt_bools s eta b1 xs -> encrypt_bools s eta b2 ys -> Forall (switch_within N s d) (map2 (combination (factor g) (constant g)) xs ys) ->
  let h0 := Hardware (h_order h) (h_buffer h) (h_pbs h) (h_memory h) (fun _ => []) (h_shared h) in
  exists pbs rs, (let! c := linear_part h0 n count g (concat xs) (concat ys) in bootstrap_part h0 n count ok H T opt k pbs_b pbs_l partial c) = Ret (concat pbs) /\
    run h0 g out (concat xs) (concat ys) = Ret (concat rs) /\
    forall i, (i < count)%nat -> lwe_wf 32 (k * N) (nth i pbs []) /\
      (exists e, Z.abs e <= pbs_noise /\ phase 32 big (nth i pbs []) = (message (truth g (nth i b1 false) (nth i b2 false)) + e) mod 2 ^ 32) /\
      exists e, Z.abs e <= gate_noise /\ phase 32 s (nth i rs []) = (message (truth g (nth i b1 false) (nth i b2 false)) + e - last (nth i pbs []) 0) mod 2 ^ 32.
Proof.
  intros h g out xs ys b1 b2 Hh H128 Lx Ly Lo Ex Ey Hsw h0. assert (Hh0 : hardware_ok h0) by exact Hh.
  destruct (gate_run h0 g out xs ys b1 b2 Hh0 Lx Ly Lo Ex Ey Hsw) as (cs & pbs & rs & El & Ep & E & Lp & Lr & X). exists pbs, rs. split; [rewrite El; exact Ep|]. split; [exact E|].
  intros i Hi. destruct (X i Hi) as (Wp & (good & Eg & (Lg & Lr' & Fm & _) & _ & Hlost) & e & He & Hp). specialize (Hlost H128 eq_refl).
  destruct (good_phase _ _ Wp Eg) as (Wg & e' & He' & Hq). split; [exact Wp|]. split; [exists e; auto|]. exists (e + e'). split; [unfold gate_noise; lia|].
  set (r := nth i rs []) in *. destruct (snoc_dec good n Lg) as (m & bg & -> & Lm). destruct (snoc_dec r n Lr') as (m' & b' & Er & Lm').
  rewrite Er in *. rewrite !firstn_snoc in Fm by assumption. subst m'.
  assert (Nl : forall (x : Z), nth n (m ++ [x]) 0 = x) by (intros x; rewrite app_nth2, Lm, Nat.sub_diag by lia; reflexivity). rewrite !Nl in Hlost. apply phase_eq. rewrite raw_snoc, Hlost.
  rewrite phase_eqm, raw_snoc in Hq. rewrite eqm_mod. rewrite Hp, eqm_mod in Hq.
  replace (bg - last (nth i pbs []) 0 - dot m s) with ((bg - dot m s) - last (nth i pbs []) 0) by ring. rewrite Hq. apply eqm_eq. ring.
Qed.

(** With a GLWE key of zeros, for instance, the bootstrapped ciphertext is all in its body and the output decrypts to noise. *)
Theorem C68_gate_wrong_refuted : forall h g out xs ys b1 b2 eta', hardware_ok h -> (n mod 128 <> 0)%nat -> length xs = count -> length ys = count -> length out = (count * S n)%nat ->
  encrypt_bools s eta b1 xs -> encrypt_bools s eta b2 ys -> Forall (switch_within N s d) (map2 (combination (factor g) (constant g)) xs ys) ->
  Forall (Forall (fun x => x = 0)) key -> gate_noise + pbs_noise + eta' < 2 ^ 29 ->
  exists h0 rs, hardware_ok h0 /\ run h0 g out (concat xs) (concat ys) = Ret (concat rs) /\ forall i b, (i < count)%nat -> ~ encrypts_bool s eta' b (nth i rs []).
Proof.
  intros h g out xs ys b1 b2 eta' Hh H128 Lx Ly Lo Ex Ey Hsw Hz Hsum.
  destruct (C68_gate_any_dimension_refuted h g out xs ys b1 b2 Hh H128 Lx Ly Lo Ex Ey Hsw) as (pbs & rs & _ & E & X).
  eexists. exists rs. split; [|split; [exact E|]]; [exact Hh|]. intros i b Hi (_ & eb & Heb & Hb). destruct (X i Hi) as ((Lw & Ww) & (e1 & He1 & Hp1) & e & He & Hph).
  destruct (snoc_dec _ _ Lw) as (m & x & Ex' & Lm). rewrite Ex' in *. rewrite last_last in Hph.
  assert (Z0 : dot m big = 0).
  { clear - Hz. assert (Zb : Forall (fun x => x = 0) big) by (unfold glwe_key_into_lwe_key; induction Hz; [constructor|]; cbn [concat]; apply Forall_app; auto).
    revert m. induction Zb as [|y l Hy _ IH]; intros [|u m]; try reflexivity. cbn [dot]. rewrite Hy, IH. ring. }
  set (t := message (truth g (nth i b1 false) (nth i b2 false))) in *. clearbody t.
  assert (Q : eqm (2 ^ 32) (message b + eb) (e - e1)).
  { assert (Q1 : eqm (2 ^ 32) x (t + e1)) by (unfold eqm; rewrite <- Hp1; unfold LweSpec.phase; rewrite last_last, removelast_last, Z0; f_equal; ring).
    unfold eqm in *. rewrite <- Hb, Hph. change (eqm (2 ^ 32) (t + e - x) (e - e1)). rewrite (Q1 : eqm (2 ^ 32) x (t + e1)). apply eqm_eq. ring. }
  apply eqm_divide in Q. destruct Q as (q & Q). assert (Hpn : 0 <= pbs_noise) by lia. clear - Q Heb He He1 Hsum.
  destruct b; cbn [message] in Q; assert (q = 0) by lia; subst q; lia.
Qed.

(** ** Circuits *)
(** [v] is a vector of ciphertexts of the bits [bs]. *)
Definition vector_of (bs : list bool) (v : list Z) : Prop := exists cs, v = concat cs /\ length cs = count /\ encrypt_bools s eta bs cs.
(** What the GPU can compute for a circuit: every gate is a call with its own schedules, buffers and output *)
Inductive evaluates (inputs : list (list Z)) : circuit -> list Z -> Prop :=
| eval_input i v : nth_error inputs i = Some v -> evaluates inputs (Input i) v
| eval_not c x h out r : evaluates inputs c x -> hardware_ok h -> length out = (count * S n)%nat -> boolean_not h n count out x = Ret r -> evaluates inputs (Not c) r
| eval_gate g c1 c2 x y h out r : evaluates inputs c1 x -> evaluates inputs c2 y -> hardware_ok h -> length out = (count * S n)%nat -> run h g out x y = Ret r ->
    evaluates inputs (Gate g c1 c2) r.
Fixpoint reads_below (m : nat) (c : circuit) : Prop :=
  match c with Input i => (i < m)%nat | Not c => reads_below m c | Gate _ c1 c2 => reads_below m c1 /\ reads_below m c2 end.

Lemma encrypts_weaken bs cs e1 e2 : e1 <= e2 -> encrypt_bools s e1 bs cs -> encrypt_bools s e2 bs cs.
Proof. intros He H1. induction H1 as [|b c bs cs (W & e & Hb & Hp) _ IH]; constructor; [|exact IH]. split; [exact W|]. exists e. split; [lia|exact Hp]. Qed.
Lemma worst_case g xs ys b1 b2 : Z.of_nat n + 1 <= d -> encrypt_bools s eta b1 xs -> encrypt_bools s eta b2 ys ->
  Forall (switch_within N s d) (map2 (combination (factor g) (constant g)) xs ys).
Proof.
  intros Hdn Ex. revert ys b2. induction Ex as [|b x bs xs [Wx _] Ex IH]; intros ys b2 Ey; [constructor|]. inversion Ey as [|b' y bs' ys' [Wy _] Ey']; subst; [constructor|]. cbn [map2].
  constructor; [|eapply IH; eassumption]. destruct (C68_worst_case N s (combination (factor g) (constant g) x y) Hs (combination_wf _ _ _ _ _ Wx Wy)) as (t & Ht). exists t. lia.
Qed.

(** Circuits of any depth: if what a gate adds is within the budget, every wire is right, whatever the schedules. *)
Theorem C68_circuit : forall inputs bits c, (n mod 128 = 0)%nat -> Z.of_nat n + 1 <= d -> gate_noise <= eta -> Forall2 vector_of bits inputs ->
  (forall r, evaluates inputs c r -> vector_of (value bits c) r) /\ (forall h, hardware_ok h -> reads_below (length inputs) c -> exists r, evaluates inputs c r).
Proof.
  intros inputs bits c H128 Hdn Hgn Hin.
  assert (Step_not : forall h out x bs, hardware_ok h -> length out = (count * S n)%nat -> vector_of bs x -> exists r, boolean_not h n count out x = Ret r /\ vector_of (map negb bs) r).
  { intros h out x bs Hh Lo (cs & -> & Lc & Ec). destruct (C68_not h s eta count out cs bs (proj1 Hh 0%nat) Hcount Hsmall Lc Lo Ec) as (rs & E & Er). exists (concat rs). split; [exact E|].
    exists rs. split; [reflexivity|]. split; [|exact Er]. pose proof (proj1 (Forall2_nth_elim _ false [] _ _ Er)) as L1. pose proof (proj1 (Forall2_nth_elim _ false [] _ _ Ec)) as L2. rewrite map_length in L1. congruence. }
  assert (Step_gate : forall h g out x y bx by_, hardware_ok h -> length out = (count * S n)%nat -> vector_of bx x -> vector_of by_ y ->
    exists r, run h g out x y = Ret r /\ vector_of (map2 (truth g) bx by_) r).
  { intros h g out x y bx by_ Hh Lo (xs & -> & Lx & Ex) (ys & -> & Ly & Ey). destruct (C68_gate h g out xs ys bx by_ Hh H128 Lx Ly Lo Ex Ey (worst_case g xs ys bx by_ Hdn Ex Ey)) as (rs & E & Er).
    exists (concat rs). split; [exact E|]. exists rs. split; [reflexivity|]. split; [|apply (encrypts_weaken _ _ gate_noise); assumption].
    pose proof (proj1 (Forall2_nth_elim _ false [] _ _ Er)) as L1. pose proof (proj1 (Forall2_nth_elim _ false [] _ _ Ex)) as L2. pose proof (proj1 (Forall2_nth_elim _ false [] _ _ Ey)) as L3.
    rewrite CudaTheorems.map2_len in L1 by congruence. congruence. }
  assert (Sound : forall c r, evaluates inputs c r -> vector_of (value bits c) r).
  { intros c0 r Hr. induction Hr as [i v Hv|c0 x h out r Hx IH Hh Lo E|g c1 c2 x y h out r Hx IHx Hy IHy Hh Lo E]; cbn [value].
    - destruct (Forall2_nth_elim _ [] [] _ _ Hin) as [L X]. assert (Hi : (i < length inputs)%nat) by (apply nth_error_Some; congruence).
      rewrite <- (nth_error_nth _ _ [] Hv). apply X. lia.
    - destruct (Step_not h out x _ Hh Lo IH) as (r' & E' & V). assert (r' = r) by congruence. subst r'. exact V.
    - destruct (Step_gate h g out x y _ _ Hh Lo IHx IHy) as (r' & E' & V). assert (r' = r) by congruence. subst r'. exact V. }
  split; [apply Sound|]. intros h Hh. induction c as [i|c IH|g c1 IH1 c2 IH2]; cbn [reads_below].
  - intros Hi. destruct (nth_error inputs i) as [v|] eqn:E; [|apply nth_error_None in E; lia]. exists v. constructor. exact E.
  - intros Hc. destruct (IH Hc) as (x & Hx). destruct (Step_not h (repeat 0 (count * S n)) x _ Hh (repeat_length _ _) (Sound _ _ Hx)) as (r & E & _). exists r. eapply eval_not; [exact Hx|exact Hh|apply repeat_length|exact E].
  - intros [Hc1 Hc2]. destruct (IH1 Hc1) as (x & Hx). destruct (IH2 Hc2) as (y & Hy).
    destruct (Step_gate h g (repeat 0 (count * S n)) x y _ _ Hh (repeat_length _ _) (Sound _ _ Hx) (Sound _ _ Hy)) as (r & E & _). exists r. eapply eval_gate; [exact Hx|exact Hy|exact Hh|apply repeat_length|exact E].
Qed.
End Gate.
Print Assumptions C68_not.
Print Assumptions C68_decrypts.
Print Assumptions C68_worst_case.
Print Assumptions C68_gate.
Print Assumptions C68_gate_any_dimension_refuted.
Print Assumptions C68_gate_wrong_refuted.
Print Assumptions C68_circuit.

(** A case: polynomials of 4 coefficients, the key of C29, 128 bits of key, and a vector of two pairs of ciphertexts *)
Definition case_s : list Z := repeat 1 128.
Definition case_key : list (list Z) := [[1; 0; 1; 1]].
Definition case_bsk : list (list (list (list (list Z)))) := repeat (nth 0 demo_bsk []) 128.
Definition case_row (v : Z) : list Z := repeat 0 128 ++ [v].
Definition case_block (x : Z) : list (list Z) := map (fun j => case_row (x * 2 ^ (32 - 6 * (Z.of_nat j + 1)))) (seq 0 3).
Definition case_ksk : list (list (list Z)) := map case_block [1; 0; 1; 1].
Definition case_mask : list Z := repeat (3 * 2 ^ 29) 128.
Definition case_xs : list (list Z) := [case_mask ++ [2 ^ 29 + 5]; case_mask ++ [7 * 2 ^ 29 - 3]].
Definition case_ys : list (list Z) := [case_mask ++ [2 ^ 29 - 1]; case_mask ++ [2 ^ 29 + 1]].
Definition case_size (_ : nat) : nat := 4000.
Definition case_memory : mem addr (val Rdefinitions.R) := layout 32 0%R 1%R Rplus Rmult Ropp 2 1 3 0 (key_to_double 32) exact_twiddle case_bsk [].
Definition case_hardware : hardware := Hardware (fun _ threads => seq 0 threads) (fun _ => repeat 0 258) (fun _ => []) (fun _ => case_memory) (fun _ => []) (fun _ => repeat 0 129).
Lemma case_encrypts : bsk_encrypts 32 6 4 3 case_key 255 case_bsk case_s.
Proof.
  destruct C29_case as (_ & _ & _ & Hb & _). change (Z.to_nat (2 ^ 2)) with 4%nat in *. unfold bsk_encrypts in *. unfold case_bsk, case_s, case_key.
  destruct demo_bsk as [|G0 rest]; [inversion Hb|]. inversion Hb as [|? ? ? ? H1 _]; subst. cbn [nth]. generalize 128%nat. induction n as [|n IH]; cbn [repeat]; constructor; assumption.
Qed.
Example C68_case :
  shape 2 1 2 /\ has_variables (fun _ => true) /\ has_memory (fun _ => true) case_size /\ dec_wf 32 (Dec 6 3) /\ binary_key 4 case_key /\
  bsk_encrypts 32 6 4 3 case_key 255 case_bsk case_s /\ (forall i, (i < 2)%nat -> enough_memory 2 1 3 128 0 (i * 5) case_size) /\
  ksk_encrypts 32 6 3 case_s (glwe_key_into_lwe_key case_key) (fun _ _ => 0) case_ksk /\
  hardware_ok 2 case_s case_key 3 case_bsk 2 case_hardware /\
  encrypt_bools case_s (2 ^ 25) [true; false] case_xs /\ encrypt_bools case_s (2 ^ 25) [true; true] case_ys /\
  Forall (switch_within 4 case_s 1) (map2 (combination (factor And) (constant And)) case_xs case_ys) /\
  2 * 2 ^ 25 * 4 + 2 ^ 30 * 1 < 2 ^ 29 * 4 /\ gate_noise 2 case_s case_key 6 3 255 6 3 0 <= 2 ^ 25.
Proof.
  split; [split; [lia|]; split; [reflexivity|]; split; [reflexivity|]; exists 1%nat; split; [lia|reflexivity]|].
  split; [intros t r; reflexivity|]. split; [intros b i _; split; [reflexivity|]; intros; reflexivity|]. split; [unfold dec_wf; cbn [base_log level_count]; lia|].
  split; [constructor; [split; [reflexivity|]|constructor]; repeat (apply Forall_cons; [lia|]); apply Forall_nil|]. split; [exact case_encrypts|].
  split; [intros i Hi; unfold enough_memory, case_size; lia|].
  split.
  { split; [reflexivity|]. intros i block Hi. assert (B : (i < 4)%nat) by (change 4%nat with (length case_ksk); apply nth_error_Some; congruence).
    assert (Hrow : forall v, is_word 32 v -> lwe_wf 32 (length case_s) (case_row v) /\ phase 32 case_s (case_row v) = (v + 0) mod 2 ^ 32).
    { intros v Hv. split; [split; [reflexivity|apply Forall_app; split; [apply Forall_forall; intros z Hz; apply repeat_spec in Hz; subst z; split; [discriminate|reflexivity]|constructor; [exact Hv|constructor]]]|].
      unfold LweSpec.phase, case_row. rewrite last_last, removelast_last. replace (dot (repeat 0 128) case_s) with 0 by (vm_compute; reflexivity). rewrite Z.sub_0_r, Z.add_0_r. reflexivity. }
    assert (Hblock : forall x, x = 0 \/ x = 1 -> length (case_block x) = 3%nat /\ forall j row, nth_error (case_block x) j = Some row ->
      lwe_wf 32 (length case_s) row /\ phase 32 case_s row = (x * 2 ^ (32 - 6 * (Z.of_nat j + 1)) + 0) mod 2 ^ 32).
    { intros x Hx. split; [reflexivity|]. intros j row Hj. unfold case_block in Hj. rewrite nth_error_map in Hj.
      destruct (nth_error (seq 0 3) j) as [j'|] eqn:Ej; cbn [option_map] in Hj; [|discriminate]. assert (Bj : (j < 3)%nat) by (rewrite <- (seq_length 3 0); apply nth_error_Some; congruence).
      assert (j' = j) by (apply (nth_error_nth _ _ 0%nat) in Ej; rewrite seq_nth in Ej by exact Bj; auto). subst j'.
      assert (Er : row = case_row (x * 2 ^ (32 - 6 * (Z.of_nat j + 1)))) by congruence. rewrite Er. apply Hrow.
      destruct j as [|[|[|j]]]; [..|lia]; destruct Hx as [-> | ->]; split; vm_compute; (reflexivity || discriminate). }
    unfold case_ksk in Hi. rewrite nth_error_map in Hi.
    assert (Ex : nth_error [1; 0; 1; 1] i = Some (nth i (glwe_key_into_lwe_key case_key) 0)) by (destruct i as [|[|[|[|i]]]]; [reflexivity..|lia]).
    rewrite Ex in Hi. cbn [option_map] in Hi. assert (Eb : block = case_block (nth i (glwe_key_into_lwe_key case_key) 0)) by congruence. rewrite Eb. apply Hblock.
    destruct i as [|[|[|[|i]]]]; cbn; auto; lia. }
  split.
  { split; [intros j t; apply Permutation.Permutation_refl|]. split; [intros j; reflexivity|]. split; [|intros i; reflexivity]. intros i.
    exact (proj2 (layout_ok 32 0%R 1%R Rplus Rmult Ropp 2 1 3 0 (key_to_double 32) exact_twiddle case_bsk [])). }
  assert (Hmask : Forall (is_word 32) case_mask) by (apply Forall_forall; intros z Hz; apply repeat_spec in Hz; subst z; split; vm_compute; (reflexivity || discriminate)).
  assert (Enc : forall b x e, is_word 32 x -> Z.abs e <= 2 ^ 25 -> x = (message b + e) mod 2 ^ 32 -> encrypts_bool case_s (2 ^ 25) b (case_mask ++ [x])).
  { intros b x e Hx He E. split; [split; [reflexivity|apply Forall_app; split; [exact Hmask|constructor; [exact Hx|constructor]]]|]. exists e. split; [exact He|]. rewrite <- E.
    unfold LweSpec.phase. rewrite last_last, removelast_last. replace (dot case_mask case_s) with (48 * 2 ^ 32) by (vm_compute; reflexivity).
    rewrite <- (Z.mod_small x (2 ^ 32)) at 2 by exact Hx. apply (mod_shift (-48)). ring. }
  split; [constructor; [apply (Enc _ _ 5); [split; [discriminate|reflexivity]|vm_compute; discriminate|reflexivity]|constructor; [apply (Enc _ _ (-3)); [split; [discriminate|reflexivity]|vm_compute; discriminate|reflexivity]|constructor]]|].
  split; [constructor; [apply (Enc _ _ (-1)); [split; [discriminate|reflexivity]|vm_compute; discriminate|reflexivity]|constructor; [apply (Enc _ _ 1); [split; [discriminate|reflexivity]|vm_compute; discriminate|reflexivity]|constructor]]|].
  split; [|split; [reflexivity|vm_compute; discriminate]].
  unfold case_xs, case_ys. cbn [map2]. constructor; [exists 96|constructor; [exists 96|constructor]]; vm_compute; discriminate.
Qed.
