(** * C49: circuit bootstrap and vertical packing through the C interface *)
From Verif Require Import Base Word WordFacts NegaRing PolySpec PolyModel RingSum DecompModel DecompProofs RandomModel CsprngFamily LweSpec LweModel LweProofs LweTheorems GlweSpec GlweModel GlweProofs GlweTheorems
  GgswSpec GgswModel GgswTheorems ExtProdModel ExtProdSpec ExtProdProofs ExtProdTheorems BootstrapModel BootstrapSpec BootstrapTheorems
  SeededModel KeyswitchModel KeyswitchSpec KeyswitchTheorems PackingTheorems WopModel WopSpec WopTheorems WopBitsTheorems
  EngineModel EngineSpec EngineTheorems EngineGlweTheorems EngineFftTheorems CpuModel CpuSpec CpuProofs CpuTheorems.

(** The slice made for the keyswitch keys counts glwe_dimension polynomials per row instead of glwe_size: with the number of keys
    that the operation needs, glwe_dimension + 1, it covers one key too few.  Checked builds then panic on every call. *)
Lemma ck_dim_div_panic q b : ck_dim_div Debug q b = Ret tt -> (0 < b)%nat /\ (q mod b = 0)%nat.
Proof.
  unfold ck_dim_div, usize_rem. destruct (Nat.eqb_spec b 0); [discriminate|]. cbn [obind]. destruct (Nat.eqb_spec (q mod b) 0); [|discriminate]. intros _. lia.
Qed.
Theorem C49_checked_builds_refuted : forall B m fm ct_out_vec ct_in_vec lut fourier_bsk fpksk od oc id ic lc ls bl bb bk bN bn fl fb fi fk fN cl cb,
  concrete_cpu_circuit_bootstrap_boolean_vertical_packing Debug B m fm ct_out_vec ct_in_vec lut fourier_bsk fpksk od oc id ic lc ls bl bb bk bN bn fl fb fi fk fN
    (S fk) cl cb = Panic.
Proof.
  intros. unfold concrete_cpu_circuit_bootstrap_boolean_vertical_packing.
  repeat match goal with |- obind (assert_ ?c) _ = _ => destruct c; cbn [assert_ obind]; [|reflexivity] end.
  apply panic_bind. intros x. destruct (x <=? 64); cbn [assert_ obind]; [|reflexivity].
  apply panic_bind. intros _. apply panic_bind. intros bsk. apply panic_bind. intros _. apply panic_bind. intros _.
  set (cont := load m fpksk _). assert (Lc : length cont = (fl * fk * fN * S fi * S fk)%nat) by apply load_length.
  unfold cut_pfpksk_list.
  destruct (ck_dim_div Debug (length cont) (S fk * fN)) as [[]|] eqn:E1; cbn [obind]; [|reflexivity]. apply ck_dim_div_panic in E1. destruct E1 as [E1 _].
  destruct (ck_dim_div Debug (length cont) fl) as [[]|] eqn:E2; cbn [obind]; [|reflexivity]. apply ck_dim_div_panic in E2. destruct E2 as [E2 _].
  destruct (ck_dim_div Debug (length cont) (S fi)) as [[]|] eqn:E3; cbn [obind]; [|reflexivity].
  destruct (ck_dim_div Debug (length cont) (S fk)) as [[]|] eqn:E4; cbn [obind]; [|reflexivity].
  destruct (ck_dim_div Debug (length cont) (S fk * fN * fl * S fi)) as [[]|] eqn:E5; cbn [obind]; [|reflexivity].
  apply ck_dim_div_panic in E5. destruct E5 as [E5 _].
  set (keys := map _ (chunks (S fk * fN * fl * S fi) cont)).
  assert (Lk : length keys = fk).
  { unfold keys. rewrite map_length. apply (chunks_spec (S fk * fN * fl * S fi) fk cont E5). rewrite Lc. lia. }
  unfold fft_circuit_bootstrap_boolean_vertical_packing, circuit_bootstrap_boolean_vertical_packing, debug_assert.
  destruct (chunks (S id) (load m ct_in_vec (ic * S id))) as [|c cs]; [reflexivity|]. cbn [length Nat.eqb negb assert_ obind].
  destruct (forallb _ _); cbn [assert_ obind]; [|reflexivity]. destruct (Nat.even fN); cbn [assert_ obind]; [|reflexivity].
  cbn [cbs_vp_ggsws]. unfold circuit_bootstrap_boolean at 1, debug_assert. rewrite Lk.
  replace (Nat.eqb (S fk) fk) with false by (symmetry; apply Nat.eqb_neq; lia).
  repeat match goal with |- context [assert_ ?c] => destruct c; cbn [assert_ obind]; try reflexivity end.
Qed.
Print Assumptions C49_checked_builds_refuted.

(** In release builds the operation runs without the last key: the words that hold it have no influence. *)
Theorem C49_last_key_unread_refuted : forall p B m m' fm ct_out_vec ct_in_vec lut fourier_bsk fpksk od oc id ic lc ls bl bb bk bN bn fl fb fi fk fN cl cb,
  let single := (S fk * fN * fl * S fi)%nat in
  let last_key := fpksk + Z.of_nat (fk * single) in
  only_changes last_key single m m' ->
  disjoint last_key single ct_out_vec (oc * S od) -> disjoint last_key single ct_in_vec (ic * S id) -> disjoint last_key single lut (ls * lc) ->
  match concrete_cpu_circuit_bootstrap_boolean_vertical_packing p B m fm ct_out_vec ct_in_vec lut fourier_bsk fpksk od oc id ic lc ls bl bb bk bN bn fl fb fi fk fN (S fk) cl cb,
        concrete_cpu_circuit_bootstrap_boolean_vertical_packing p B m' fm ct_out_vec ct_in_vec lut fourier_bsk fpksk od oc id ic lc ls bl bb bk bN bn fl fb fi fk fN (S fk) cl cb with
  | Ret r, Ret r' => forall a, ~ inside last_key single a -> r a = r' a
  | Panic, Panic => True
  | _, _ => False
  end.
Proof.
  intros p B m m' fm ct_out_vec ct_in_vec lut fourier_bsk fpksk od oc id ic lc ls bl bb bk bN bn fl fb fi fk fN cl cb single last_key Hm D1 D2 D3.
  unfold concrete_cpu_circuit_bootstrap_boolean_vertical_packing.
  rewrite (only_changes_load m m' last_key single _ _ Hm D1), (only_changes_load m m' last_key single _ _ Hm D2), (only_changes_load m m' last_key single _ _ Hm D3).
  assert (Lk : load m' fpksk (fl * fk * fN * S fi * S fk) = load m fpksk (fl * fk * fN * S fi * S fk)).
  { apply load_ext. intros i Hi. apply Hm. intros [C _]. unfold last_key, single in C. nia. }
  rewrite Lk.
  repeat match goal with |- context [obind ?o _] => destruct o; cbn [obind]; try exact I end.
  intros b Hb. rewrite !store_at. rewrite (Hm b Hb). destruct (_ && _); reflexivity.
Qed.
Print Assumptions C49_last_key_unread_refuted.

(** ** The calls that do what they say: with one mask polynomial, the slice covers the two keys when the caller declares four *)
Lemma cut_pfpksk_ok p l n_in k N count keys : (0 < l)%nat -> (0 < N)%nat -> (0 < count)%nat ->
  Forall (fun key => length key = S n_in /\ Forall (fun bl => length bl = l /\ Forall (fun row => length row = S k /\ Forall (fun q => length q = N) row) bl) key) keys ->
  (exists q, length keys * (S k * N * l * S n_in) = q * count)%nat ->
  cut_pfpksk_list p l n_in k N count (flat_pfpksk keys) = Ret keys /\ length (flat_pfpksk keys) = (length keys * (S k * N * l * S n_in))%nat.
Proof.
  intros Hl HN Hc H [q Hq]. unfold cut_pfpksk_list, flat_pfpksk. set (g := S k) in *. assert (Hg : (0 < g)%nat) by lia.
  assert (Lv : forall bl, length bl = l /\ Forall (fun row => length row = g /\ Forall (fun q : list Z => length q = N) row) bl ->
    Forall (fun c => length c = (g * N)%nat) (map (@concat Z) bl) /\ length (concat (map (@concat Z) bl)) = (l * (g * N))%nat).
  { intros bl [L F]. assert (X : Forall (fun c => length c = (g * N)%nat) (map (@concat Z) bl)).
    { apply Forall_map. eapply Forall_impl; [|exact F]. cbv beta. intros row [L2 F2]. rewrite (concat_length_all N) by exact F2. lia. }
    split; [exact X|]. rewrite (concat_length_all (g * N)) by exact X. rewrite map_length. lia. }
  assert (GG : forall key, length key = S n_in /\ Forall (fun bl => length bl = l /\ Forall (fun row => length row = g /\ Forall (fun q : list Z => length q = N) row) bl) key ->
    Forall (fun c => length c = (l * (g * N))%nat) (map (fun bl => concat (map (@concat Z) bl)) key) /\
    length (concat (map (fun bl => concat (map (@concat Z) bl)) key)) = (g * N * l * S n_in)%nat).
  { intros key [L F]. assert (X : Forall (fun c => length c = (l * (g * N))%nat) (map (fun bl => concat (map (@concat Z) bl)) key)).
    { apply Forall_map. eapply Forall_impl; [|exact F]. intros bl Hbl. apply Lv. exact Hbl. }
    split; [exact X|]. rewrite (concat_length_all (l * (g * N))) by exact X. rewrite map_length. lia. }
  assert (F2 : Forall (fun c => length c = (g * N * l * S n_in)%nat) (map (fun key => concat (map (fun bl => concat (map (@concat Z) bl)) key)) keys)).
  { apply Forall_map. eapply Forall_impl; [|exact H]. intros key HG. apply GG. exact HG. }
  pose proof (concat_length_all _ _ F2) as L. rewrite map_length in L. split; [|exact L].
  rewrite (ck_div_ok p _ (g * N) (length keys * (l * S n_in))) by lia. cbn [obind].
  rewrite (ck_div_ok p _ l (length keys * (g * N * S n_in))) by lia. cbn [obind].
  rewrite (ck_div_ok p _ (S n_in) (length keys * (g * N * l))) by lia. cbn [obind].
  rewrite (ck_div_ok p _ count q) by lia. cbn [obind].
  rewrite (ck_div_ok p _ (g * N * l * S n_in) (length keys)) by (try exact L; nia). cbn [obind]. f_equal.
  rewrite chunks_concat by (auto; nia). rewrite map_map. clear L F2 Hq.
  induction H as [|key keys HG _ IH]; [reflexivity|]. cbn [map]. rewrite IH. f_equal.
  rewrite chunks_concat by (try apply GG; auto; nia). rewrite map_map. destruct HG as [_ F].
  induction F as [|bl key Hbl _ IHG]; [reflexivity|]. cbn [map]. rewrite IHG. f_equal.
  rewrite chunks_concat by (try apply Lv; auto; nia). apply map_cut. destruct Hbl as [_ Fr]. eapply Forall_impl; [|exact Fr]. cbv beta.
  intros row [_ Fq]. apply chunks_concat; assumption.
Qed.

Section Packing.
Context (p : profile) (a : Z) (N := Z.to_nat (2 ^ a)) (B : backend) (d : decomposer) (key : list (list Z)) (beta : Z) (T : nat) (E : Z).
Hypothesis (Hd : dec_wf 64 d) (Ha : 1 <= a) (Haw : a + 2 < 64) (Hkey : binary_key N key) (Hbeta : 0 <= beta)
  (HB : backend_ok 64 N (base_log d) T E B) (HE : 0 <= E) (HT : (level_count d * S (length key) <= T)%nat).
Notation k := (length key).
Notation bound := (ep_error 64 (base_log d) k N (level_count d) 1 beta E).
Notation big := (glwe_key_into_lwe_key key).
Context (s : list Z) (bsk : list (list (list (list (list Z))))) (M : Z).
Hypothesis (Hs : Forall (fun x => x = 0 \/ x = 1) s) (Hbsk : bsk_encrypts 64 (base_log d) N (level_count d) key beta bsk s)
  (HM : 2 ^ 64 * (Z.of_nat (length s) + 1) <= 4 * Z.of_nat N * M).
Notation n := (length s).
Context (a_pf : Z) (N_pf := Z.to_nat (2 ^ a_pf)) (b_pf : Z) (l_pf : nat) (key_pf : list (list Z)) (beta_pf : Z) (keys : list (list (list (list (list Z))))).
Hypothesis (Hd_pf : dec_wf 64 (Dec b_pf l_pf)) (Ha_pf : 1 <= a_pf <= 61) (Hkey_pf : binary_key N_pf key_pf) (Hbeta_pf : 0 <= beta_pf)
  (Hone : length key_pf = 1%nat) (Hkeys : cbs_keys_encrypt 64 b_pf l_pf N_pf key_pf big beta_pf keys) (Hdim : N_pf = (k * N)%nat).
Notation err_cbs := (cbs_error 64 b_pf (k * N) l_pf beta_pf (Z.of_nat n * bound)).

Lemma pf_shape : length keys = 2%nat /\
  Forall (fun key => length key = S (k * N) /\ Forall (fun bl => length bl = l_pf /\ Forall (fun row => length row = S 1 /\ Forall (fun q => length q = N_pf) row) bl) key) keys.
Proof using All.
  destruct Hkeys as [L H]. rewrite Hone in L. split; [exact L|]. apply Forall_forall. intros ky Hin. apply In_nth_error in Hin. destruct Hin as [u Hu].
  destruct (H u ky Hu) as (noise & [K1 K2] & _). rewrite app_length, (length_big N key (binary_key_lengths N key Hkey)) in K1. cbn [length] in K1. split; [lia|].
  apply Forall_forall. intros bl Hbl. apply In_nth_error in Hbl. destruct Hbl as [i Hi]. destruct (K2 i bl Hi) as [K3 K4]. split; [exact K3|].
  apply Forall_forall. intros row Hr. apply In_nth_error in Hr. destruct Hr as [j Hj]. destruct (K4 j row Hj) as [[K5 K6] _]. rewrite Hone in K5. split; [exact K5|].
  eapply Forall_impl; [|exact K6]. intros q Hq. apply Hq.
Qed.

(** The bits at ct_in, most significant first, select the entry of each of the tables at lut; the output buffers then hold encryptions
    of the entries.  The caller must declare four keyswitch keys although two are needed and read. *)
Theorem C49_vertical_packing : forall m fm ct_out ct_in lut fptr kptr cbs_b cbs_l T_pf E_pf r lwes bits luts count e0,
  dec_wf 64 (Dec cbs_b cbs_l) -> backend_ok 64 N_pf cbs_b T_pf E_pf B -> 0 <= E_pf -> (cbs_l * 2 <= T_pf)%nat ->
  Forall (fun x => x = 0 \/ x = 1) bits -> Z.of_nat (length bits) = Z.of_nat r + a_pf -> Z.of_nat (length bits) < 2 ^ 63 ->
  Forall2 (fun lwe bit => lwe_wf 64 n lwe /\ exists err, Z.abs err <= e0 /\ phase 64 s lwe = (bit * 2 ^ 63 + err) mod 2 ^ 64) lwes bits ->
  e0 + M < 2 ^ 62 -> Forall (is_word 64) luts -> length luts = (count * 2 ^ r * N_pf)%nat -> (0 < count)%nat -> Z.of_nat (length luts) < 2 ^ 64 ->
  holds fm fptr (flat_fourier_bsk B (bsk_forward_fourier B bsk)) -> holds m kptr (flat_pfpksk keys) ->
  holds m ct_in (concat lwes) -> holds m lut luts ->
  exists m' outs,
    concrete_cpu_circuit_bootstrap_boolean_vertical_packing p B m fm ct_out ct_in lut fptr kptr
      (k * N) count n (length lwes) (count * 2 ^ r) N_pf
      (level_count d) (base_log d) k N n l_pf b_pf (k * N) 1 N_pf 4 cbs_l cbs_b = Ret m' /\
    only_changes ct_out (count * S (k * N)) m m' /\ holds m' ct_out (concat outs) /\ length outs = count /\
    forall t o, nth_error outs t = Some o -> lwe_wf 64 (k * N) o /\
      exists e, Z.abs e <= Z.of_nat (length bits) * ep_error 64 cbs_b 1 N_pf cbs_l 1 err_cbs E_pf /\
        phase 64 (glwe_key_into_lwe_key key_pf) o = (nth (t * (2 ^ r * N_pf) + Z.to_nat (bits_value bits)) luts 0 + e) mod 2 ^ 64.
Proof using All.
  intros m fm ct_out ct_in lut fptr kptr cbs_b cbs_l T_pf E_pf r lwes bits luts count e0 Hcd HBp HEp HTp Hbits Lbits Lb63 Hin Hmar Wl Ll Hcnt Ll64 Mf Mk Mi Ml.
  assert (HNp : (0 < N_pf)%nat) by (pose proof (pow2_pos a_pf ltac:(clear - Ha_pf; lia)); unfold N_pf; clear - H; lia).
  pose proof Hcd as (Hc1 & Hc2 & Hc3 & Hc4). cbn [base_log level_count] in *.
  destruct pf_shape as [Lk Sk].
  destruct (cut_pfpksk_ok p l_pf (k * N) 1 N_pf 4 keys ltac:(destruct Hd_pf as (_ & X & _); cbn in X; clear - X; lia) HNp ltac:(lia) Sk) as [K1 K2].
  { exists (N_pf * l_pf * S (k * N))%nat. rewrite Lk. clear. lia. }
  assert (Fin : Forall (fun c => length c = S n) lwes) by (clear - Hin; induction Hin as [|x y xs ys [[X _] _] _ IH]; constructor; assumption).
  pose proof (concat_length_all _ _ Fin) as Lin.
  destruct (chunks_spec N_pf (count * 2 ^ r) luts HNp Ll) as (C1 & C2 & C3).
  assert (Lo : length (load m ct_out (count * S (k * N))) = (count * S (k * N))%nat) by apply load_length.
  destruct (chunks_spec (S (k * N)) count _ ltac:(clear; lia) Lo) as (O1 & O2 & O3).
  destruct (C42_circuit_bootstrap_vertical_packing p 64 a B d key beta T E Hd ltac:(clear - Ha; lia) Haw Hkey Hbeta HB HE HT s bsk M Hs Hbsk HM
    b_pf l_pf N_pf key_pf beta_pf keys Hd_pf HNp Hkey_pf Hbeta_pf Hkeys a_pf cbs_b cbs_l T_pf E_pf r lwes bits (chunks N_pf luts)
    (chunks (S (k * N)) (load m ct_out (count * S (k * N)))) e0) as (res & Er & Lr & Hr); try assumption.
  - reflexivity.
  - clear - Ha_pf; lia.
  - clear - Ha_pf; lia.
  - rewrite Hone. exact HTp.
  - rewrite Hone, Hdim. fold N. clear. lia.
  - left. reflexivity.
  - rewrite <- C3 in Wl. clear - Wl C2. induction C2; [constructor|]. cbn [concat] in Wl. apply Forall_app in Wl. destruct Wl. constructor; [split; assumption|auto].
  - rewrite C1, O1. reflexivity.
  - rewrite O1. exact Hcnt.
  - rewrite C1. apply Z.le_lt_trans with (Z.of_nat (length luts)); [|exact Ll64]. rewrite Ll. generalize (count * 2 ^ r)%nat. clear - HNp. intros q. nia.
  - fold N in Er. rewrite Hone in Er.
    unfold concrete_cpu_circuit_bootstrap_boolean_vertical_packing.
    rewrite Nat.eqb_refl. cbn [assert_ obind]. rewrite Nat.eqb_refl. cbn [assert_ obind].
    replace (1 * N_pf)%nat with (k * N)%nat by (rewrite Hdim; clear; lia). rewrite !Nat.eqb_refl. cbn [assert_ obind].
    rewrite Nat.leb_refl. cbn [assert_ obind]. destruct (Z.eqb_spec cbs_b 0) as [X|_]; [clear - X Hc1; lia|]. cbn [negb assert_ obind].
    destruct (Nat.eqb_spec cbs_l 0) as [X|_]; [clear - X Hc2; lia|]. cbn [negb assert_ obind].
    rewrite plain_ok by (unfold usize_bits; clear - Hc1 Hc2 Hc3; nia). cbn [obind].
    destruct (Z.leb_spec (Z.of_nat cbs_l * cbs_b) 64) as [_|X]; [|clear - X Hc3; lia]. cbn [assert_ obind].
    rewrite (ck_div_ok p _ N_pf (count * 2 ^ r)) by (try exact HNp; apply Nat.mul_comm). cbn [obind].
    pose proof (load_fourier_ok p a B d key beta T E Hd Ha Haw Hkey Hbeta HB HE HT bsk s fm fptr Hbsk Mf) as EF. fold N in EF. rewrite EF. cbn [obind].
    rewrite (ck_div_ok p _ (S (k * N)) count) by (clear; lia). cbn [obind].
    rewrite (ck_div_ok p _ (S n) (length lwes)) by (clear; lia). cbn [obind].
    rewrite (holds_at m lut luts (N_pf * (count * 2 ^ r))%nat ltac:(rewrite Ll; apply Nat.mul_comm) Ml).
    rewrite (holds_at m ct_in (concat lwes) _ Lin Mi). rewrite (chunks_concat (S n) lwes ltac:(clear; lia) Fin).
    rewrite (holds_at m kptr (flat_pfpksk keys) (l_pf * 1 * N_pf * S (k * N) * 4)%nat ltac:(rewrite K2, Lk; clear; lia) Mk). rewrite K1. cbn [obind].
    rewrite Er. cbn [obind]. exists (store m ct_out (concat res)), res. split; [reflexivity|].
    assert (Fr : Forall (fun c => length c = S (k * N)) res).
    { apply Forall_forall. intros o Ho. apply In_nth_error in Ho. destruct Ho as [t Ht]. apply (Hr t o Ht). }
    assert (Lres : length (concat res) = (count * S (k * N))%nat) by (rewrite (concat_length_all _ _ Fr), Lr, O1; reflexivity).
    split; [rewrite <- Lres; apply store_frame|]. split; [apply loaded_holds, load_store|]. split; [rewrite Lr; exact O1|].
    intros t o Ht. destruct (Hr t o Ht) as (R1 & e & R2 & R3). split; [exact R1|]. exists e. rewrite Hone in R2. split; [exact R2|]. rewrite C3 in R3. exact R3.
Qed.
End Packing.
Print Assumptions C49_vertical_packing.

(** ** A concrete case of C49: the bits 1, 0, 1 select entry 5 of each of the two tables *)
Definition demo_mem49 : Z -> Z :=
  store (store (store (fun _ => 7) 0 (concat demo_bits8)) 20 (concat demo_tables8)) 100 (flat_pfpksk demo_pfks8).
Definition demo_fmem49 : Z -> bk_dom (exact_backend 64) :=
  store (fun _ => nil) 0 (flat_fourier_bsk (exact_backend 64) (bsk_forward_fourier (exact_backend 64) demo_bsk8)).
Example C49_case :
  holds demo_mem49 0 (concat demo_bits8) /\ holds demo_mem49 20 (concat demo_tables8) /\ holds demo_mem49 100 (flat_pfpksk demo_pfks8) /\
  holds demo_fmem49 0 (flat_fourier_bsk (exact_backend 64) (bsk_forward_fourier (exact_backend 64) demo_bsk8)) /\
  bsk_encrypts 64 6 8 3 demo_key8 255 demo_bsk8 [1; 1] /\
  cbs_keys_encrypt 64 6 3 8 demo_key8 (glwe_key_into_lwe_key demo_key8) 255 demo_pfks8 /\
  map (phase 64 [1; 1]) demo_bits8 = [2 ^ 63 + 9; 5; 2 ^ 63] /\ 9 + 3 * 2 ^ 59 < 2 ^ 62 /\ bits_value [1; 0; 1] = 5 /\
  3 * ep_error 64 4 1 8 3 1 (cbs_error 64 6 8 3 255 (2 * ep_error 64 6 1 8 3 1 255 0)) 0 < 2 ^ 61 /\
  match concrete_cpu_circuit_bootstrap_boolean_vertical_packing Debug (exact_backend 64) demo_mem49 demo_fmem49 40 0 20 0 100
      8 2 2 3 2 8 3 6 1 8 2 3 6 8 1 8 4 3 4 with
  | Ret m' => map (fun c => (phase 64 (concat demo_key8) c + 2 ^ 61) mod 2 ^ 64 / 2 ^ 62) (chunks 9 (load m' 40 18)) | Panic => [] end = [1; 3].
Proof.
  repeat match goal with |- holds _ _ _ /\ _ => split; [apply loaded_holds; vm_compute; reflexivity|] end.
  split; [exact demo_bsk8_ok|]. split; [exact demo_pfks8_ok|]. split; [reflexivity|]. split; [reflexivity|]. split; [reflexivity|].
  split; vm_compute; reflexivity.
Qed.
