(** * Lemmas on buffers and loops of the C interface *)
From Verif Require Import Base Word WordFacts DecompModel PolyModel RandomModel LweSpec LweModel LweProofs GlweSpec GlweModel GlweProofs
  GgswSpec GgswModel GgswTheorems ExtProdModel BootstrapModel BootstrapSpec SeededModel KeyswitchModel KeyswitchSpec WopModel EngineModel EngineSpec EngineTheorems EngineGlweTheorems
  CsprngFamily CpuModel CpuSpec.

Lemma nth_ext_error_full {A} (l : list A) : forall l', (forall i, nth_error l i = nth_error l' i) -> l = l'.
Proof.
  induction l as [|x l IH]; intros [|y l'] H; try reflexivity; try (specialize (H 0%nat); discriminate).
  f_equal; [specialize (H 0%nat); cbn in H; congruence|]. apply IH. intros i. apply (H (S i)).
Qed.

Section Mem.
Context {A : Type}.
Implicit Types (m : Z -> A) (l : list A).
Lemma load_length m ptr n : length (load m ptr n) = n.
Proof. unfold load. rewrite map_length, seq_length. reflexivity. Qed.
Lemma load_nth m ptr n i : (i < n)%nat -> nth_error (load m ptr n) i = Some (m (ptr + Z.of_nat i)).
Proof.
  intros H. unfold load. rewrite nth_error_map. rewrite (nth_error_nth' (seq 0 n) 0%nat) by (rewrite seq_length; exact H).
  rewrite seq_nth by exact H. reflexivity.
Qed.
Lemma load_ext m m' ptr ptr' n : (forall i, (i < n)%nat -> m (ptr + Z.of_nat i) = m' (ptr' + Z.of_nat i)) -> load m ptr n = load m' ptr' n.
Proof.
  intros H. unfold load. apply map_ext_in. intros i Hi. apply in_seq in Hi. apply H. lia.
Qed.
Lemma holds_load m ptr l : holds m ptr l <-> load m ptr (length l) = l.
Proof.
  split.
  - intros H. apply nth_ext_error_full. intros i. destruct (Nat.lt_ge_cases i (length l)) as [Hi|Hi].
    + rewrite load_nth by exact Hi. destruct (nth_error l i) as [x|] eqn:E; [|apply nth_error_None in E; lia]. rewrite (H i x E). reflexivity.
    + rewrite (proj2 (nth_error_None _ _)) by (rewrite load_length; lia). symmetry. apply nth_error_None. lia.
  - intros H i x E. assert (Hi : (i < length l)%nat) by (apply nth_error_Some; congruence).
    pose proof (load_nth m ptr (length l) i Hi) as L. rewrite H, E in L. congruence.
Qed.
Lemma load_holds m ptr n : holds m ptr (load m ptr n).
Proof. apply holds_load. rewrite load_length. reflexivity. Qed.

Lemma store_at m ptr l a : store m ptr l a = if (ptr <=? a) && (a <? ptr + Z.of_nat (length l)) then nth (Z.to_nat (a - ptr)) l (m a) else m a.
Proof.
  revert m ptr. induction l as [|x l IH]; intros m ptr.
  - cbn [store length]. destruct (Z.leb_spec ptr a), (Z.ltb_spec a (ptr + Z.of_nat 0)); cbn [andb]; try reflexivity. lia.
  - cbn [store]. rewrite IH. cbn [length]. unfold write.
    destruct (Z.leb_spec ptr a) as [H1|H1], (Z.ltb_spec a (ptr + Z.of_nat (S (length l)))) as [H2|H2],
      (Z.leb_spec (ptr + 1) a) as [H3|H3], (Z.ltb_spec a (ptr + 1 + Z.of_nat (length l))) as [H4|H4]; cbn [andb]; try lia;
      destruct (Z.eqb_spec a ptr) as [->|Hne]; try lia; try reflexivity.
    + replace (Z.to_nat (a - ptr)) with (S (Z.to_nat (a - (ptr + 1)))) by lia. reflexivity.
    + rewrite Z.sub_diag. reflexivity.
Qed.
Lemma store_frame m ptr l : only_changes ptr (length l) m (store m ptr l).
Proof.
  intros a H. rewrite store_at. unfold inside in H.
  destruct (Z.leb_spec ptr a), (Z.ltb_spec a (ptr + Z.of_nat (length l))); cbn [andb]; try reflexivity. lia.
Qed.
Lemma load_store m ptr l : load (store m ptr l) ptr (length l) = l.
Proof.
  apply holds_load. intros i x E. assert (Hi : (i < length l)%nat) by (apply nth_error_Some; congruence).
  rewrite store_at. destruct (Z.leb_spec ptr (ptr + Z.of_nat i)), (Z.ltb_spec (ptr + Z.of_nat i) (ptr + Z.of_nat (length l))); cbn [andb]; try lia.
  replace (Z.to_nat (ptr + Z.of_nat i - ptr)) with i by lia. apply nth_error_nth. exact E.
Qed.
Lemma only_changes_load m m' ptr n ptr' n' : only_changes ptr n m m' -> disjoint ptr n ptr' n' -> load m' ptr' n' = load m ptr' n'.
Proof.
  intros H D. apply load_ext. intros i Hi. apply H. intros C. eapply D; [exact C|]. unfold inside. lia.
Qed.
End Mem.

Lemma word_loop_spec step out n v m0 : (forall m j, 0 <= j < Z.of_nat n -> only_changes out n m0 m -> step m out j = v j) ->
  forall c i m, i + Z.of_nat c = Z.of_nat n -> 0 <= i -> only_changes out n m0 m ->
  forall a, word_loop step c i out m a = if (out + i <=? a) && (a <? out + Z.of_nat n) then v (a - out) else m a.
Proof.
  intros Hs. induction c as [|c IH]; intros i m Hc Hi Hm a; cbn [word_loop].
  - destruct (Z.leb_spec (out + i) a), (Z.ltb_spec a (out + Z.of_nat n)); cbn [andb]; try reflexivity. lia.
  - rewrite IH; [|lia|lia|].
    + rewrite (Hs m i) by (auto; lia). unfold write.
      destruct (Z.leb_spec (out + (i + 1)) a) as [H1|H1], (Z.ltb_spec a (out + Z.of_nat n)) as [H2|H2], (Z.leb_spec (out + i) a) as [H3|H3];
        cbn [andb]; try lia; try reflexivity; destruct (Z.eqb_spec a (out + i)) as [->|Hne]; try lia; try reflexivity.
      f_equal. lia.
    + intros b Hb. unfold write. destruct (Z.eqb_spec b (out + i)) as [->|_]; [|apply Hm; exact Hb].
      exfalso. apply Hb. unfold inside. lia.
Qed.
Lemma word_loop_ok step out n v m : (forall m' j, 0 <= j < Z.of_nat n -> only_changes out n m m' -> step m' out j = v j) ->
  load (word_loop step n 0 out m) out n = map v (zseq 0 n) /\ only_changes out n m (word_loop step n 0 out m).
Proof.
  intros H. pose proof (word_loop_spec step out n v m H n 0 m ltac:(lia) ltac:(lia) (fun a _ => eq_refl)) as W. split.
  - apply nth_ext_error_full. intros i. destruct (Nat.lt_ge_cases i n) as [Hi|Hi].
    + rewrite load_nth by exact Hi. rewrite W.
      destruct (Z.leb_spec (out + 0) (out + Z.of_nat i)), (Z.ltb_spec (out + Z.of_nat i) (out + Z.of_nat n)); cbn [andb]; try lia.
      rewrite nth_error_map, nth_error_zseq by exact Hi. cbn [option_map]. do 2 f_equal. lia.
    + rewrite !(proj2 (nth_error_None _ _)); [reflexivity| |]; rewrite ?map_length, ?zseq_length, ?load_length; exact Hi.
  - intros a Ha. rewrite W. unfold inside in Ha.
    destruct (Z.leb_spec (out + 0) a), (Z.ltb_spec a (out + Z.of_nat n)); cbn [andb]; try reflexivity. lia.
Qed.

(** ** Cutting flattened keys *)
Lemma concat_length_all {A} n (ls : list (list A)) : Forall (fun c => length c = n) ls -> length (concat ls) = (length ls * n)%nat.
Proof. induction 1; [reflexivity|]. cbn [concat length]. rewrite app_length. lia. Qed.
Lemma map_cut {A C} (f : A -> C) (g : C -> A) ls : Forall (fun x => g (f x) = x) ls -> map g (map f ls) = ls.
Proof. intros H. rewrite map_map. induction H; [reflexivity|]. cbn [map]. congruence. Qed.
Lemma ck_div_ok p a b q : (0 < b)%nat -> a = (q * b)%nat -> ck_dim_div p a b = Ret tt.
Proof.
  intros Hb ->. unfold ck_dim_div. destruct p; [|reflexivity]. rewrite usize_rem_ok by exact Hb. cbn [obind].
  rewrite Nat.mod_mul by lia. reflexivity.
Qed.
Lemma cut_ksk_ok p l n_out ksk : (0 < l)%nat -> Forall (fun b => length b = l /\ Forall (fun r => length r = S n_out) b) ksk ->
  cut_ksk p l n_out (concat (map (@concat Z) ksk)) = Ret ksk /\ length (concat (map (@concat Z) ksk)) = (l * S n_out * length ksk)%nat.
Proof.
  intros Hl H.
  assert (F : Forall (fun c => length c = (l * S n_out)%nat) (map (@concat Z) ksk)).
  { apply Forall_map. eapply Forall_impl; [|exact H]. cbv beta. intros b [L F]. rewrite (concat_length_all (S n_out)) by exact F. lia. }
  pose proof (concat_length_all _ _ F) as L. rewrite map_length in L. split; [|lia].
  unfold cut_ksk. rewrite (ck_div_ok p _ (S n_out) (length ksk * l)) by lia. cbn [obind]. rewrite (ck_div_ok p _ l (length ksk * S n_out)) by lia.
  cbn [obind]. rewrite chunks_concat by (auto; lia). f_equal. apply map_cut. eapply Forall_impl; [|exact H]. cbv beta. intros b [_ Fb]. apply chunks_concat; [lia|exact Fb].
Qed.

Lemma cut_fourier_bsk_ok B l g bsk : (0 < l)%nat -> (0 < g)%nat ->
  Forall (fun G => length G = l /\ Forall (fun lev => length lev = g /\ Forall (fun row => length row = g) lev) G) bsk ->
  cut_fourier_bsk B l g (flat_fourier_bsk B bsk) = bsk /\ length (flat_fourier_bsk B bsk) = (length bsk * (l * (g * g)))%nat.
Proof.
  intros Hl Hg H. unfold cut_fourier_bsk, flat_fourier_bsk.
  assert (F1 : Forall (fun G => Forall (fun c => length c = (g * g)%nat) (map (@concat (bk_dom B)) G)) bsk).
  { eapply Forall_impl; [|exact H]. cbv beta. intros G [L F]. apply Forall_map. eapply Forall_impl; [|exact F]. cbv beta. intros lev [L2 F2].
    rewrite (concat_length_all g) by exact F2. lia. }
  assert (F2 : Forall (fun c => length c = (l * (g * g))%nat) (map (fun G => concat (map (@concat (bk_dom B)) G)) bsk)).
  { apply Forall_map. revert F1. induction H as [|G bsk [L _] _ IH]; intros F1; [constructor|]. inversion F1; subst. constructor; [|auto].
    rewrite (concat_length_all (g * g)) by assumption. rewrite map_length. lia. }
  pose proof (concat_length_all _ _ F2) as L. rewrite map_length in L. split; [|exact L].
  rewrite chunks_concat by (auto; nia). rewrite map_map. clear L F2.
  revert F1. induction H as [|G bsk [L F] _ IH]; intros F1; [reflexivity|]. inversion F1; subst. cbn [map]. rewrite IH by assumption. f_equal.
  rewrite chunks_concat by (auto; nia). apply map_cut. eapply Forall_impl; [|exact F]. cbv beta. intros lev [_ Fl]. apply chunks_concat; assumption.
Qed.

Lemma cut_bsk_ok p l k N bsk : (0 < l)%nat -> (0 < N)%nat ->
  Forall (fun G => length G = l /\ Forall (fun lev => length lev = S k /\ Forall (fun row => length row = S k /\ Forall (fun q => length q = N) row) lev) G) bsk ->
  cut_bsk p l (S k) N (flat_bsk bsk) = Ret bsk /\ length (flat_bsk bsk) = (length bsk * (l * (S k * (S k * N))))%nat.
Proof.
  intros Hl HN H. unfold cut_bsk, flat_bsk, cut_ggsw. set (g := S k) in *. assert (Hg : (0 < g)%nat) by lia.
  assert (R : forall row, length row = g /\ Forall (fun q : list Z => length q = N) row -> length (concat row) = (g * N)%nat).
  { intros row [L F]. rewrite (concat_length_all N) by exact F. lia. }
  assert (Lv : forall lev, length lev = g /\ Forall (fun row => length row = g /\ Forall (fun q : list Z => length q = N) row) lev ->
    Forall (fun c => length c = (g * N)%nat) (map (@concat Z) lev) /\ length (concat (map (@concat Z) lev)) = (g * (g * N))%nat).
  { intros lev [L F]. assert (X : Forall (fun c => length c = (g * N)%nat) (map (@concat Z) lev)).
    { apply Forall_map. eapply Forall_impl; [|exact F]. exact R. }
    split; [exact X|]. rewrite (concat_length_all (g * N)) by exact X. rewrite map_length. lia. }
  assert (GG : forall G, length G = l /\ Forall (fun lev => length lev = g /\ Forall (fun row => length row = g /\ Forall (fun q : list Z => length q = N) row) lev) G ->
    Forall (fun c => length c = (g * (g * N))%nat) (map (fun lev => concat (map (@concat Z) lev)) G) /\
    length (concat (map (fun lev => concat (map (@concat Z) lev)) G)) = (l * (g * (g * N)))%nat).
  { intros G [L F]. assert (X : Forall (fun c => length c = (g * (g * N))%nat) (map (fun lev => concat (map (@concat Z) lev)) G)).
    { apply Forall_map. eapply Forall_impl; [|exact F]. intros lev Hlev. apply Lv. exact Hlev. }
    split; [exact X|]. rewrite (concat_length_all (g * (g * N))) by exact X. rewrite map_length. lia. }
  assert (F2 : Forall (fun c => length c = (l * (g * (g * N)))%nat) (map (fun G => concat (map (fun lev => concat (map (@concat Z) lev)) G)) bsk)).
  { apply Forall_map. eapply Forall_impl; [|exact H]. intros G HG. apply GG. exact HG. }
  pose proof (concat_length_all _ _ F2) as L. rewrite map_length in L. split; [|exact L].
  rewrite (ck_div_ok p _ l (length bsk * (g * (g * N)))) by lia. cbn [obind].
  rewrite (ck_div_ok p _ (g * g) (length bsk * (l * N))) by lia. cbn [obind].
  rewrite (ck_div_ok p _ N (length bsk * (l * (g * g)))) by lia. cbn [obind]. f_equal.
  rewrite chunks_concat by (auto; nia). rewrite map_map. clear L F2.
  induction H as [|G bsk HG _ IH]; [reflexivity|]. cbn [map]. rewrite IH. f_equal.
  rewrite chunks_concat by (try apply GG; auto; nia). rewrite map_map. destruct HG as [_ F].
  induction F as [|lev G Hlev _ IHG]; [reflexivity|]. cbn [map]. rewrite IHG. f_equal.
  rewrite chunks_concat by (try apply Lv; auto; nia). apply map_cut. destruct Hlev as [_ Fr]. eapply Forall_impl; [|exact Fr]. cbv beta.
  intros row [_ Fq]. apply chunks_concat; assumption.
Qed.
