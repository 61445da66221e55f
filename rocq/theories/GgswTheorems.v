(** * C25: GGSW encryption *)
From Verif Require Import Base Word WordFacts NegaRing PolySpec PolyModel PolyProofs RandomModel RandomProofs RandomTheorems
  CsprngFamily LweSpec LweModel LweProofs LweTheorems GlweSpec GlweModel GlweProofs GlweTheorems GgswSpec GgswModel GgswProofs.

(** Bytes reserved for row number [r] (level j, row i: r = (j-1)*(k+1) + i) of the ciphertext. *)
Definition row_number (k j i : nat) : nat := ((j - 1) * (k + 1) + i)%nat.
Definition row_noise_bytes (N : nat) (g : egen) (r : nat) : bgen :=
  bg_window (eg_noise g) (Z.of_nat r * (Z.of_nat N * 256)) (Z.of_nat N * 256).

Lemma child_child g k N w j i :
  child (child g ((Z.of_nat k + 1) * (Z.of_nat k * (Z.of_nat N * (w / 8)))) ((Z.of_nat k + 1) * (Z.of_nat N * 256)) (Z.of_nat j))
        (Z.of_nat k * (Z.of_nat N * (w / 8))) (Z.of_nat N * 256) (Z.of_nat i) =
  EG (bg_window (eg_mask g) (Z.of_nat (row_number k (S j) i) * (Z.of_nat (k * N) * (w / 8))) (Z.of_nat (k * N) * (w / 8)))
     (row_noise_bytes N g (row_number k (S j) i)).
Proof.
  unfold child, row_noise_bytes, row_number, bg_window. cbn [eg_mask eg_noise bg_pos bg_end bg_table]. set (b := w / 8). clearbody b.
  replace (S j - 1)%nat with j by lia. replace (Z.of_nat (j * (k + 1) + i)) with (Z.of_nat j * (Z.of_nat k + 1) + Z.of_nat i) by lia.
  replace (Z.of_nat (k * N)) with (Z.of_nat k * Z.of_nat N) by lia. f_equal; f_equal; ring.
Qed.

(** Every row of a GGSW encryption of m encrypts the polynomial of the property, with its own noise,
    drawn from its own slice of the noise generator, and its own mask, read from its own slice of the
    mask generator; the generator is left right after the last slice. *)
Theorem C25_rows : forall p w gauss N key b output m g G g',
  let k := length key in let l := length output in
  0 < w -> w mod 8 = 0 -> w < 2 ^ 64 -> (0 < N)%nat -> (0 < k)%nat -> gauss_ok w gauss -> egen_ok g -> gkey_ok p N key ->
  0 < b -> b * Z.of_nat l <= w -> ggsw_wf w k N l output -> ggsw_bytes_small w l k N ->
  encrypt_constant_ggsw p w gauss key N b output m g = Ret (G, g') ->
  exists noise,
    ggsw_wf w k N l G /\ ggsw_encrypts w b N key m noise G /\
    (forall j i, (1 <= j <= l)%nat -> (i <= k)%nat ->
       exists ng, gaussian_tensor gauss N (row_noise_bytes N g (row_number k j i)) = Ret (noise j i, ng)) /\
    (forall j lev i row, nth_error G j = Some lev -> nth_error lev i = Some row ->
       concat (removelast row) =
       table_words w (bg_table (eg_mask g)) (bg_pos (eg_mask g) + Z.of_nat (row_number k (S j) i) * (Z.of_nat (k * N) * (w / 8))) (k * N)) /\
    eg_mask g' = bg_advance (eg_mask g) (Z.of_nat (l * (k + 1)) * (Z.of_nat (k * N) * (w / 8))) /\
    eg_noise g' = bg_advance (eg_noise g) (Z.of_nat (l * (k + 1)) * (Z.of_nat N * 256)).
Proof.
  intros p w gauss N key b output m g G g' k l Hw Hm8 Hw64 HN Hk0 Hga Hg Hk Hb Hbl Hwf Hs E.
  apply (ggsw_inv p w b gauss N key) in E; try assumption. fold k l in E. destruct E as (LG & -> & _ & H).
  exists (fun j i => match gaussian_tensor gauss N (row_noise_bytes N g (row_number k j i)) with Ret (e, _) => e | Panic => [] end).
  assert (Hn : forall j lev i row, nth_error G j = Some lev -> nth_error lev i = Some row ->
    exists es ng, gaussian_tensor gauss N (row_noise_bytes N g (row_number k (S j) i)) = Ret (es, ng) /\
    concat (removelast row) = table_words w (bg_table (eg_mask g)) (bg_pos (eg_mask g) + Z.of_nat (row_number k (S j) i) * (Z.of_nat (k * N) * (w / 8))) (k * N) /\
    glwe_wf w k N row /\ req (2 ^ w) (gphase N key row) (radd (ggsw_row_value w b N key m (S j) i) (R N es))).
  { intros j lev i row Hj Hi. destruct (H j lev Hj) as [_ Hr]. specialize (Hr i row Hi). unfold k in Hr. rewrite child_child in Hr. exact Hr. }
  split; [split; [exact LG|]|].
  { apply Forall_forall. intros lev Hin. apply In_nth_error in Hin. destruct Hin as [j Hj]. split; [apply (H j lev Hj)|].
    apply Forall_forall. intros row Hin. apply In_nth_error in Hin. destruct Hin as [i Hi].
    destruct (Hn j lev i row Hj Hi) as (es & ng & _ & _ & Hrow & _). exact Hrow. }
  split.
  { intros j lev i row Hj Hi. destruct (Hn j lev i row Hj Hi) as (es & ng & En & _ & _ & Hp). rewrite En. exact Hp. }
  split.
  { intros j i Hj Hi. destruct j as [|j]; [lia|].
    destruct (nth_error G j) as [lev|] eqn:Ej; [|apply nth_error_None in Ej; lia]. destruct (H j lev Ej) as [Ll _].
    destruct (nth_error lev i) as [row|] eqn:Ei; [|apply nth_error_None in Ei; unfold k in *; lia].
    destruct (Hn j lev i row Ej Ei) as (es & ng & En & _). exists ng. rewrite En. reflexivity. }
  split.
  { intros j lev i row Hj Hi. destruct (Hn j lev i row Hj Hi) as (es & ng & _ & Hmk & _). exact Hmk. }
  cbn [eg_advance eg_mask eg_noise]. unfold bg_advance. split; f_equal; unfold k, l; set (q := w / 8); clearbody q; lia.
Qed.
Print Assumptions C25_rows.

(** The encryption returns when the generators have the bytes and each slice yields its noise. *)
Theorem C25_succeeds : forall p w gauss N key b output m g,
  let k := length key in let l := length output in
  0 < w -> w mod 8 = 0 -> w < 2 ^ 64 -> (0 < N)%nat -> (0 < k)%nat -> gauss_ok w gauss -> egen_ok g -> gkey_ok p N key ->
  0 < b -> b * Z.of_nat l <= w -> ggsw_wf w k N l output -> (0 < l)%nat ->
  ggsw_bytes_small w l k N ->
  Z.of_nat (l * (k + 1) * (k * N)) * (w / 8) <= bg_end (eg_mask g) - bg_pos (eg_mask g) ->
  Z.of_nat (l * (k + 1) * N) * 256 <= bg_end (eg_noise g) - bg_pos (eg_noise g) ->
  (forall r, (r < l * (k + 1))%nat -> exists x, gaussian_tensor gauss N (row_noise_bytes N g r) = Ret x) ->
  exists G g', encrypt_constant_ggsw p w gauss key N b output m g = Ret (G, g').
Proof.
  intros p w gauss N key b output m g k l Hw Hm8 Hw64 HN Hk0 Hga Hg Hk Hb Hbl Hwf Hl0 [S1 S2] F1 F2 Hns.
  apply (ggsw_ok p w b gauss N key); try assumption.
  - split; [exact S1|]. split; [exact S2|]. fold k l. revert F1 F2. set (q := w / 8). clearbody q. clear. split; lia.
  - intros j i Hj Hi. fold k l. rewrite child_child. cbn [eg_noise]. apply Hns. unfold row_number. fold k l in Hi, Hj. nia.
Qed.
Print Assumptions C25_succeeds.

(** ** Trivial encryptions *)
Definition diag_value {N} (d : Z) (key : list (list Z)) (i : nat) : rp N :=
  match nth_error key i with Some s => rscal (- d) (R N s) | None => rconst N d end.

Lemma add_first_ok w N d a : 0 <= w -> (0 < N)%nat -> poly_wf w N a ->
  exists a', add_first w d a = Ret a' /\ poly_wf w N a' /\ req (2 ^ w) (R N a') (radd (R N a) (rconst N d)).
Proof.
  intros Hw HN [L W]. destruct a as [|c r]; [cbn in L; lia|]. eexists. split; [reflexivity|]. split.
  - split; [exact L|]. constructor; [apply wadd_word; assumption|apply (Forall_inv_tail W)].
  - apply req_coefs. intros x Hx. change (rcoef (radd ?u ?v) ?t) with (rcoef u t + rcoef v t). rewrite rcoef_rconst, !rcoef_R by lia. unfold coef.
    destruct (Z.eqb_spec x 0) as [->|Hne]; cbn [Z.to_nat nth]; [apply wadd_eqm|].
    destruct (Z.to_nat x) eqn:Ex; [lia|]. cbn [nth]. apply eqm_eq. lia.
Qed.

Lemma diag_masks w N d key : 0 <= w -> (0 < N)%nat -> Forall (fun s => length s = N) key -> forall masks body i,
  length masks = length key -> Forall (poly_wf w N) masks -> poly_wf w N body -> (i <= length key)%nat ->
  exists c', update_nth (add_first w d) i (masks ++ [body]) = Ret c' /\ glwe_wf w (length key) N c' /\
    req (2 ^ w) (gphase N key c') (radd (gphase N key (masks ++ [body])) (diag_value d key i)).
Proof.
  intros Hw HN Hk masks body i Hl Hm Hb Hi.
  destruct (Nat.eq_dec i (length key)) as [->|Hne].
  - destruct (add_first_ok w N d body Hw HN Hb) as (b' & Eb & Wb & Rb).
    assert (E : update_nth (add_first w d) (length key) (masks ++ [body]) = Ret (masks ++ [b'])).
    { rewrite <- Hl. clear - Eb. induction masks as [|a masks IH]; cbn [length app update_nth]; [rewrite Eb; reflexivity|rewrite IH; reflexivity]. }
    exists (masks ++ [b']). split; [exact E|]. split; [apply glwe_wf_snoc; auto|].
    rewrite !gphase_snoc, Rb. unfold diag_value. destruct (nth_error key (length key)) eqn:En.
    { exfalso. assert (nth_error key (length key) <> None) by congruence. apply nth_error_Some in H. lia. }
    intros x. apply eqm_eq. cbn. lia.
  - assert (Hi' : (i < length key)%nat) by lia. clear Hi Hne.
    assert (G : exists masks', update_nth (add_first w d) i (masks ++ [body]) = Ret (masks' ++ [body]) /\ length masks' = length key /\ Forall (poly_wf w N) masks' /\
      req (2 ^ w) (rdot N masks' key) (rsub (rdot N masks key) (diag_value d key i))).
    { revert key Hk masks Hl Hm Hi'. induction i as [|i IH]; intros [|s key] Hk [|a masks] Hl Hm Hi; try discriminate; try (cbn in Hi; lia).
      - destruct (add_first_ok w N d a Hw HN (Forall_inv Hm)) as (a' & Ea & Wa & Ra). exists (a' :: masks). cbn [app update_nth]. rewrite Ea. split; [reflexivity|].
        split; [exact Hl|]. split; [constructor; [assumption|apply (Forall_inv_tail Hm)]|]. cbn [rdot]. rewrite Ra.
        unfold diag_value. cbn [nth_error]. rewrite rmul_add_l, rmul_const. intros x. apply eqm_eq. cbn. lia.
      - cbn [app update_nth]. destruct (IH key (Forall_inv_tail Hk) masks) as (mk & E & L & W & Rm); [cbn in Hl; lia|apply (Forall_inv_tail Hm)|cbn in Hi; lia|].
        rewrite E. exists (a :: mk). split; [reflexivity|]. split; [cbn; lia|]. split; [constructor; [apply (Forall_inv Hm)|assumption]|].
        cbn [rdot]. rewrite Rm. unfold diag_value. cbn [nth_error]. intros x. apply eqm_eq. cbn. lia. }
    destruct G as (mk & E & L & W & Rm). exists (mk ++ [body]). split; [exact E|]. split; [apply glwe_wf_snoc; auto|].
    rewrite !gphase_snoc, Rm. intros x. apply eqm_eq. cbn. lia.
Qed.

Lemma add_diagonal_ok w N d k : 0 <= w -> (0 < N)%nat -> forall matrix idx, Forall (glwe_wf w k N) matrix -> (idx + length matrix <= S k)%nat ->
  exists res, add_diagonal w d idx matrix = Ret res /\ length res = length matrix /\
    forall t row', nth_error res t = Some row' -> exists row, nth_error matrix t = Some row /\ glwe_wf w k N row' /\
      forall key, length key = k -> Forall (fun s => length s = N) key ->
        req (2 ^ w) (gphase N key row') (radd (gphase N key row) (diag_value d key (idx + t))).
Proof.
  intros Hw HN. induction matrix as [|row matrix IH]; intros idx Hm Hl.
  - exists []. split; [reflexivity|]. split; [reflexivity|]. intros [|t] r' H; discriminate.
  - cbn [add_diagonal]. destruct (wf_snoc_dec _ _ _ _ (Forall_inv Hm)) as (masks & body & -> & Lm & Wm & Wb).
    assert (Hd : exists c', update_nth (add_first w d) idx (masks ++ [body]) = Ret c' /\ glwe_wf w k N c' /\
      forall key, length key = k -> Forall (fun s => length s = N) key -> req (2 ^ w) (gphase N key c') (radd (gphase N key (masks ++ [body])) (diag_value d key idx))).
    { destruct (diag_masks w N d (repeat (repeat 0 N) k) Hw HN) with (masks := masks) (body := body) (i := idx) as (c & Ec & Wc & _); try assumption.
      - apply Forall_forall. intros x Hx. apply repeat_spec in Hx. subst x. apply repeat_length.
      - rewrite repeat_length. assumption.
      - rewrite repeat_length. cbn in Hl. lia.
      - rewrite repeat_length in Wc. exists c. split; [exact Ec|]. split; [exact Wc|]. intros key Lk Hk.
        destruct (diag_masks w N d key Hw HN Hk masks body idx) as (c2 & Ec2 & _ & R2); try assumption; try (cbn in Hl; lia).
        rewrite Ec in Ec2. injection Ec2 as <-. exact R2. }
    destruct Hd as (c' & Ec & Wc & Rc). rewrite Ec. cbn [obind].
    destruct (IH (S idx)) as (res & Er & Lr & Hr); [apply (Forall_inv_tail Hm)|cbn in Hl; lia|]. rewrite Er. cbn [obind].
    exists (c' :: res). split; [reflexivity|]. split; [cbn; lia|]. intros [|t] row' Ht; cbn [nth_error] in *.
    + injection Ht as <-. eexists. split; [reflexivity|]. split; [assumption|]. rewrite Nat.add_0_r. assumption.
    + destruct (Hr t row' Ht) as (row & E1 & W1 & R1). exists row. split; [exact E1|]. split; [exact W1|].
      replace (idx + S t)%nat with (S idx + t)%nat by lia. exact R1.
Qed.

Lemma add_gadget_ok p w N b m k : 0 <= w -> w < 2 ^ 64 -> (0 < N)%nat -> 0 < b -> forall G idx,
  Forall (fun lev => length lev = S k /\ Forall (glwe_wf w k N) lev) G -> b * Z.of_nat (idx + length G) <= w ->
  exists res, add_gadget p w b m idx G = Ret res /\ length res = length G /\
    forall j lev', nth_error res j = Some lev' -> exists lev, nth_error G j = Some lev /\ length lev' = S k /\
      forall i row', nth_error lev' i = Some row' -> exists row, nth_error lev i = Some row /\ glwe_wf w k N row' /\
        forall key, length key = k -> Forall (fun s => length s = N) key ->
          req (2 ^ w) (gphase N key row') (radd (gphase N key row) (ggsw_row_value w b N key m (S (idx + j)) i)).
Proof.
  intros Hw Hw64 HN Hb. induction G as [|lev G IH]; intros idx HG Hbl.
  - exists []. split; [reflexivity|]. split; [reflexivity|]. intros [|t] r' H; discriminate.
  - cbn [add_gadget]. cbn [length] in Hbl. rewrite level_scale_ok by nia. cbn [obind]. destruct (Forall_inv HG) as [Ll Wl].
    destruct (add_diagonal_ok w N (wmul w m (2 ^ (w - b * Z.of_nat (S idx)))) k Hw HN lev 0 Wl) as (lev' & El & Ll' & Hl'); [lia|].
    rewrite El. cbn [obind]. destruct (IH (S idx) (Forall_inv_tail HG)) as (res & Er & Lr & Hr); [nia|]. rewrite Er. cbn [obind].
    exists (lev' :: res). split; [reflexivity|]. split; [cbn; lia|]. intros [|j] lv Hj; cbn [nth_error] in *.
    + injection Hj as <-. exists lev. split; [reflexivity|]. split; [lia|]. intros i row' Hi.
      destruct (Hl' i row' Hi) as (row & E1 & W1 & R1). exists row. split; [exact E1|]. split; [exact W1|]. intros key Lk Hk.
      rewrite (R1 key Lk Hk). cbn [Nat.add]. rewrite Nat.add_0_r. unfold diag_value, ggsw_row_value. set (sc := 2 ^ (w - _)).
      destruct (nth_error key i).
      * intros x. change (rcoef (radd ?u ?v) ?t) with (rcoef u t + rcoef v t). change (rcoef (rscal ?u ?v) ?t) with (u * rcoef v t).
        rewrite (wmul_eqm w m sc). reflexivity.
      * apply req_coefs. intros x Hx. change (rcoef (radd ?u ?v) ?t) with (rcoef u t + rcoef v t). rewrite !rcoef_rconst by assumption.
        destruct (x =? 0); [|reflexivity]. rewrite (wmul_eqm w m sc). reflexivity.
    + destruct (Hr j lv Hj) as (l0 & E1 & L1 & R1). exists l0. split; [exact E1|]. split; [exact L1|].
      replace (idx + S j)%nat with (S idx + j)%nat by lia. exact R1.
Qed.

Lemma map_const_zero (l : list Z) : map (fun _ => 0) l = repeat 0 (length l).
Proof. induction l as [|a l IH]; [reflexivity|]. cbn. rewrite IH. reflexivity. Qed.

Lemma rdot_zeros N q : forall k key, req q (rdot N (repeat (repeat 0 N) k) key) (rzero N).
Proof.
  induction k as [|k IH]; intros [|s key]; try (intros x; reflexivity). cbn [repeat rdot]. rewrite IH, R_zero.
  intros x. apply eqm_eq. cbn. rewrite sumz_zero; lia.
Qed.

Lemma zeroed_masks w N : forall masks, Forall (poly_wf w N) masks -> map (map (fun _ : Z => 0)) masks = repeat (repeat 0 N) (length masks).
Proof.
  induction masks as [|a masks IH]; intros H; [reflexivity|]. cbn [map length repeat]. rewrite IH by apply (Forall_inv_tail H).
  rewrite map_const_zero. destruct (Forall_inv H) as [-> _]. reflexivity.
Qed.

Lemma zero_poly_wf w N : 0 <= w -> poly_wf w N (repeat 0 N).
Proof.
  intros Hw. split; [apply repeat_length|]. apply Forall_forall. intros y Hy. apply repeat_spec in Hy. subst y. split; [lia|apply pow2_pos; assumption].
Qed.

Lemma zeros_wf w N k body : 0 <= w -> poly_wf w N body -> glwe_wf w k N (repeat (repeat 0 N) k ++ [body]).
Proof.
  intros Hw Hb. apply glwe_wf_snoc. split; [apply repeat_length|]. split; [|assumption]. apply Forall_forall. intros x Hx.
  apply repeat_spec in Hx. subst x. apply zero_poly_wf. assumption.
Qed.

Lemma gphase_zeros N q k key body : req q (gphase N key (repeat (repeat 0 N) k ++ [body])) (R N body).
Proof. rewrite gphase_snoc, rdot_zeros. intros x. apply eqm_eq. cbn. lia. Qed.

Lemma omap_Forall2 {A B} (f : A -> outcome B) (P : A -> B -> Prop) : forall l, (forall a, In a l -> exists b, f a = Ret b /\ P a b) ->
  exists r, omap f l = Ret r /\ Forall2 P l r.
Proof.
  induction l as [|a l IH]; intros H; [exists []; split; [reflexivity|constructor]|].
  destruct (H a (or_introl eq_refl)) as (b & Eb & Pb). destruct IH as (r & Er & Pr); [intros x Hx; apply H; right; assumption|].
  exists (b :: r). cbn [omap]. rewrite Eb. cbn [obind]. rewrite Er. split; [reflexivity|constructor; assumption].
Qed.

Lemma Forall2_len {A B} (P : A -> B -> Prop) l r : Forall2 P l r -> length l = length r.
Proof. induction 1; cbn; congruence. Qed.
Lemma Forall2_nth {A B} (P : A -> B -> Prop) l r : Forall2 P l r -> forall i b, nth_error r i = Some b -> exists a, nth_error l i = Some a /\ P a b.
Proof.
  induction 1 as [|a b l r Hab _ IH]; intros [|i] c Hc; try discriminate; cbn [nth_error] in *.
  - injection Hc as <-. eauto.
  - apply IH. assumption.
Qed.
Lemma Forall2_nth_l {A B} (P : A -> B -> Prop) l r : Forall2 P l r -> forall i a, nth_error l i = Some a -> exists b, nth_error r i = Some b /\ P a b.
Proof.
  induction 1 as [|a b l r Hab _ IH]; intros [|i] c Hc; try discriminate; cbn [nth_error] in *.
  - injection Hc as <-. eauto.
  - apply IH. assumption.
Qed.

(** Writing a trivial encryption of m into a GGSW ciphertext: whatever the masks were, the rows become
    encryptions under every key, the "noise" being what the bodies held before. *)
Theorem C25_trivial_fill : forall p w N b m k output, let l := length output in
  0 <= w -> w < 2 ^ 64 -> (0 < N)%nat -> 0 < b -> b * Z.of_nat l <= w -> ggsw_wf w k N l output ->
  exists G, ggsw_fill_with_trivial_encryption p w b output m = Ret G /\ ggsw_wf w k N l G /\
    forall key, length key = k -> Forall (fun s => length s = N) key ->
      ggsw_encrypts w b N key m (fun j i => last (nth i (nth (j - 1) output []) []) []) G.
Proof.
  intros p w N b m k output l Hw Hw64 HN Hb Hbl [_ Hwf]. unfold ggsw_fill_with_trivial_encryption.
  set (Q := fun row row' : list (list Z) => exists body, poly_wf w N body /\ last row [] = body /\ row' = repeat (repeat 0 N) k ++ [body]).
  assert (HQ : forall row, glwe_wf w k N row -> exists row', zero_mask row = Ret row' /\ Q row row').
  { intros row Hr. destruct (wf_snoc_dec _ _ _ _ Hr) as (masks & body & -> & Lm & Wm & Wb). unfold zero_mask. rewrite glwe_split_snoc. cbn [obind].
    rewrite (zeroed_masks w N) by assumption. rewrite Lm. eexists. split; [reflexivity|]. exists body. rewrite last_last. auto. }
  destruct (omap_Forall2 (omap zero_mask) (Forall2 Q) output) as (out & Eo & Ho).
  { intros lev Hin. rewrite Forall_forall in Hwf. destruct (Hwf lev Hin) as [_ Wl]. apply omap_Forall2. intros row Hrow.
    rewrite Forall_forall in Wl. apply HQ. apply Wl. assumption. }
  rewrite Eo. cbn [obind]. pose proof (Forall2_len _ _ _ Ho) as Lo.
  destruct (add_gadget_ok p w N b m k Hw Hw64 HN Hb out 0) as (G & EG & LG & HG).
  { apply Forall_forall. intros lev' Hin. apply In_nth_error in Hin. destruct Hin as [j Hj]. destruct (Forall2_nth _ _ _ Ho j lev' Hj) as (lev & E1 & F).
    rewrite Forall_forall in Hwf. destruct (Hwf lev (nth_error_In _ _ E1)) as [Ll _]. split; [rewrite <- (Forall2_len _ _ _ F); exact Ll|].
    apply Forall_forall. intros row' Hin. apply In_nth_error in Hin. destruct Hin as [i Hi]. destruct (Forall2_nth _ _ _ F i row' Hi) as (row & _ & body & Wb & _ & ->).
    apply zeros_wf; assumption. }
  { cbn [Nat.add]. rewrite <- Lo. exact Hbl. }
  exists G. split; [exact EG|]. split.
  - split; [unfold l; congruence|]. apply Forall_forall. intros lev' Hin. apply In_nth_error in Hin. destruct Hin as [j Hj].
    destruct (HG j lev' Hj) as (lev & _ & Ll & Hr). split; [exact Ll|]. apply Forall_forall. intros row' Hin. apply In_nth_error in Hin. destruct Hin as [i Hi].
    destruct (Hr i row' Hi) as (row & _ & Wr & _). exact Wr.
  - intros key Lk Hk j lev' i row' Hj Hi. destruct (HG j lev' Hj) as (lev & E1 & Ll & Hr). destruct (Hr i row' Hi) as (row & E2 & _ & Rr).
    rewrite (Rr key Lk Hk). destruct (Forall2_nth _ _ _ Ho j lev E1) as (lev0 & E3 & F). destruct (Forall2_nth _ _ _ F i row E2) as (row0 & E4 & body & _ & Hb0 & ->).
    rewrite gphase_zeros. replace (S j - 1)%nat with j by lia.
    rewrite (nth_error_nth _ _ _ E3), (nth_error_nth _ _ _ E4), Hb0. intros x. apply eqm_eq. cbn [Nat.add]. cbn. lia.
Qed.
Print Assumptions C25_trivial_fill.

(** A new trivial encryption has no noise at all. *)
Theorem C25_trivial : forall p w N b m k l, 0 <= w -> w < 2 ^ 64 -> (0 < N)%nat -> 0 < b -> b * Z.of_nat l <= w ->
  exists G, ggsw_new_trivial_encryption p w N (S k) l b m = Ret G /\ ggsw_wf w k N l G /\
    forall key, length key = k -> Forall (fun s => length s = N) key -> ggsw_encrypts w b N key m (fun _ _ => repeat 0 N) G.
Proof.
  intros p w N b m k l Hw Hw64 HN Hb Hbl. unfold ggsw_new_trivial_encryption.
  assert (Hwf : ggsw_wf w k N (length (ggsw_allocate N (S k) l)) (ggsw_allocate N (S k) l)).
  { split; [reflexivity|]. unfold ggsw_allocate. apply Forall_forall. intros lev Hlev. apply repeat_spec in Hlev. subst lev.
    split; [apply repeat_length|]. apply Forall_forall. intros row Hr. apply repeat_spec in Hr. subst row.
    split; [apply repeat_length|]. apply Forall_forall. intros a Ha. apply repeat_spec in Ha. subst a. apply zero_poly_wf. assumption. }
  assert (Ll : length (ggsw_allocate N (S k) l) = l) by apply repeat_length.
  destruct (C25_trivial_fill p w N b m k (ggsw_allocate N (S k) l)) as (G & EG & WG & HG); try assumption; [rewrite Ll; assumption|].
  exists G. split; [exact EG|]. rewrite Ll in WG. split; [exact WG|]. intros key Lk Hk j lev i row Hj Hi.
  rewrite (HG key Lk Hk j lev i row Hj Hi). unfold ggsw_allocate.
  assert (Hjl : (j < l)%nat) by (destruct WG as [<- _]; apply nth_error_Some; congruence).
  assert (Hik : (i < S k)%nat).
  { destruct WG as [_ WG]. rewrite Forall_forall in WG. destruct (WG lev (nth_error_In _ _ Hj)) as [<- _]. apply nth_error_Some. congruence. }
  replace (S j - 1)%nat with j by lia.
  rewrite (nth_indep _ [] (repeat (repeat (repeat 0 N) (S k)) (S k))) by (rewrite repeat_length; lia). rewrite nth_repeat.
  rewrite (nth_indep _ [] (repeat (repeat 0 N) (S k))) by (rewrite repeat_length; lia). rewrite nth_repeat.
  replace (repeat (repeat 0 N) (S k)) with (repeat (repeat 0 N) k ++ [repeat 0 N]) by (rewrite <- repeat_cons; reflexivity).
  rewrite last_last. reflexivity.
Qed.
Print Assumptions C25_trivial.

(** Writing a trivial encryption into a ciphertext that was used before does not give a noiseless
    encryption: the bodies are not cleared. *)
Theorem C25_trivial_fill_keeps_bodies_refuted : exists output G, ggsw_wf 32 1 2 1 output /\
  ggsw_fill_with_trivial_encryption Debug 32 4 output 1 = Ret G /\
  ~ ggsw_encrypts 32 4 2 [[1; 0]] 1 (fun _ _ => [0; 0]) G.
Proof.
  exists [[[[5; 6]; [7; 8]]; [[1; 2]; [3; 4]]]], [[[[2 ^ 28; 0]; [7; 8]]; [[0; 0]; [2 ^ 28 + 3; 4]]]].
  split; [|split; [vm_compute; reflexivity|]].
  - split; [reflexivity|]. repeat constructor; unfold is_word; lia.
  - intros H. specialize (H O _ O _ eq_refl eq_refl 1). vm_compute in H. discriminate.
Qed.
Print Assumptions C25_trivial_fill_keeps_bodies_refuted.

(** The noisy trivial encryption: the rows are encryptions under every key with the drawn noise, in the
    order of the rows. *)
Lemma map_gen_Forall2 {A} (f : A -> egen -> outcome (A * egen)) (P : A -> A -> Prop) (I : egen -> Prop) :
  forall l g r g', (forall a g x g1, In a l -> I g -> f a g = Ret (x, g1) -> P a x /\ I g1) -> I g ->
  map_gen f l g = Ret (r, g') -> Forall2 P l r /\ I g'.
Proof.
  induction l as [|a l IH]; intros g r g' H Hg E; cbn [map_gen] in E.
  - injection E as <- <-. split; [constructor|assumption].
  - destruct (f a g) as [[x g1]|] eqn:Ef; [|discriminate]. cbn [obind] in E.
    destruct (map_gen f l g1) as [[xs g2]|] eqn:Em; [|discriminate]. cbn [obind] in E. injection E as <- <-.
    destruct (H a g x g1 (or_introl eq_refl) Hg Ef) as [Pa I1].
    destruct (IH g1 xs g2) as [F I2]; [intros; eapply H; eauto; right; assumption|assumption|assumption|]. split; [constructor; assumption|assumption].
Qed.

Theorem C25_noisy_trivial : forall p w gauss N b m k output g G g', let l := length output in
  0 < w -> w < 2 ^ 64 -> (0 < N)%nat -> gauss_ok w gauss -> 0 < b -> b * Z.of_nat l <= w -> ggsw_wf w k N l output ->
  trivial_encrypt_constant_ggsw p w gauss b output m g = Ret (G, g') ->
  ggsw_wf w k N l G /\ eg_mask g' = eg_mask g /\
  exists noise, (forall j i, (1 <= j <= l)%nat -> (i <= k)%nat -> exists n1 n2, gaussian_tensor gauss N n1 = Ret (noise j i, n2)) /\
    forall key, length key = k -> Forall (fun s => length s = N) key -> ggsw_encrypts w b N key m noise G.
Proof.
  intros p w gauss N b m k output g G g' l Hw Hw64 HN Hga Hb Hbl [_ Hwf] E. unfold trivial_encrypt_constant_ggsw in E.
  destruct (map_gen (map_gen (zero_mask_noise_body gauss)) output g) as [[out g1]|] eqn:Eo; [|discriminate]. cbn [obind] in E.
  destruct (add_gadget p w b m 0 out) as [G'|] eqn:Eg; [|discriminate]. cbn [obind] in E. injection E as -> ->.
  set (Q := fun row row' : list (list Z) => exists es n1 n2, gaussian_tensor gauss N n1 = Ret (es, n2) /\ poly_wf w N es /\ row' = repeat (repeat 0 N) k ++ [es]).
  assert (HQ : forall row ga row' gb, glwe_wf w k N row -> zero_mask_noise_body gauss row ga = Ret (row', gb) -> Q row row' /\ eg_mask gb = eg_mask ga).
  { intros row ga row' gb Hr Er. destruct (wf_snoc_dec _ _ _ _ Hr) as (masks & body & -> & Lm & Wm & Wb). unfold zero_mask_noise_body in Er. rewrite glwe_split_snoc in Er. cbn [obind] in Er.
    destruct (random_noises gauss (length body) ga) as [[es gc]|] eqn:En; [|discriminate]. cbn [obind] in Er. injection Er as <- <-.
    destruct Wb as [Lb _]. rewrite Lb in En. apply (random_noises_inv w) in En; [|assumption]. destruct En as (E1 & E2 & E3).
    rewrite (zeroed_masks w N) by assumption. rewrite Lm. split; [|exact E1]. exists es, (eg_noise ga), (eg_noise gc). auto. }
  assert (Ho : Forall2 (Forall2 Q) output out /\ eg_mask g' = eg_mask g).
  { apply (map_gen_Forall2 (map_gen (zero_mask_noise_body gauss)) (Forall2 Q) (fun x => eg_mask x = eg_mask g) output g); [|reflexivity|assumption].
    intros lev ga lev' gb Hin Hga' Em. rewrite Forall_forall in Hwf. destruct (Hwf lev Hin) as [_ Wl].
    apply (map_gen_Forall2 (zero_mask_noise_body gauss) Q (fun x => eg_mask x = eg_mask g) lev ga); [|assumption|assumption].
    intros row gc row' gd Hrow Hgc Er. rewrite Forall_forall in Wl. destruct (HQ row gc row' gd (Wl row Hrow) Er) as [HQ1 HQ2]. split; [exact HQ1|congruence]. }
  destruct Ho as [Ho Hmask]. pose proof (Forall2_len _ _ _ Ho) as Lo.
  destruct (add_gadget_ok p w N b m k ltac:(lia) Hw64 HN Hb out 0) as (G' & EG & LG & HG).
  { apply Forall_forall. intros lev' Hin. apply In_nth_error in Hin. destruct Hin as [j Hj]. destruct (Forall2_nth _ _ _ Ho j lev' Hj) as (lev & E1 & F).
    rewrite Forall_forall in Hwf. destruct (Hwf lev (nth_error_In _ _ E1)) as [Ll _]. split; [rewrite <- (Forall2_len _ _ _ F); exact Ll|].
    apply Forall_forall. intros row' Hin. apply In_nth_error in Hin. destruct Hin as [i Hi]. destruct (Forall2_nth _ _ _ F i row' Hi) as (row & _ & es & _ & _ & _ & Wb & ->).
    apply zeros_wf; [lia|assumption]. }
  { cbn [Nat.add]. rewrite <- Lo. exact Hbl. }
  rewrite Eg in EG. injection EG as <-. split; [|split; [exact Hmask|]].
  - split; [unfold l; congruence|]. apply Forall_forall. intros lev' Hin. apply In_nth_error in Hin. destruct Hin as [j Hj].
    destruct (HG j lev' Hj) as (lev & _ & Ll & Hr). split; [exact Ll|]. apply Forall_forall. intros row' Hin. apply In_nth_error in Hin. destruct Hin as [i Hi].
    destruct (Hr i row' Hi) as (row & _ & Wr & _). exact Wr.
  - exists (fun j i => last (nth i (nth (j - 1) out []) []) []). split.
    + intros j i Hj Hi. destruct (nth_error output (j - 1)) as [lev|] eqn:E1; [|apply nth_error_None in E1; unfold l in *; lia].
      destruct (Forall2_nth_l _ _ _ Ho _ _ E1) as (lev' & E2 & F). rewrite Forall_forall in Hwf. destruct (Hwf lev (nth_error_In _ _ E1)) as [Ll _].
      destruct (nth_error lev i) as [row|] eqn:E3; [|apply nth_error_None in E3; lia].
      destruct (Forall2_nth_l _ _ _ F _ _ E3) as (row' & E4 & es & n1 & n2 & En & _ & ->).
      rewrite (nth_error_nth _ _ _ E2), (nth_error_nth _ _ _ E4), last_last. eauto.
    + intros key Lk Hk j lev' i row' Hj Hi. destruct (HG j lev' Hj) as (lev & E1 & Ll & Hr). destruct (Hr i row' Hi) as (row & E2 & _ & Rr).
      rewrite (Rr key Lk Hk). destruct (Forall2_nth _ _ _ Ho j lev E1) as (lev0 & E3 & F). destruct (Forall2_nth _ _ _ F i row E2) as (row0 & E4 & es & _ & _ & _ & _ & ->).
      rewrite gphase_zeros. replace (S j - 1)%nat with j by lia.
      rewrite (nth_error_nth _ _ _ E1), (nth_error_nth _ _ _ E2), last_last. intros x. apply eqm_eq. cbn [Nat.add]. cbn. lia.
Qed.
Print Assumptions C25_noisy_trivial.

(** ** Bootstrap keys: one GGSW encryption per bit of the LWE key *)
Lemma bsk_loop_inv p w gauss key N b : forall out lwe_key gens res, length lwe_key = length out -> length gens = length out ->
  bsk_loop p w gauss key N b out lwe_key gens = Ret res ->
  length res = length out /\
  forall t G s g, nth_error out t = Some G -> nth_error lwe_key t = Some s -> nth_error gens t = Some g ->
    exists x g', nth_error res t = Some x /\ encrypt_constant_ggsw p w gauss key N b G s g = Ret (x, g').
Proof.
  induction out as [|G out IH]; intros [|s lk] [|g gens] res L1 L2 E; try discriminate; cbn [bsk_loop] in E.
  - injection E as <-. split; [reflexivity|]. intros [|t] G s g H; discriminate.
  - destruct (encrypt_constant_ggsw p w gauss key N b G s g) as [[x g1]|] eqn:Ex; [|discriminate]. cbn [obind] in E.
    destruct (bsk_loop p w gauss key N b out lk gens) as [xs|] eqn:Exs; [|discriminate]. cbn [obind] in E. injection E as <-.
    destruct (IH lk gens xs) as [Lx Hx]; [cbn in L1; lia|cbn in L2; lia|assumption|]. split; [cbn; lia|].
    intros [|t] G' s' g' H1 H2 H3; cbn [nth_error] in *.
    + injection H1 as <-. injection H2 as <-. injection H3 as <-. eauto.
    + apply (Hx t G' s' g'); assumption.
Qed.

Lemma zero_ggsw_wf w k N l G : 0 <= w -> ggsw_wf w k N l G -> ggsw_wf w k N l (zero_ggsw G).
Proof.
  intros Hw [L H]. unfold zero_ggsw. split; [rewrite map_length; exact L|]. apply Forall_forall. intros lev' Hin.
  apply in_map_iff in Hin. destruct Hin as (lev & <- & Hin). rewrite Forall_forall in H. destruct (H lev Hin) as [Ll Wl].
  split; [rewrite map_length; exact Ll|]. apply Forall_forall. intros row' Hr. apply in_map_iff in Hr. destruct Hr as (row & <- & Hr).
  rewrite Forall_forall in Wl. destruct (Wl row Hr) as [Lr Wr]. rewrite (zeroed_masks w N) by assumption. rewrite Lr.
  split; [apply repeat_length|]. apply Forall_forall. intros a Ha. apply repeat_spec in Ha. subst a. apply zero_poly_wf. assumption.
Qed.

Theorem C25_bootstrap_key : forall p w gauss N key b l output lwe_key g bsk g',
  let k := length key in let n := length lwe_key in
  0 < w -> w mod 8 = 0 -> w < 2 ^ 64 -> (0 < N)%nat -> (0 < k)%nat -> (0 < l)%nat -> (0 < n)%nat -> gauss_ok w gauss -> egen_ok g -> gkey_ok p N key ->
  0 < b -> b * Z.of_nat l <= w -> length output = n -> Forall (ggsw_wf w k N l) output ->
  Z.of_nat n * (Z.of_nat l * ((Z.of_nat k + 1) * (Z.of_nat k * (Z.of_nat N * (w / 8))))) < 2 ^ 64 ->
  Z.of_nat n * (Z.of_nat l * ((Z.of_nat k + 1) * (Z.of_nat N * 256))) < 2 ^ 64 ->
  fill_with_new_bootstrap_key p w gauss key N l b output lwe_key g = Ret (bsk, g') ->
  length bsk = n /\
  forall t G s, nth_error bsk t = Some G -> nth_error lwe_key t = Some s ->
    exists noise, ggsw_wf w k N l G /\ ggsw_encrypts w b N key s noise G /\
      forall j i, (1 <= j <= l)%nat -> (i <= k)%nat ->
        exists ng, gaussian_tensor gauss N (row_noise_bytes N g (t * (l * (k + 1)) + row_number k j i)) = Ret (noise j i, ng).
Proof.
  intros p w gauss N key b l output lwe_key g bsk g' k n Hw Hm8 Hw64 HN Hk0 Hl0 Hn0 Hga Hg Hk Hb Hbl Ln Hout S1 S2 E.
  assert (Hb8 : 0 < w / 8) by lia.
  unfold fill_with_new_bootstrap_key in E. rewrite ck_dim_eq_ok in E by exact Ln. cbn [obind] in E. fold k n in E.
  rewrite fork_bsk_eq in E by assumption.
  destruct (expect_fork _) as [[gens g1]|] eqn:Ef; [|discriminate]. cbn [obind] in E.
  destruct (bsk_loop _ _ _ _ _ _ _ _ gens) as [rs|] eqn:Eb; [|discriminate]. cbn [obind] in E. injection E as -> ->.
  apply eg_fork_inv in Ef; [|nia|lia|assumption|assumption]. destruct Ef as (-> & _ & _ & _ & _ & Hle & _).
  apply bsk_loop_inv in Eb; [|rewrite map_length; symmetry; exact Ln|rewrite children_length, map_length; symmetry; exact Ln].
  destruct Eb as [Lr Hr]. rewrite map_length in Lr. split; [congruence|]. intros t G s Ht Hs.
  assert (Htn : (t < n)%nat) by (apply nth_error_Some; congruence).
  destruct (nth_error output t) as [o|] eqn:Eo; [|apply nth_error_None in Eo; lia].
  destruct (Hr t (zero_ggsw o) s _ (map_nth_error zero_ggsw _ _ Eo) Hs (child_nth _ _ _ _ _ Htn)) as (x & gx & Ex & Ee).
  rewrite Ht in Ex. injection Ex as <-.
  assert (Wo : ggsw_wf w k N l (zero_ggsw o)).
  { apply zero_ggsw_wf; [lia|]. rewrite Forall_forall in Hout. apply Hout. apply (nth_error_In _ _ Eo). }
  pose proof (proj1 Wo) as Lo.
  apply C25_rows in Ee; try assumption; try (rewrite Lo; assumption || (split; nia)).
  destruct Ee as (noise & WG & HG & Hn & _). exists noise. rewrite Lo in WG, Hn. split; [exact WG|]. split; [exact HG|]. intros j i Hj Hi.
  destruct (Hn j i Hj Hi) as (ng & En). exists ng. rewrite <- En. f_equal. unfold row_noise_bytes, child, bg_window.
  cbn [eg_noise bg_pos bg_table]. fold k. f_equal; lia.
Qed.
Print Assumptions C25_bootstrap_key.

(** A concrete encryption: w = 32, base 2^4, two levels, k = 1, N = 2. *)
Definition demo_egen : egen := EG (BG (fun i => (7 * i + 3) mod 256) 0 1000) (BG (fun i => (i * i + i / 512 + 1) mod 256) 0 10000).
Lemma ggsw_zero_wf w k N l : 0 <= w -> ggsw_wf w k N l (ggsw_allocate N (S k) l).
Proof.
  intros Hw. unfold ggsw_allocate. split; [apply repeat_length|]. apply Forall_forall. intros lev Hlev. apply repeat_spec in Hlev. subst lev.
  split; [apply repeat_length|]. apply Forall_forall. intros row Hr. apply repeat_spec in Hr. subst row.
  split; [apply repeat_length|]. apply Forall_forall. intros a Ha. apply repeat_spec in Ha. subst a. apply zero_poly_wf. assumption.
Qed.
Example C25_case :
  let key := [[1; 0]] in
  egen_ok demo_egen /\ gkey_ok Debug 2 key /\ gauss_ok 32 demo_gauss_word /\ ggsw_wf 32 1 2 2 (ggsw_allocate 2 2 2) /\ ggsw_bytes_small 32 2 1 2 /\
  match encrypt_constant_ggsw Debug 32 demo_gauss_word key 2 4 (ggsw_allocate 2 2 2) 3 demo_egen with
  | Ret (G, g') => map (map (decrypt_glwe Debug 32 key 2)) G =
      [[Ret [2 ^ 32 - 3 * 2 ^ 28 + 1; 2]; Ret [3 * 2 ^ 28 + 2; 3]];
       [Ret [2 ^ 32 - 3 * 2 ^ 24 + 3; 4]; Ret [3 * 2 ^ 24 + 4; 5]]] /\ bg_pos (eg_mask g') = 32 /\ bg_pos (eg_noise g') = 2048
  | Panic => False
  end /\
  match fill_with_new_bootstrap_key Debug 32 demo_gauss_word key 2 2 4 [ggsw_allocate 2 2 2; ggsw_allocate 2 2 2] [1; 0] demo_egen with
  | Ret (G, g') => map (map (map (decrypt_glwe Debug 32 key 2))) G =
      [[[Ret [2 ^ 32 - 2 ^ 28 + 1; 2]; Ret [2 ^ 28 + 2; 3]]; [Ret [2 ^ 32 - 2 ^ 24 + 3; 4]; Ret [2 ^ 24 + 4; 5]]];
       [[Ret [5; 6]; Ret [6; 7]]; [Ret [7; 8]; Ret [8; 9]]]] /\ bg_pos (eg_mask g') = 64 /\ bg_pos (eg_noise g') = 4096
  | Panic => False
  end /\
  ggsw_new_trivial_encryption Debug 32 2 2 2 4 3 = Ret [[[[3 * 2 ^ 28; 0]; [0; 0]]; [[0; 0]; [3 * 2 ^ 28; 0]]]; [[[3 * 2 ^ 24; 0]; [0; 0]]; [[0; 0]; [3 * 2 ^ 24; 0]]]].
Proof.
  cbv zeta. split; [intros q; cbn; lia|]. split.
  { split; [repeat constructor|]. right. repeat (constructor; [bin|]). constructor. }
  split; [apply demo_gauss_word_ok; lia|]. split; [apply ggsw_zero_wf; lia|]. split; [split; vm_compute; reflexivity|].
  split; [vm_compute; repeat split|]. split; vm_compute; repeat split.
Qed.
