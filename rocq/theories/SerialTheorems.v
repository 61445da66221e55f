(** * C47: serialization *)
From Coq Require Import String.
From Verif Require Import Base Word WordFacts RandomModel RandomProofs GlweModel GlweProofs SerialModel SerialSpec.
Local Open Scope list_scope.

(** ** Lemmas *)
Lemma Ret_inj {A} (x y : A) : Ret x = Ret y -> x = y.
Proof. congruence. Qed.
Lemma le_bytes_length k v : length (le_bytes k v) = k.
Proof. revert v. induction k; intros v; cbn [le_bytes length]; [reflexivity|f_equal; auto]. Qed.
Lemma le_bytes_byte k v : Forall byte (le_bytes k v).
Proof. revert v. induction k; intros v; cbn [le_bytes]; constructor; [unfold byte; apply Z.mod_pos_bound; lia|auto]. Qed.
Lemma le_bytes_value k v : 0 <= v < 256 ^ Z.of_nat k -> le_value (le_bytes k v) = v.
Proof.
  revert v. induction k as [|k IH]; intros v H.
  - cbn in *. lia.
  - cbn [le_bytes le_value]. rewrite Nat2Z.inj_succ, Z.pow_succ_r in H by lia. rewrite IH.
    + pose proof (Z.div_mod v 256). lia.
    + split; [apply Z.div_pos; lia|apply Z.div_lt_upper_bound; lia].
Qed.
Lemma le_value_bytes l : Forall byte l -> le_bytes (length l) (le_value l) = l.
Proof.
  induction 1 as [|b l Hb _ IH]; [reflexivity|]. cbn [length le_value le_bytes]. unfold byte in Hb.
  replace (b + 256 * le_value l) with (b + le_value l * 256) by lia. rewrite Z_mod_plus_full, Z.mod_small by lia.
  rewrite Z.div_add, Z.div_small, Z.add_0_l, IH by lia. reflexivity.
Qed.

Lemma take_bytes_app k : forall l rest, length l = k -> take_bytes k (l ++ rest) = Ret (Some (l, rest)).
Proof.
  induction k as [|k IH]; intros [|b l] rest L; cbn in L; try discriminate; [reflexivity|].
  cbn [take_bytes app]. unfold rbind. rewrite IH by congruence. reflexivity.
Qed.
Lemma take_bytes_inv k : forall bs, match take_bytes k bs with
  | Ret (Some (l, rest)) => bs = l ++ rest /\ length l = k
  | Ret None => (length bs < k)%nat
  | Panic => False end.
Proof.
  induction k as [|k IH]; intros bs; cbn [take_bytes]; [split; reflexivity|].
  destruct bs as [|b bs]; [cbn; lia|]. unfold rbind. specialize (IH bs). destruct (take_bytes k bs) as [[[l rest]|]|]; cbn [obind]; [|cbn; lia|exact IH].
  unfold rret. destruct IH as [-> L]. cbn [app length]. split; [reflexivity|congruence].
Qed.
Lemma get_word_le k v rest : 0 <= v < 256 ^ Z.of_nat k -> get_word k (le_bytes k v ++ rest) = Ret (Some (v, rest)).
Proof. intros H. unfold get_word, rbind. rewrite take_bytes_app by apply le_bytes_length. cbn [obind]. unfold rret. rewrite le_bytes_value by exact H. reflexivity. Qed.
Lemma get_word_inv k bs : Forall byte bs -> match get_word k bs with
  | Ret (Some (v, rest)) => bs = le_bytes k v ++ rest /\ 0 <= v < 256 ^ Z.of_nat k /\ Forall byte rest
  | Ret None => (length bs < k)%nat
  | Panic => False end.
Proof.
  intros H. unfold get_word, rbind. pose proof (take_bytes_inv k bs) as T. destruct (take_bytes k bs) as [[[l rest]|]|]; cbn [obind]; try exact T.
  destruct T as [-> L]. unfold rret. apply Forall_app in H. destruct H as [Hl Hr]. subst k. rewrite le_value_bytes by exact Hl.
  split; [reflexivity|]. split; [apply le_value_range; exact Hl|exact Hr].
Qed.

Lemma get_many_app {A} (get : reader A) (enc : A -> list Z) vs :
  (forall v rest, In v vs -> get (enc v ++ rest) = Ret (Some (v, rest))) ->
  forall rest, get_many get (length vs) (concat (map enc vs) ++ rest) = Ret (Some (vs, rest)).
Proof.
  induction vs as [|v vs IH]; intros H rest; [reflexivity|]. cbn [length map concat get_many]. unfold rbind at 1. rewrite <- app_assoc, H by (left; reflexivity).
  cbn [obind]. unfold rbind. rewrite IH by (intros; apply H; right; assumption). reflexivity.
Qed.
Lemma put_len_get n rest : Z.of_nat n < 2 ^ 64 -> get_word 8 (put_len n ++ rest) = Ret (Some (Z.of_nat n, rest)).
Proof. intros H. apply get_word_le. change (256 ^ Z.of_nat 8) with (2 ^ 64). lia. Qed.
Lemma get_vec_app {A} (get : reader A) (enc : A -> list Z) vs : Z.of_nat (length vs) < 2 ^ 64 ->
  (forall v rest, In v vs -> get (enc v ++ rest) = Ret (Some (v, rest))) ->
  forall rest, get_vec get ((put_len (length vs) ++ concat (map enc vs)) ++ rest) = Ret (Some (vs, rest)).
Proof.
  intros L H rest. unfold get_vec, rbind. rewrite <- app_assoc, put_len_get by exact L. cbn [obind]. rewrite Nat2Z.id. apply get_many_app. exact H.
Qed.
Lemma get_c64_app c rest : is_word 64 (fst c) /\ is_word 64 (snd c) -> get_c64 (put_c64 c ++ rest) = Ret (Some (c, rest)).
Proof.
  intros [H1 H2]. unfold get_c64, put_c64, rbind. rewrite <- app_assoc, get_word_le by exact H1. cbn [obind]. rewrite get_word_le by exact H2. cbn [obind].
  destruct c. reflexivity.
Qed.
Lemma get_poly_app n q rest : Z.of_nat (length q) = n -> n < 2 ^ 64 -> Forall (fun c => is_word 64 (fst c) /\ is_word 64 (snd c)) q ->
  get_poly n n (put_poly q ++ rest) = Ret (Some (q, rest)).
Proof.
  intros L Hn H. unfold get_poly. rewrite Z.eqb_refl. cbn [negb]. unfold rbind, put_poly. rewrite get_vec_app; [|lia|].
  - cbn [obind]. rewrite L, Z.eqb_refl. reflexivity.
  - intros c rest' Hc. apply get_c64_app. rewrite Forall_forall in H. apply H. exact Hc.
Qed.
Lemma get_polys_app n : forall qs left rest, n < 2 ^ 64 -> Z.of_nat (length qs) <= left ->
  Forall (fun q => Z.of_nat (length q) = n /\ Forall (fun c => is_word 64 (fst c) /\ is_word 64 (snd c)) q) qs ->
  get_polys n n (length qs) left (concat (map put_poly qs) ++ rest) = Ret (Some (qs, rest)).
Proof.
  induction qs as [|q qs IH]; intros left rest Hn Hl H; [reflexivity|]. inversion H as [|? ? [L W] H']; subst.
  cbn [length get_polys map concat]. cbn [length] in Hl. destruct (Z.leb_spec left 0); [lia|]. unfold rbind at 1. rewrite <- app_assoc, get_poly_app by (reflexivity || assumption).
  cbn [obind]. unfold rbind. rewrite IH by (try assumption; lia). reflexivity.
Qed.
Lemma power_of_two a : 0 <= a -> is_power_of_two (2 ^ a) = true.
Proof. intros Ha. unfold is_power_of_two. rewrite Z.log2_pow2 by exact Ha. rewrite Z.eqb_refl, Bool.andb_true_r. apply Z.ltb_lt. apply Z.pow_pos_nonneg; lia. Qed.

Lemma fourier_round_trip p N data : valid LFourier (N, data) ->
  exists bs, put_fourier N data = Ret bs /\ forall rest, get_fourier p (bs ++ rest) = Ret (Some ((N, data), rest)).
Proof.
  cbn [valid]. intros (HN & Hev & Hw & Hlen & count & Ec & Hc). unfold put_fourier, get_fourier.
  assert (Hz : N / 2 = 0 -> N = 0) by (clear - Hev HN; lia).
  destruct (Nat.eq_dec count 0) as [->|Hc0].
  - assert (data = []) as -> by (destruct data; [reflexivity|cbn [length] in Ec; clear - Ec; lia]).
    assert (C0 : (if N =? 0 then Ret O else if N / 2 =? 0 then Panic else Ret (Nat.div (length (@nil (Z * Z))) (Z.to_nat (N / 2)))) = Ret O).
    { destruct (Z.eqb_spec N 0) as [|E]; [reflexivity|]. destruct (Z.eqb_spec (N / 2) 0) as [F|F]; [exfalso; auto|].
      cbn [length]. rewrite Nat.div_0_l by (clear - F HN; lia). reflexivity. }
    rewrite C0. cbn [obind Nat.eqb]. eexists. split; [reflexivity|]. intros rest. rewrite <- !app_assoc. unfold rbind.
    rewrite put_len_get by (cbn; lia). cbn [obind]. replace (Z.of_nat (2 + 0) <=? 0) with false by reflexivity.
    rewrite get_word_le by exact HN. cbn [obind]. replace (Z.of_nat (2 + 0) <=? 1) with false by reflexivity.
    rewrite get_word_le by (split; reflexivity || discriminate). cbn [obind]. rewrite Z.mul_0_r, plain_ok by (unfold usize_bits; lia). reflexivity.
  - destruct Hc as [->|(a & Ha & EN)]; [contradiction|].
    assert (EN2 : N / 2 = 2 ^ a). { rewrite EN, Z.pow_add_r by lia. apply Z.div_mul. lia. }
    pose proof (pow2_pos a Ha) as Pa. assert (Hh : 0 < N / 2) by lia.
    assert (EL : length data = (count * Z.to_nat (N / 2))%nat). { apply Nat2Z.inj. rewrite Nat2Z.inj_mul, Z2Nat.id by lia. exact Ec. }
    destruct (Z.eqb_spec N 0) as [E|_]; [exfalso; rewrite E in Hh; discriminate|]. destruct (Z.eqb_spec (N / 2) 0) as [E|_]; [exfalso; lia|].
    set (h := Z.to_nat (N / 2)) in *. assert (Hhp : (0 < h)%nat) by (unfold h; lia).
    rewrite EL, Nat.div_mul by lia. cbn [obind]. destruct (Nat.eqb_spec count 0) as [E|_]; [contradiction|].
    replace (Nat.div (count * h) count) with h by (rewrite Nat.mul_comm, Nat.div_mul by assumption; reflexivity).
    destruct (chunks_spec h count data Hhp EL) as (K1 & K2 & K3). rewrite firstn_all2 by lia.
    eexists. split; [reflexivity|]. intros rest. rewrite <- !app_assoc. unfold rbind at 1.
    assert (Hcs : Z.of_nat count <= Z.of_nat (length data)) by (rewrite EL; clear - Hhp; nia).
    rewrite put_len_get by (clear - Hcs Hlen; lia). cbn [obind]. destruct (Z.leb_spec (Z.of_nat (2 + count)) 0) as [X|_]; [clear - X; lia|].
    unfold rbind at 1. rewrite get_word_le by exact HN. cbn [obind]. destruct (Z.leb_spec (Z.of_nat (2 + count)) 1) as [X|_]; [clear - X; lia|].
    unfold rbind at 1. rewrite get_word_le by (change (256 ^ Z.of_nat 8) with (2 ^ 64); clear - Hcs Hlen; lia). cbn [obind].
    rewrite plain_ok by (unfold usize_bits; rewrite Z.mul_comm, <- Ec; clear - Hlen; lia). cbn [obind].
    destruct (Z.eqb_spec (Z.of_nat count) 0) as [X|_]; [clear - X Hc0; lia|]. unfold fft_new. rewrite EN2, power_of_two by exact Ha. cbn [obind]. rewrite <- EN2.
    rewrite Z.div_mul by (clear - Hc0; lia). destruct (Z.eqb_spec (N / 2) 0) as [X|_]; [clear - X Hh; lia|]. unfold rbind.
    rewrite Nat2Z.id. rewrite <- K1 at 1. rewrite get_polys_app.
    + cbn [obind]. unfold rret. rewrite K3. reflexivity.
    + clear - HN. lia.
    + rewrite K1. clear. lia.
    + rewrite <- K3 in Hw. clear - K2 Hw Hh. induction K2 as [|q qs Lq _ IH]; [constructor|]. cbn [concat] in Hw. apply Forall_app in Hw. destruct Hw. constructor.
      * split; [rewrite Lq; unfold h; lia|assumption].
      * auto.
Qed.

Lemma encode_decode p l : forall v, valid l v -> exists bs, encode l v = Ret bs /\ forall rest, decode p l (bs ++ rest) = Ret (Some (v, rest)).
Proof.
  induction l as [k| | |l IH|a IHa b IHb|]; cbn [val valid encode decode].
  - intros v H. exists (le_bytes k v). split; [reflexivity|]. intros rest. apply get_word_le. exact H.
  - intros [|] _; eexists; (split; [reflexivity|]); reflexivity.
  - intros [] _. exists []. split; reflexivity.
  - intros vs [L H].
    assert (X : exists enc, omap (encode l) vs = Ret (map enc vs) /\ forall v rest, In v vs -> decode p l (enc v ++ rest) = Ret (Some (v, rest))).
    { exists (fun v => match encode l v with Ret bs => bs | Panic => [] end). split.
      - clear L. induction H as [|v vs Hv _ IHv]; [reflexivity|]. cbn [omap map]. destruct (IH v Hv) as (bs & E & _). rewrite E. cbn [obind]. rewrite IHv. reflexivity.
      - intros v rest Hv. rewrite Forall_forall in H. destruct (IH v (H v Hv)) as (bs & E & D). rewrite E. apply D. }
    destruct X as (enc & E1 & E2). rewrite E1. cbn [obind]. eexists. split; [reflexivity|]. intros rest. apply get_vec_app; assumption.
  - intros [x y] [Hx Hy]. cbn [fst snd] in *. destruct (IHa x Hx) as (bx & Ex & Dx). destruct (IHb y Hy) as (yb & Ey & Dy).
    rewrite Ex, Ey. cbn [obind]. eexists. split; [reflexivity|]. intros rest. unfold rbind. rewrite <- app_assoc, Dx. cbn [obind]. rewrite Dy. reflexivity.
  - intros [N data] H. cbn [fst snd]. apply fourier_round_trip. exact H.
Qed.

(** ** Round trip *)
Fixpoint layout_eqb (a b : layout) : bool :=
  match a, b with
  | LWord k, LWord k' => Nat.eqb k k' | LBool, LBool | LUnit, LUnit | LFourier, LFourier => true
  | LVec a, LVec b => layout_eqb a b
  | LPair a a', LPair b b' => layout_eqb a b && layout_eqb a' b'
  | _, _ => false
  end.
Lemma layout_eqb_eq a : forall b, layout_eqb a b = true -> a = b.
Proof.
  induction a; intros b'; destruct b'; cbn; try discriminate; try reflexivity.
  - intros H. apply Nat.eqb_eq in H. congruence.
  - intros H. f_equal. auto.
  - intros H. apply andb_prop in H. destruct H. f_equal; auto.
Qed.
Definition covers (table table' : list (string * layout)) : bool :=
  forallb (fun e => match lookup (owned (fst e)) table' with Some l => layout_eqb (snd e) l | None => false end) table.
Lemma lookup_In {A} name (table : list (string * A)) x : lookup name table = Some x -> In (name, x) table.
Proof.
  induction table as [|[n y] table IH]; cbn; [discriminate|]. destruct (String.eqb_spec n name) as [->|].
  - intros H. injection H as ->. left. reflexivity.
  - intros H. right. auto.
Qed.
Lemma covers_lookup table table' name l : covers table table' = true -> lookup name table = Some l -> lookup (owned name) table' = Some l.
Proof.
  intros C H. apply lookup_In in H. unfold covers in C. rewrite forallb_forall in C. specialize (C _ H). cbn [fst snd] in C.
  destruct (lookup (owned name) table') as [l'|]; [|discriminate]. apply layout_eqb_eq in C. congruence.
Qed.

(** Whatever the default engine writes for an entity (or for a view) is read back as the same value by the deserialization of that entity (of the entity
    that owns the data), whatever follows the bytes. *)
Theorem C47_default_round_trip : forall name l, lookup name default_serialized = Some l ->
  lookup (owned name) default_deserialized = Some l /\
  forall p v, valid l v -> exists bytes, serialize l v = Ret bytes /\ Forall byte bytes /\
    forall trailing, deserialize p l (bytes ++ trailing) = Ret (inl v).
Proof.
  intros name l H. split; [revert H; apply covers_lookup; vm_compute; reflexivity|].
  intros p v V. destruct (encode_decode p l v V) as (bs & E & D). unfold serialize. rewrite E. cbn [obind]. eexists. split; [reflexivity|]. split.
  - apply Forall_app. split; [apply le_bytes_byte|].
    assert (X : forall l v bs, encode l v = Ret bs -> Forall byte bs); [|exact (X l v bs E)]. clear.
    induction l as [k| | |l IH|a IHa b IHb|]; cbn [val encode]; intros v bs E.
    + apply Ret_inj in E; subst bs. apply le_bytes_byte.
    + apply Ret_inj in E; subst bs. constructor; [|constructor]. destruct v; unfold byte; lia.
    + apply Ret_inj in E; subst bs. constructor.
    + destruct (omap (encode l) v) as [es|] eqn:Eo; [|discriminate]. cbn [obind] in E. apply Ret_inj in E; subst bs. apply Forall_app. split; [apply le_bytes_byte|].
      revert es Eo. induction v as [|x v IHv]; intros es Eo; cbn [omap] in Eo; [injection Eo as <-; constructor|].
      destruct (encode l x) as [e|] eqn:Ex; [|discriminate]. cbn [obind] in Eo. destruct (omap (encode l) v) as [es'|]; [|discriminate]. injection Eo as <-.
      cbn [concat]. apply Forall_app. split; [exact (IH _ _ Ex)|apply IHv; reflexivity].
    + destruct v as [x y]. cbn [fst snd] in E. destruct (encode a x) eqn:Ex; [|discriminate]. destruct (encode b y) eqn:Ey; [|discriminate]. cbn [obind] in E. apply Ret_inj in E; subst bs.
      apply Forall_app. split; [exact (IHa _ _ Ex)|exact (IHb _ _ Ey)].
    + destruct v as [N data]. cbn [fst snd] in E. unfold put_fourier in E.
      destruct (if N =? 0 then _ else _) as [count|]; [|discriminate]. cbn [obind] in E.
      assert (Hc : forall qs, Forall byte (concat (map put_poly qs))).
      { induction qs as [|q qs IH]; [constructor|]. cbn [map concat]. apply Forall_app. split; [|exact IH]. apply Forall_app. split; [apply le_bytes_byte|].
        clear. induction q as [|c q IH]; [constructor|]. cbn [map concat]. apply Forall_app. split; [|exact IH]. apply Forall_app. split; apply le_bytes_byte. }
      destruct (Nat.eqb count 0); apply Ret_inj in E; subst bs; repeat (apply Forall_app; split); try apply le_bytes_byte. apply Hc.
  - intros trailing. unfold deserialize, rbind. rewrite <- app_assoc, get_word_le by (split; reflexivity || discriminate). cbn [obind]. rewrite D. reflexivity.
Qed.
Print Assumptions C47_default_round_trip.
(** Every entity that can be read can be written. *)
Theorem C47_default_tables : forall name l, lookup name default_deserialized = Some l -> lookup name default_serialized = Some l /\ no_fourier l.
Proof.
  intros name l H. apply lookup_In in H.
  assert (C : forallb (fun e => match lookup (fst e) default_serialized with Some l => layout_eqb (snd e) l | None => false end) default_deserialized = true)
    by (vm_compute; reflexivity).
  rewrite forallb_forall in C. specialize (C _ H). cbn [fst snd] in C. destruct (lookup name default_serialized) as [l'|]; [|discriminate].
  apply layout_eqb_eq in C. subst l'. split; [reflexivity|]. revert H.
  assert (F : Forall (fun e => no_fourier (snd e)) default_deserialized) by (repeat (constructor; [cbn; tauto|]); constructor).
  rewrite Forall_forall in F. intros H. exact (F _ H).
Qed.
Print Assumptions C47_default_tables.
(** The FFT engine *)
Theorem C47_fft_round_trip : forall name l, lookup name fft_serialized = Some l ->
  lookup name fft_deserialized = Some l /\
  forall p v, valid l v -> exists bytes, serialize l v = Ret bytes /\ forall trailing, deserialize p l (bytes ++ trailing) = Ret (inl v).
Proof.
  intros name l H. split.
  - assert (covers fft_serialized fft_deserialized = true) as C by (vm_compute; reflexivity).
    pose proof (covers_lookup _ _ _ _ C H) as X. rewrite <- X. apply lookup_In in H. cbn in H.
    repeat (destruct H as [H|H]; [injection H as <- <-; reflexivity|]). destruct H.
  - intros p v V. destruct (encode_decode p l v V) as (bs & E & D). unfold serialize. rewrite E. cbn [obind]. eexists. split; [reflexivity|].
    intros trailing. unfold deserialize, rbind. rewrite <- app_assoc, get_word_le by (split; reflexivity || discriminate). cbn [obind]. rewrite D. reflexivity.
Qed.
Print Assumptions C47_fft_round_trip.

(** ** Versions: only version 0 is accepted, and a well formed entity of another version gets the error made for it *)
Theorem C47_version_checked : forall p l bytes v, Forall byte bytes -> deserialize p l bytes = Ret (inl v) -> firstn 4 bytes = [0; 0; 0; 0].
Proof.
  intros p l bytes v Hb E. unfold deserialize, rbind in E. pose proof (get_word_inv 4 bytes Hb) as G.
  destruct (get_word 4 bytes) as [[[ver rest]|]|]; cbn [obind] in E; [|discriminate|discriminate]. destruct G as (-> & _ & _).
  destruct (decode p l rest) as [[[inner rest']|]|]; cbn [obind rret] in E; [|discriminate|discriminate]. unfold rret in E. cbn [obind] in E.
  destruct (Z.eqb_spec ver 0) as [->|]; [|discriminate]. reflexivity.
Qed.
Print Assumptions C47_version_checked.
Theorem C47_unsupported_version : forall p l v version bytes, valid l v -> 0 < version < 2 ^ 32 -> serialize l v = Ret bytes ->
  deserialize p l (le_bytes 4 version ++ skipn 4 bytes) = Ret (inr UnsupportedVersion).
Proof.
  intros p l v version bytes V Hver E. destruct (encode_decode p l v V) as (bs & Eb & D). unfold serialize in E. rewrite Eb in E. cbn [obind] in E.
  apply Ret_inj in E. assert (Es : skipn 4 bytes = bs) by (rewrite <- E; reflexivity). rewrite Es. unfold deserialize, rbind. rewrite get_word_le by (change (256 ^ Z.of_nat 4) with (2 ^ 32); lia). cbn [obind].
  specialize (D []). rewrite app_nil_r in D. rewrite D. cbn [obind rret]. unfold rret. cbn [obind]. destruct (Z.eqb_spec version 0); [lia|reflexivity].
Qed.
Print Assumptions C47_unsupported_version.

(** ** What is accepted: the default engine never panics on bytes from anywhere, and accepts only the bytes that it would write itself, possibly followed
    by others *)
Lemma decode_inv p l : no_fourier l -> forall bs, Forall byte bs -> match decode p l bs with
  | Ret (Some (v, rest)) => exists enc, encode l v = Ret enc /\ bs = enc ++ rest /\ valid l v /\ Forall byte rest
  | Ret None => True
  | Panic => False end.
Proof.
  induction l as [k| | |l IH|a IHa b IHb|]; cbn [no_fourier val valid encode decode]; intros Hf bs Hb.
  - pose proof (get_word_inv k bs Hb) as G. destruct (get_word k bs) as [[[v rest]|]|]; auto. destruct G as (E & V & R).
    exists (le_bytes k v). auto.
  - unfold get_bool, rbind. pose proof (get_word_inv 1 bs Hb) as G. destruct (get_word 1 bs) as [[[v rest]|]|]; cbn [obind]; auto. destruct G as (E & V & R).
    destruct (Z.eqb_spec v 0) as [->|]; [exists [0]; auto|]. destruct (Z.eqb_spec v 1) as [->|]; [exists [1]; auto|]. exact I.
  - exists []. auto.
  - unfold get_vec, rbind. pose proof (get_word_inv 8 bs Hb) as G. destruct (get_word 8 bs) as [[[n rest]|]|]; cbn [obind]; auto. destruct G as (-> & V & R).
    assert (X : forall k bs, Forall byte bs -> match get_many (decode p l) k bs with
      | Ret (Some (vs, rest)) => exists es, omap (encode l) vs = Ret es /\ bs = concat es ++ rest /\ length vs = k /\ Forall (valid l) vs /\ Forall byte rest
      | Ret None => True | Panic => False end).
    { clear - IH Hf. induction k as [|k IHk]; intros bs Hb; cbn [get_many]; [exists []; cbn; auto|]. unfold rbind at 1. pose proof (IH Hf bs Hb) as G.
      destruct (decode p l bs) as [[[v rest]|]|]; cbn [obind]; auto. destruct G as (enc & E & -> & V & R). unfold rbind. specialize (IHk rest R).
      destruct (get_many (decode p l) k rest) as [[[vs rest']|]|]; cbn [obind]; auto. destruct IHk as (es & Es & -> & L & Vs & R'). unfold rret.
      exists (enc :: es). cbn [omap]. rewrite E. cbn [obind]. rewrite Es. cbn [obind concat length]. rewrite <- app_assoc. repeat split; auto. }
    specialize (X (Z.to_nat n) rest R). destruct (get_many (decode p l) (Z.to_nat n) rest) as [[[vs rest']|]|]; auto.
    destruct X as (es & Es & -> & L & Vs & R'). rewrite Es. cbn [obind]. eexists. split; [reflexivity|].
    change (256 ^ Z.of_nat 8) with (2 ^ 64) in V. assert (En : Z.of_nat (length vs) = n) by lia. unfold put_len. rewrite <- app_assoc.
    split; [exact (f_equal (fun z => le_bytes 8 z ++ concat es ++ rest') (eq_sym En))|]. split; [|exact R']. split; [|exact Vs].
    exact (eq_ind_r (fun z => z < 2 ^ 64) (proj2 V) En).
  - destruct Hf as [Fa Fb]. unfold rbind. pose proof (IHa Fa bs Hb) as G. destruct (decode p a bs) as [[[x rest]|]|]; cbn [obind]; auto.
    destruct G as (ex & Ex & -> & Vx & Rx). pose proof (IHb Fb rest Rx) as G. destruct (decode p b rest) as [[[y rest']|]|]; cbn [obind]; auto.
    destruct G as (ey & Ey & -> & Vy & Ry). unfold rret. exists (ex ++ ey). cbn [fst snd]. rewrite Ex, Ey. cbn [obind]. rewrite app_assoc. auto.
  - destruct Hf.
Qed.
Theorem C47_no_panic : forall p l bytes, no_fourier l -> Forall byte bytes -> exists r, deserialize p l bytes = Ret r.
Proof.
  intros p l bytes Hf Hb. unfold deserialize, rbind. pose proof (get_word_inv 4 bytes Hb) as G.
  destruct (get_word 4 bytes) as [[[ver rest]|]|]; cbn [obind]; [|eexists; reflexivity|destruct G]. destruct G as (_ & _ & R).
  pose proof (decode_inv p l Hf rest R) as D. destruct (decode p l rest) as [[[inner rest']|]|]; cbn [obind]; [|eexists; reflexivity|destruct D].
  unfold rret. cbn [obind]. destruct (ver =? 0); eexists; reflexivity.
Qed.
Print Assumptions C47_no_panic.
Theorem C47_accepted_bytes : forall p l bytes v, no_fourier l -> Forall byte bytes -> deserialize p l bytes = Ret (inl v) ->
  valid l v /\ exists written trailing, serialize l v = Ret written /\ bytes = written ++ trailing.
Proof.
  intros p l bytes v Hf Hb E. unfold deserialize, rbind in E. pose proof (get_word_inv 4 bytes Hb) as G.
  destruct (get_word 4 bytes) as [[[ver rest]|]|]; cbn [obind] in E; [|discriminate|discriminate]. destruct G as (-> & _ & R).
  pose proof (decode_inv p l Hf rest R) as D. destruct (decode p l rest) as [[[inner rest']|]|]; cbn [obind] in E; [|discriminate|discriminate].
  unfold rret in E. cbn [obind] in E. destruct (Z.eqb_spec ver 0) as [->|]; [|discriminate]. injection E as ->. destruct D as (enc & Ee & -> & V & _).
  split; [exact V|]. unfold serialize. rewrite Ee. cbn [obind]. do 2 eexists. split; [reflexivity|]. apply app_assoc.
Qed.
Print Assumptions C47_accepted_bytes.
(** Bytes cut short anywhere are refused. *)
Theorem C47_truncated : forall p l v bytes start removed, no_fourier l -> valid l v -> Forall byte bytes -> serialize l v = Ret bytes ->
  bytes = start ++ removed -> removed <> [] -> deserialize p l start = Ret (inr Deserialization).
Proof.
  intros p l v bytes start removed Hf V Hb E Eb Hr. subst bytes. apply Forall_app in Hb. destruct Hb as [Hs Hb].
  destruct (encode_decode p l v V) as (bs & Ee & D).
  assert (R : forall trailing, deserialize p l ((start ++ removed) ++ trailing) = Ret (inl v)).
  { unfold serialize in E. rewrite Ee in E. cbn [obind] in E. apply Ret_inj in E. rewrite <- E. intros trailing. unfold deserialize, rbind.
    rewrite <- app_assoc, get_word_le by (split; reflexivity || discriminate). cbn [obind]. rewrite D. reflexivity. }
  destruct (C47_no_panic p l start Hf Hs) as [[v'|e] Ed].
  - exfalso. destruct (C47_accepted_bytes p l start v' Hf Hs Ed) as (V' & written & trailing & Ew & ->).
    destruct (encode_decode p l v' V') as (bs' & Ee' & D').
    specialize (R []). rewrite app_nil_r, <- app_assoc in R.
    assert (R' : deserialize p l (written ++ (trailing ++ removed)) = Ret (inl v')).
    { unfold serialize in Ew. rewrite Ee' in Ew. cbn [obind] in Ew. apply Ret_inj in Ew. rewrite <- Ew. unfold deserialize, rbind.
      rewrite <- app_assoc, get_word_le by (split; reflexivity || discriminate). cbn [obind]. rewrite D'. reflexivity. }
    rewrite R in R'. injection R' as <-. rewrite E in Ew. apply Ret_inj in Ew. apply (f_equal (@length Z)) in Ew. rewrite !app_length in Ew.
    destruct removed; [contradiction|]. cbn [length] in Ew. lia.
  - rewrite Ed. destruct e; [reflexivity|]. exfalso. unfold deserialize, rbind in Ed. pose proof (get_word_inv 4 start Hs) as G.
    destruct (get_word 4 start) as [[[ver rest]|]|] eqn:Eg; cbn [obind] in Ed; [|discriminate|discriminate]. destruct G as (-> & _ & _).
    destruct (decode p l rest) as [[[inner rest']|]|]; cbn [obind] in Ed; [|discriminate|discriminate]. unfold rret in Ed. cbn [obind] in Ed.
    destruct (Z.eqb_spec ver 0) as [->|Hv]; [discriminate|]. specialize (R []). rewrite <- !app_assoc in R.
    apply C47_version_checked in R.
    + cbn [le_bytes app firstn] in R. injection R as R1 R2 R3 R4. pose proof (le_bytes_length 4 ver).
      assert (0 <= ver < 256 ^ Z.of_nat 4).
      { unfold get_word, rbind in Eg. rewrite take_bytes_app in Eg by apply le_bytes_length. cbn [obind] in Eg. unfold rret in Eg. injection Eg as Eg.
        rewrite <- Eg. apply (le_value_range (le_bytes 4 ver)). apply le_bytes_byte. }
      change (256 ^ Z.of_nat 4) with (2 ^ 32) in *. clear - R1 R2 R3 R4 H0 Hv. lia.
    + rewrite app_nil_r. apply Forall_app in Hs. destruct Hs. repeat (apply Forall_app; split); assumption.
Qed.
Print Assumptions C47_truncated.

(** ** What the bytes do not protect from *)
(** The bytes do not tell the kind of the entity: those of an LWE secret key are read as an LWE ciphertext made of the key bits... *)
Theorem C47_kind_unchecked_refuted : forall p key, Z.of_nat (length key) < 2 ^ 64 -> Forall (is_word 64) key ->
  exists bytes, serialize (lwe_secret_key_layout 64) (key, (tt, tt)) = Ret bytes /\ deserialize p (lwe_ciphertext_layout 64) bytes = Ret (inl (key, tt)).
Proof.
  intros p key L W. assert (V : valid (lwe_ciphertext_layout 64) (key, tt)) by (cbn; auto).
  destruct (C47_default_round_trip "LweCiphertext64" (lwe_ciphertext_layout 64) eq_refl) as [_ R]. destruct (R p (key, tt) V) as (bytes & E & _ & D).
  exists bytes. split; [|specialize (D []); rewrite app_nil_r in D; exact D]. rewrite <- E. unfold serialize. cbn. destruct (omap _ key); reflexivity.
Qed.
Print Assumptions C47_kind_unchecked_refuted.
(** ... and a 32-bit vector of two LWE words is read as a 64-bit ciphertext: the size of the words is not told either. *)
Theorem C47_width_unchecked_refuted : exists bytes,
  serialize (lwe_list_layout 32) ([1; 2], (2, tt)) = Ret bytes /\ deserialize Debug (lwe_ciphertext_layout 64) bytes = Ret (inl ([2 ^ 33 + 1; 2], tt)).
Proof. eexists. split; [vm_compute; reflexivity|]. vm_compute. reflexivity. Qed.
Print Assumptions C47_width_unchecked_refuted.
(** Shapes are not checked: a GLWE ciphertext of five words with polynomials of size zero is accepted. *)
Theorem C47_shape_unchecked_refuted : exists bytes,
  deserialize Debug (glwe_ciphertext_layout 64) bytes = Ret (inl ([1; 2; 3; 4; 5], (0, tt))).
Proof. exists (match serialize (glwe_ciphertext_layout 64) ([1; 2; 3; 4; 5], (0, tt)) with Ret b => b | Panic => [] end). vm_compute. reflexivity. Qed.
Print Assumptions C47_shape_unchecked_refuted.
(** The FFT engine panics on some bytes instead of refusing them: a list of one polynomial of size 6. *)
Theorem C47_fft_panics_refuted : exists bytes, Forall byte bytes /\ deserialize Debug fourier_ggsw_layout bytes = Panic.
Proof.
  exists (le_bytes 4 0 ++ le_bytes 8 3 ++ le_bytes 8 6 ++ le_bytes 8 1).
  split; [repeat (apply Forall_app; split); apply le_bytes_byte|]. vm_compute. reflexivity.
Qed.
Print Assumptions C47_fft_panics_refuted.

(** ** Concrete cases *)
Example C47_case :
  valid (lwe_seeded_list_layout 64) ([5; 2 ^ 63], (3, (2 ^ 127 + 1, tt))) /\
  serialize (lwe_seeded_list_layout 64) ([5; 2 ^ 63], (3, (2 ^ 127 + 1, tt))) =
    Ret ([0;0;0;0] ++ [2;0;0;0;0;0;0;0] ++ [5;0;0;0;0;0;0;0] ++ [0;0;0;0;0;0;0;128] ++ [3;0;0;0;0;0;0;0] ++ [1;0;0;0;0;0;0;0;0;0;0;0;0;0;0;128]) /\
  lookup "LweSeededCiphertextVector64" default_serialized = Some (lwe_seeded_list_layout 64) /\ no_fourier (lwe_seeded_list_layout 64) /\
  valid fourier_ggsw_layout ((4, [(1, 2); (3, 4); (5, 6); (7, 8)]), (2, (7, (1, tt)))) /\
  deserialize Debug fourier_ggsw_layout (match serialize fourier_ggsw_layout ((4, [(1, 2); (3, 4); (5, 6); (7, 8)]), (2, (7, (1, tt)))) with Ret b => b | Panic => [] end)
    = Ret (inl ((4, [(1, 2); (3, 4); (5, 6); (7, 8)]), (2, (7, (1, tt))))).
Proof.
  split. { cbn. repeat split; try lia. repeat (constructor; [lia|]). constructor. }
  split; [vm_compute; reflexivity|]. split; [reflexivity|]. split; [cbn; tauto|].
  split; [|vm_compute; reflexivity]. cbn. unfold is_word. repeat split; try lia; [repeat (constructor; [cbn; lia|]); constructor|].
  exists 2%nat. split; [reflexivity|]. right. exists 1. split; [lia|reflexivity].
Qed.
