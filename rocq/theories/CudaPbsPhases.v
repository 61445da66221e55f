(** * The phases of the GPU bootstrap, under every interleaving *)
From Verif Require Import Base Word CudaKsModel CudaBlockModel CudaBlockProofs CudaFftModel CudaFftAlgebra CudaFftProofs CudaFftFacts CudaHoare CudaPbsModel.
From Coq Require Import Ring.
Local Open Scope nat_scope.

Section Phases.
Context (w : Z) {R : Type} (rO rI : R) (radd rmul rsub : R -> R -> R) (ropp : R -> R).
Hypothesis R_ring : ring_theory rO rI radd rmul rsub ropp (@eq R).
Context (ok : addr -> bool) (size base : nat -> nat) (H T n o : nat).
Hypothesis (HT : 0 < T) (Hn : H = 2 ^ n) (Hn1 : 1 <= n) (Ho : o * T = H) (Heven : Nat.even o = true)
  (Hloc : forall t r, ok (Loc t r) = true) (Hword : forall b i, i < size b -> ok (Word b i) = true) (Hdbl : forall b i im, i < size b -> ok (Dbl b i im) = true).
Notation val := (val R).
Notation gop := (gop addr val).
Notation mem := (mem addr val).
Notation seg := (seg addr val).
Notation solo := (solo (V := val) addr_eqb).
Notation N := (2 * H).
Notation triple := (triple (R := R) ok T).
Notation own_of ob := (own_bufs T base ob).

Lemma o_pos : o <> 0. Proof. intros ->. pose proof (Nat.pow_nonzero 2 n). lia. Qed.
Lemma E_threads : 2 * H / (2 * o) = T.
Proof. pose proof o_pos. rewrite <- Ho. replace (2 * (o * T)) with (T * (2 * o)) by lia. apply Nat.div_mul. lia. Qed.
Lemma E_opt : 2 * o / 2 = o. Proof. rewrite Nat.mul_comm. apply Nat.div_mul. lia. Qed.
Lemma E_half : 2 * H / 2 = H. Proof. rewrite Nat.mul_comm. apply Nat.div_mul. lia. Qed.
Lemma E_halves i : i * (2 * H) / 2 = i * H. Proof. replace (i * (2 * H)) with (i * H * 2) by lia. apply Nat.div_mul. lia. Qed.
Lemma mod_owner b z i : base b + z * N + i - base b = (z * (2 * o)) * T + i. Proof. rewrite <- Ho. lia. Qed.
Lemma mod_T a i : (a * T + i) mod T = i mod T. Proof. rewrite Nat.add_comm. apply Nat.mod_add. lia. Qed.
Lemma own_word ob b z i : ob b = true -> own_of ob (Word b (base b + z * N + i)) = Some (i mod T).
Proof. intros Hb. unfold own_bufs. rewrite Hb, mod_owner, mod_T. reflexivity. Qed.
Lemma own_dbl ob b z i im : ob b = true -> base b = 0 -> own_of ob (Dbl b (z * H + i) im) = Some (i mod T).
Proof. intros Hb E. unfold own_bufs. rewrite Hb, E. f_equal. rewrite <- Ho. replace (z * (o * T) + i - 0) with (z * o * T + i) by lia. apply mod_T. Qed.
Lemma own_none ob b i : ob b = false -> own_of ob (Word b i) = None /\ forall im, own_of ob (Dbl b i im) = None.
Proof. intros Hb. unfold own_bufs. rewrite Hb. auto. Qed.

(** ** Contents of buffers *)
(** [k] polynomials of words *)
Definition words (b : nat) (f : nat -> nat -> Z) (k : nat) (m : mem) : Prop := forall z i, z < k -> i < N -> m (Word b (base b + z * N + i)) = Wd (f z i).
(** [k] polynomials of complex numbers *)
Definition cplx (b : nat) (g : nat -> nat -> R * R) (k : nat) (m : mem) : Prop :=
  forall z i, z < k -> i < H -> m (Dbl b (z * H + i) false) = Db (fst (g z i)) /\ m (Dbl b (z * H + i) true) = Db (snd (g z i)).
Lemma words_stable bs b f k : ~ In b bs -> stable bs (words b f k).
Proof. intros Hb m m' K Hm z i Hz Hi. rewrite K by (try reflexivity; exact Hb). apply Hm; assumption. Qed.
Lemma cplx_stable bs b f k : ~ In b bs -> stable bs (cplx b f k).
Proof. intros Hb m m' K Hm z i Hz Hi. rewrite !K by (try reflexivity; exact Hb). apply Hm; assumption. Qed.
Lemma stable_and bs (P Q : mem -> Prop) : stable bs P -> stable bs Q -> stable bs (fun m => P m /\ Q m).
Proof. intros HP HQ m m' K [A B]. split; [exact (HP m m' K A)|exact (HQ m m' K B)]. Qed.
Lemma words_ext b f g k m : (forall z i, z < k -> i < N -> f z i = g z i) -> words b f k m -> words b g k m.
Proof. intros E Hm z i Hz Hi. rewrite <- E by assumption. apply Hm; assumption. Qed.
Lemma cplx_ext b f g k m : (forall z i, z < k -> i < H -> f z i = g z i) -> cplx b f k m -> cplx b g k m.
Proof. intros E Hm z i Hz Hi. rewrite <- E by assumption. apply Hm; assumption. Qed.
Lemma word_index z z' i i' b : i < N -> i' < N -> base b + z * N + i = base b + z' * N + i' -> z = z' /\ i = i'.
Proof. intros Hi Hi' E. assert (E1 : z * N + i = z' * N + i') by lia. clear - Hi Hi' E1. assert (z = z') by nia. subst. lia. Qed.
Lemma dbl_index z z' i i' : i < H -> i' < H -> z * H + i = z' * H + i' -> z = z' /\ i = i'.
Proof. intros Hi Hi' E. assert (z = z') by nia. subst. lia. Qed.

(** ** Parts that write one polynomial of words *)
Lemma word_phase ob b z (value : nat -> mem -> Z) code (P Q : mem -> Prop) : ob b = true -> base b + (z + 1) * N <= size b ->
  (forall t i, i < N -> i mod T = t -> Forall (tch ok (own_of ob) [Word b (base b + z * N + i)] t) (code t i)) ->
  (forall t i m, i < N -> i mod T = t -> solo (code t i) m (Word b (base b + z * N + i)) = Wd (value i m)) ->
  (forall i m m', i < N -> m (Word b (base b + z * N + i)) = m' (Word b (base b + z * N + i)) -> (forall d, temp d = false -> own_of ob d = None -> m d = m' d) -> value i m = value i m') ->
  (forall m m', (forall i, i < N -> m' (Word b (base b + z * N + i)) = Wd (value i m)) -> (forall c, temp c = false -> (forall i, i < N -> c <> Word b (base b + z * N + i)) -> m' c = m c) -> P m -> Q m') ->
  triple (Some (own_of ob)) [Par (strided T (2 * o) code)] (Some (own_of ob)) [b] P Q.
Proof.
  intros Hob Hs Ht He Hd Hpq. assert (EN : 2 * o * T = N) by (rewrite <- Ho; lia).
  apply (triple_phase ok T HT Hloc (own_of ob) (2 * o) code (fun i => [Word b (base b + z * N + i)]) (fun i m _ => Wd (value i m))); rewrite ?EN.
  - reflexivity.
  - intros i c Hi [<-|[]]. split; [apply Hword; lia|]. split; [reflexivity|apply own_word, Hob].
  - intros i i' c Hi Hi' [<-|[]] [E|[]]. injection E as E. lia.
  - intros t i _ Hi Hm. apply Ht; assumption.
  - intros t i m c _ Hi Hm [<-|[]]. apply He; assumption.
  - intros i m m' c Hi [<-|[]] E. f_equal. apply Hd; [exact Hi|apply E; [reflexivity|left; left; reflexivity]|]. intros d Hl Ho'. apply E; [exact Hl|right; exact Ho'].
  - intros i c Hi [<-|[]] _. left. reflexivity.
  - intros m m' H1 H2. apply Hpq; [intros i Hi; apply (H1 i); [exact Hi|left; reflexivity]|].
    intros c Hl Hc. apply H2; [exact Hl|]. intros i Hi [E|[]]. exact (Hc i Hi (eq_sym E)).
Qed.
Lemma words_step b z f g k m m' : z < k -> words b f k m -> (forall i, i < N -> m' (Word b (base b + z * N + i)) = Wd (g i)) ->
  (forall c, temp c = false -> (forall i, i < N -> c <> Word b (base b + z * N + i)) -> m' c = m c) -> words b (fun z' i => if z' =? z then g i else f z' i) k m'.
Proof.
  intros Hz Hm H1 H2 z' i Hz' Hi. destruct (Nat.eqb_spec z' z) as [->|Hne]; [apply H1, Hi|]. rewrite H2; [apply Hm; assumption|reflexivity|]. intros i' Hi' E. injection E as E. apply Hne. apply (word_index z' z i i' b Hi Hi' E).
Qed.

(** Reading the memory after a few accesses *)
Lemma load_put1 t r a c f (m : mem) : c <> Loc t r -> solo [load rO t r a; put1 rO t c r f] m c = Wd (f (wd (m a))).
Proof.
  intros Hc. unfold CudaBlockProofs.solo. cbn [fold_left]. unfold load, put1. cbn [exec1 map]. unfold upd. rewrite (proj2 (addr_eqb_eq c c) eq_refl). unfold warg. cbn [nth]. rewrite (proj2 (addr_eqb_eq (Loc t r) (Loc t r)) eq_refl). reflexivity.
Qed.
Lemma load_load_put2 t a b c f (m : mem) : is_local b = false -> solo [load rO t 0 a; load rO t 1 b; put2 rO t c 0 1 f] m c = Wd (f (wd (m a)) (wd (m b))).
Proof.
  intros Hb. unfold CudaBlockProofs.solo. cbn [fold_left]. unfold load, put2. cbn [exec1 map]. unfold upd. rewrite (proj2 (addr_eqb_eq c c) eq_refl). unfold warg. cbn [nth addr_eqb]. rewrite !Nat.eqb_refl. cbn [andb Nat.eqb].
  destruct b as [b i|b i im|u r]; [reflexivity|reflexivity|discriminate Hb].
Qed.
Ltac own1 := first [ left; eexists; split; [|reflexivity]; cbn; lia | right; left; cbn [In]; tauto | right; right; split; [first [apply Hword|apply Hdbl]|unfold own_bufs; try match goal with E : ?ob ?b = false |- _ => rewrite E; reflexivity end] ].
Ltac touch1 := cbn [tch load put1 put2 store2 comp2]; split;
  [first [left; eexists; split; [|reflexivity]; cbn; lia | right; cbn [In]; tauto]
  | repeat (apply Forall_cons; [own1|]); try apply Forall_nil].
Ltac touch := repeat (apply Forall_cons; [touch1|]); try apply Forall_nil.

(** polynomial/functions.cuh:67-103 *)
Definition divided (j : nat) (x : nat -> Z) (i : nat) : Z :=
  if j <? N then if i <? N - j then x (i + j) else wneg w (x (i + j - N))
  else if i <? N - (j - N) then wneg w (x (i + (j - N))) else x (i + (j - N) - N).
Lemma divided_ext j x y i : j <= 2 * N -> i < N -> (forall i, i < N -> x i = y i) -> divided j x i = divided j y i.
Proof. intros Hj Hi E. unfold divided. destruct (Nat.ltb_spec j N); [destruct (Nat.ltb_spec i (N - j))|destruct (Nat.ltb_spec i (N - (j - N)))]; rewrite E by lia; reflexivity. Qed.
Lemma divide_ok ob ab ib io j z (lut : nat -> nat -> Z) k acc : ob ab = true -> ob ib = false -> ab <> ib -> j <= 2 * N -> z < k -> base ab + k * N <= size ab -> io + k * N <= size ib ->
  triple (Some (own_of ob)) [divide_by_monomial w rO N (2 * o) ab (base ab) ib io j z] (Some (own_of ob)) [ab]
    (fun m => words ab acc z m /\ forall i, i < N -> m (Word ib (io + z * N + i)) = Wd (lut z i))
    (words ab (fun z' i => if z' =? z then divided j (lut z) i else acc z' i) (S z)).
Proof.
  intros Ha Hi Hab Hj Hz Hsa Hsi. unfold divide_by_monomial. rewrite E_threads.
  apply (word_phase ob ab z (fun i m => divided j (fun i => wd (m (Word ib (io + z * N + i)))) i)); [exact Ha|clear - Hz Hsa; nia| | | |].
  - intros t i Hit _. cbv zeta. destruct (Nat.ltb_spec j N); [destruct (Nat.ltb_spec i (N - j))|destruct (Nat.ltb_spec i (N - (j - N)))]; touch; clear - Hit Hz Hsi Hj H0 H1; nia.
  - intros t i m Hit _. cbv zeta. unfold divided. destruct (Nat.ltb_spec j N); [destruct (Nat.ltb_spec i (N - j))|destruct (Nat.ltb_spec i (N - (j - N)))]; apply load_put1; discriminate.
  - intros i m m' Hit _ E. apply divided_ext; [exact Hj|exact Hit|]. intros x Hx. rewrite E; [reflexivity|reflexivity|]. apply own_none, Hi.
  - intros m m' H1 H2 [Hm Hl] z' i Hz' Hit. destruct (Nat.eqb_spec z' z) as [->|Hne].
    + rewrite H1 by exact Hit. f_equal. apply divided_ext; [exact Hj|exact Hit|]. intros x Hx. rewrite Hl by exact Hx. reflexivity.
    + rewrite H2; [apply Hm; [lia|exact Hit]|reflexivity|]. intros i' Hi' E. injection E as E. apply Hne. apply (word_index z' z i i' ab Hit Hi' E).
Qed.

(** polynomial/functions.cuh:113-140 *)
Definition rotated (j : nat) (x : nat -> Z) (i : nat) : Z :=
  if j <? N then if i <? j then wneg w (x (i + N - j)) else x (i - j)
  else if i <? j - N then x (i + N - (j - N)) else wneg w (x (i - (j - N))).
Lemma rotated_ext j x y i : j <= 2 * N -> i < N -> (forall i, i < N -> x i = y i) -> rotated j x i = rotated j y i.
Proof. intros Hj Hi E. unfold rotated. destruct (Nat.ltb_spec j N); [destruct (Nat.ltb_spec i j)|destruct (Nat.ltb_spec i (j - N))]; rewrite E by lia; reflexivity. Qed.
Lemma mul_sub_ok ob ab rb j z acc k rot : ob rb = true -> ob ab = false -> base ab = 0 -> j <= 2 * N -> z < k -> k * N <= size ab -> base rb + k * N <= size rb ->
  triple (Some (own_of ob)) [multiply_by_monomial_and_sub w rO N (2 * o) ab 0 rb (base rb) j z] (Some (own_of ob)) [rb]
    (fun m => words rb rot z m /\ words ab acc k m)
    (words rb (fun z' i => if z' =? z then wsub w (rotated j (acc z) i) (acc z i) else rot z' i) (S z)).
Proof.
  intros Ha Hi Hab Hj Hz Hsa Hsi. unfold multiply_by_monomial_and_sub. rewrite E_threads.
  apply (word_phase ob rb z (fun i m => wsub w (rotated j (fun i => wd (m (Word ab (0 + z * N + i)))) i) (wd (m (Word ab (0 + z * N + i)))))); [exact Ha|clear - Hz Hsi; nia| | | |].
  - intros t i Hit _. cbv zeta. destruct (Nat.ltb_spec j N); [destruct (Nat.ltb_spec i j)|destruct (Nat.ltb_spec i (j - N))]; touch; clear - Hit Hz Hsa Hj H0 H1; nia.
  - intros t i m Hit _. cbv zeta. unfold rotated. destruct (Nat.ltb_spec j N); [destruct (Nat.ltb_spec i j)|destruct (Nat.ltb_spec i (j - N))]; rewrite load_load_put2 by reflexivity; reflexivity.
  - intros i m m' Hit _ E. assert (E' : forall x, wd (m (Word ab (0 + z * N + x))) = wd (m' (Word ab (0 + z * N + x)))) by (intros x; rewrite E; [reflexivity|reflexivity|apply own_none, Hi]).
    rewrite E'. f_equal. apply rotated_ext; auto.
  - intros m m' H1 H2 [Hm Hl] z' i Hz' Hit. destruct (Nat.eqb_spec z' z) as [->|Hne].
    + rewrite H1 by exact Hit. f_equal. assert (E' : forall x, x < N -> wd (m (Word ab (0 + z * N + x))) = acc z x) by (intros x Hx; pose proof (Hl z x Hz Hx) as G; rewrite Hab in G; rewrite G; reflexivity).
      rewrite E' by exact Hit. f_equal. apply rotated_ext; auto.
    + rewrite H2; [apply Hm; [lia|exact Hit]|reflexivity|]. intros i' Hi' E. injection E as E. apply Hne. apply (word_index z' z i i' rb Hit Hi' E).
Qed.
(** polynomial/functions.cuh:148-168 *)
Lemma round_ok ob rb b l z rot k : ob rb = true -> z < k -> base rb + k * N <= size rb ->
  triple (Some (own_of ob)) [round_to_closest_multiple w rO N (2 * o) b l rb (base rb) z] (Some (own_of ob)) [rb]
    (words rb rot k) (words rb (fun z' i => if z' =? z then gpu_round w b l (rot z i) else rot z' i) k).
Proof.
  intros Ha Hz Hsi. unfold round_to_closest_multiple. rewrite E_threads.
  apply (word_phase ob rb z (fun i m => gpu_round w b l (wd (m (Word rb (base rb + z * N + i)))))); [exact Ha|clear - Hz Hsi; nia| | | |].
  - intros t i Hit _. cbv zeta. touch.
  - intros t i m Hit _. cbv zeta. apply load_put1. discriminate.
  - intros i m m' Hit E _. rewrite E. reflexivity.
  - intros m m' H1 H2 Hm. apply (words_step rb z rot _ k m); [exact Hz|exact Hm| |exact H2]. intros i Hit. rewrite H1 by exact Hit. rewrite Hm by assumption. reflexivity.
Qed.
(** crypto/gadget.cuh:31-44 *)
Lemma gadget_ok ob rb b l k rot : ob rb = true -> base rb + k * N <= size rb ->
  triple (Some (own_of ob)) (gadget_new w rO N (2 * o) b l k rb (base rb)) None [rb]
    (words rb rot k) (words rb (fun z i => shr (rot z i) (w - b * Z.of_nat l)) k).
Proof.
  intros Ha Hsi. unfold gadget_new. rewrite E_threads. apply (triple_seq ok T (Some (own_of ob)) [Par _] (Some (own_of ob)) [Bar] None [rb] _ (words rb (fun z i => shr (rot z i) (w - b * Z.of_nat l)) k)); [|apply triple_bar].
  assert (EN : k * (2 * o) * T = k * N) by (rewrite <- Ho; clear; nia).
  apply (triple_phase ok T HT Hloc (own_of ob) (k * (2 * o)) _ (fun i => [Word rb (base rb + i)]) (fun i m _ => Wd (shr (wd (m (Word rb (base rb + i)))) (w - b * Z.of_nat l)))); rewrite ?EN.
  - reflexivity.
  - intros i c Hi [<-|[]]. split; [apply Hword; lia|]. split; [reflexivity|]. unfold own_bufs. rewrite Ha. do 2 f_equal. lia.
  - intros i i' c Hi Hi' [<-|[]] [E|[]]. injection E as E. lia.
  - intros t i _ Hi Hm. touch.
  - intros t i m c _ Hi Hm [<-|[]]. apply load_put1. discriminate.
  - intros i m m' c Hi [<-|[]] E. rewrite E; [reflexivity|reflexivity|left; left; reflexivity].
  - intros i c Hi [<-|[]] _. left. reflexivity.
  - intros m m' H1 H2 Hm z i Hz Hi. rewrite <- Nat.add_assoc. rewrite (H1 (z * N + i)); [|clear - Hz Hi; nia|left; reflexivity]. rewrite Nat.add_assoc, Hm by assumption. reflexivity.
Qed.
(** bootstrap_amortized.cuh:126-132 *)
Lemma clear_ok ob k : ob RES = true -> base RES = 0 -> (k + 1) * H <= size RES ->
  triple (Some (own_of ob)) [clear_res_fft rO N (2 * o) k] (Some (own_of ob)) [RES] (fun _ => True) (cplx RES (fun _ _ => (rO, rO)) (k + 1)).
Proof.
  intros Ha Hb Hsi. unfold clear_res_fft. rewrite E_threads, E_opt. assert (EN : (k + 1) * o * T = (k + 1) * H) by (rewrite <- Ho; clear; nia).
  apply (triple_phase ok T HT Hloc (own_of ob) ((k + 1) * o) _ (fun i => [Dbl RES i false; Dbl RES i true]) (fun i m _ => Db rO)); rewrite ?EN.
  - reflexivity.
  - intros i c Hi Hc. assert (E : exists im, c = Dbl RES i im) by (destruct Hc as [<-|[<-|[]]]; eauto). destruct E as [im ->]. split; [apply Hdbl; lia|]. split; [reflexivity|]. unfold own_bufs. rewrite Ha, Hb. do 2 f_equal. lia.
  - intros i i' c Hi Hi' Hc Hc'. destruct Hc as [<-|[<-|[]]]; destruct Hc' as [E|[E|[]]]; injection E as E; lia.
  - intros t i _ Hi Hm. unfold X, Y. cbn [Nat.add]. touch.
  - intros t i m c _ Hi Hm Hc. unfold CudaBlockProofs.solo. cbn [fold_left exec1]. unfold upd, X, Y. destruct Hc as [<-|[<-|[]]]; cbn [addr_eqb]; rewrite !Nat.eqb_refl; reflexivity.
  - reflexivity.
  - intros i c Hi [<-|[<-|[]]] _; left; reflexivity.
  - intros m m' H1 H2 _ z i Hz Hi. cbn [fst snd]. split; (apply (H1 (z * H + i)); [clear - Hz Hi; nia|cbn [In]; tauto]).
Qed.

(** ** Parts where thread [tid] of the half degree uses the words [tid], [tid + H] of some polynomials and the complex numbers [tid] of others *)
Definition mine (ob : nat -> bool) (wz dz : nat -> nat) (tid : nat) (c : addr) : Prop :=
  ok c = true /\ ob (buf_of c) = true /\
  match c with Word b i => i = base b + wz b * N + tid \/ i = base b + wz b * N + (tid + H) | Dbl b i _ => base b = 0 /\ i = dz b * H + tid | Loc _ _ => False end.
Lemma half_phase ob wz dz code cells F bs (P Q : mem -> Prop) :
  (forall tid c, tid < H -> In c (cells tid) -> mine ob wz dz tid c) ->
  (forall t tid, tid < H -> tid mod T = t -> Forall (tch ok (own_of ob) (cells tid) t) (code t tid)) ->
  (forall t tid m c, tid < H -> tid mod T = t -> In c (cells tid) -> solo (code t tid) m c = F tid m c) ->
  (forall tid m m' c, tid < H -> In c (cells tid) -> (forall d, temp d = false -> In d (cells tid) \/ own_of ob d = None -> m d = m' d) -> F tid m c = F tid m' c) ->
  (forall tid c, tid < H -> In c (cells tid) -> In (buf_of c) bs) ->
  (forall m m', (forall tid c, tid < H -> In c (cells tid) -> m' c = F tid m c) -> (forall c, temp c = false -> (forall tid, tid < H -> ~ In c (cells tid)) -> m' c = m c) -> P m -> Q m') ->
  triple (Some (own_of ob)) [Par (strided T o code)] (Some (own_of ob)) bs P Q.
Proof.
  intros Hc Ht He Hd Hb Hpq.
  apply (triple_phase ok T HT Hloc (own_of ob) o code cells F); rewrite ?Ho.
  - reflexivity.
  - intros i c Hi Hin. destruct (Hc i c Hi Hin) as (G1 & G2 & G3). split; [exact G1|]. destruct c as [b x|b x im|u r]; [| |contradiction]; (split; [reflexivity|]).
    + destruct G3 as [->| ->]; rewrite own_word by exact G2; f_equal. rewrite <- Ho, Nat.add_comm. apply mod_T.
    + destruct G3 as [G3 ->]. apply own_dbl; assumption.
  - intros i i' c Hi Hi' Hin Hin'. destruct (Hc i c Hi Hin) as (_ & _ & G). destruct (Hc i' c Hi' Hin') as (_ & _ & G'). destruct c as [b x|b x im|u r]; [| |contradiction]; lia.
  - intros t i _ Hi Hm. apply Ht; assumption.
  - intros t i m c _ Hi Hm. apply He; assumption.
  - exact Hd.
  - intros i c Hi Hin _. exact (Hb i c Hi Hin).
  - exact Hpq.
Qed.

Ltac steps := repeat (rewrite solo_cons; match goal with |- context [CudaBlockProofs.solo _ _ (exec1 _ ?m ?o)] => let x := fresh "m" in set (x := exec1 addr_eqb m o) end).
Ltac look1 := match goal with x := exec1 _ ?m0 (GOp ?rs ?d ?f) |- context [?y ?c] => constr_eq x y;
    change (x c) with (if addr_eqb c d then f (map m0 rs) else m0 c); unfold X, Y; cbn [addr_eqb]; rewrite ?Nat.eqb_refl, ?andb_false_r;
    repeat match goal with E : (?a =? ?b) = false |- _ => progress rewrite E end; cbn [andb Bool.eqb map nth Nat.eqb]; unfold arg, warg; cbn [nth CudaFftModel.db CudaFftModel.wd] end.
Ltac unfold_ops := unfold load, comp2, store2, put1, put2.

(** crypto/gadget.cuh:55-83: the digit, and what remains *)
Definition digit_of (b x : Z) : Z := let res := Z.land x ((2 ^ b - 1) mod 2 ^ w) in int32 (wsub w res (shl w (carry_of w b res (shr x b)) b)).
Definition state_of (b x : Z) : Z := let res := Z.land x ((2 ^ b - 1) mod 2 ^ w) in wadd w (shr x b) (carry_of w b res (shr x b)).
Context (of_int : Z -> R).
Definition digit_cplx (b : Z) (x : nat -> Z) (i : nat) : R * R := (of_int (digit_of b (x i)), of_int (digit_of b (x (i + H)))).
Lemma decompose_ok ob sb rb b j rot k : ob sb = true -> ob rb = true -> base rb = 0 -> sb <> rb -> j < k -> base sb + k * N <= size sb -> H <= size rb ->
  triple (Some (own_of ob)) (decompose_next_polynomial w rO N (2 * o) of_int b sb (base sb) rb 0 j) None [sb; rb]
    (words sb rot k) (fun m => words sb (fun z i => if z =? j then state_of b (rot j i) else rot z i) k m /\ cplx rb (fun _ => digit_cplx b (rot j)) 1 m).
Proof.
  intros H1 H2 H3 Hne Hj Hs1 Hs2. unfold decompose_next_polynomial. rewrite E_threads, E_opt, E_half.
  set (Q := fun m : mem => words sb _ k m /\ _). apply (triple_seq ok T (Some (own_of ob)) [Par _] (Some (own_of ob)) [Bar] None [sb; rb] _ Q); [|apply triple_bar]. unfold Q. clear Q.
  assert (HH : 0 < H) by (pose proof o_pos; clear - HT Ho H0; nia).
  set (A := fun tid => base sb + j * N + tid).
  apply (half_phase ob (fun _ => j) (fun _ => 0) _ (fun tid => [Word sb (A tid); Word sb (A tid + H); Dbl rb tid false; Dbl rb tid true])
    (fun tid m c => match c with Word _ i => Wd (state_of b (wd (m (Word sb i)))) | Dbl _ _ im => Db (of_int (digit_of b (wd (m (Word sb (if im then A tid + H else A tid)))))) | Loc _ _ => m c end)).
  - intros tid c Hi [<-|[<-|[<-|[<-|[]]]]]; (split; [first [apply Hword|apply Hdbl]; unfold A; clear - Hi Hj Hs1 Hs2; nia|]); (split; [first [exact H1|exact H2]|]); unfold A; [lia|lia|auto|auto].
  - intros t tid Hi Hm. unfold X, Y. cbn [Nat.add]. fold (A tid). touch.
  - intros t tid m c Hi Hm Hc. fold (A tid). assert (Ea : (A tid =? A tid + H) = false) by (apply Nat.eqb_neq; lia). assert (Eb : (A tid + H =? A tid) = false) by (apply Nat.eqb_neq; lia).
    unfold_ops. steps. change (CudaBlockProofs.solo addr_eqb [] ?x) with x. unfold state_of, digit_of. cbv zeta.
    destruct Hc as [<-|[<-|[<-|[<-|[]]]]]; repeat look1; reflexivity.
  - intros tid m m' c Hi Hc E. assert (E1 : m (Word sb (A tid)) = m' (Word sb (A tid))) by (apply E; [reflexivity|left; cbn [In]; tauto]). assert (E2 : m (Word sb (A tid + H)) = m' (Word sb (A tid + H))) by (apply E; [reflexivity|left; cbn [In]; tauto]).
    destruct Hc as [<-|[<-|[<-|[<-|[]]]]]; cbv iota; rewrite ?E1, ?E2; reflexivity.
  - intros tid c Hi [<-|[<-|[<-|[<-|[]]]]]; cbn [buf_of In]; tauto.
  - intros m m' G1 G2 Hm. split.
    + intros z i Hz Hi. destruct (Nat.eqb_spec z j) as [->|Hzj].
      * destruct (Nat.lt_ge_cases i H) as [Hl|Hl].
        -- rewrite (G1 i (Word sb (base sb + j * N + i)) Hl) by (left; reflexivity). rewrite Hm by assumption. reflexivity.
        -- assert (Ei : base sb + j * N + i = A (i - H) + H) by (unfold A; lia). rewrite (G1 (i - H) (Word sb (base sb + j * N + i))) by (try lia; rewrite Ei; cbn [In]; tauto). rewrite Hm by assumption. reflexivity.
      * rewrite G2; [apply Hm; assumption|reflexivity|]. intros tid Ht [E|[E|[E|[E|[]]]]]; try discriminate E; injection E as E; unfold A in E.
        -- apply Hzj. symmetry. apply (word_index j z tid i sb); [lia|exact Hi|exact E].
        -- apply Hzj. symmetry. apply (word_index j z (tid + H) i sb); [lia|exact Hi|lia].
    + intros z i Hz Hi. assert (z = 0) by lia. subst z. cbn [Nat.mul Nat.add]. unfold digit_cplx. cbn [fst snd].
      rewrite (G1 i (Dbl rb i false) Hi) by (cbn [In]; tauto). rewrite (G1 i (Dbl rb i true) Hi) by (cbn [In]; tauto). unfold A. split.
      * rewrite Hm by lia. reflexivity.
      * rewrite <- Nat.add_assoc, Hm by lia. reflexivity.
Qed.

Notation cadd := (cadd radd). Notation cmul := (cmul radd rmul rsub).
Notation view := (view rO).
Lemma cplx_view b g k m z i : cplx b g k m -> z < k -> i < H -> view b (z * H) m i = g z i.
Proof. intros Hm Hz Hi. destruct (Hm z i Hz Hi) as [E1 E2]. unfold CudaFftProofs.view, X, Y. rewrite E1, E2. cbn. symmetry. apply surjective_pairing. Qed.
Lemma view_eq b p q (m m' : mem) i : m (Dbl b (p + i) false) = m' (Dbl b (q + i) false) -> m (Dbl b (p + i) true) = m' (Dbl b (q + i) true) -> view b p m i = view b q m' i.
Proof. intros E1 E2. unfold CudaFftProofs.view, X, Y. rewrite E1, E2. reflexivity. Qed.

(** polynomial_math.cuh:32-41 *)
Lemma product_ok ob rb fb sb so z k res x y : ob rb = true -> ob fb = true -> ob sb = false -> base rb = 0 -> base fb = 0 -> rb <> fb -> rb <> sb -> z < k -> k * H <= size rb -> H <= size fb -> so + H <= size sb ->
  triple (Some (own_of ob)) [product_accumulate rO radd rmul rsub N (2 * o) rb (z * H) fb 0 sb so] (Some (own_of ob)) [rb; fb]
    (fun m => cplx rb res k m /\ cplx fb (fun _ => x) 1 m /\ forall i, i < H -> view sb so m i = y i)
    (fun m => cplx rb (fun z' i => if z' =? z then cadd (res z i) (cmul (x i) (y i)) else res z' i) k m /\ cplx fb (fun _ => x) 1 m).
Proof.
  intros H1 H2 H3 B1 B2 N1 N2 Hz S1 S2 S3. unfold product_accumulate. rewrite E_threads, E_opt.
  assert (N1' : (fb =? rb) = false) by (apply Nat.eqb_neq; auto). assert (N2' : (rb =? sb) = false) by (apply Nat.eqb_neq; auto). assert (N3' : (rb =? fb) = false) by (apply Nat.eqb_neq; auto). assert (N4' : (sb =? rb) = false) by (apply Nat.eqb_neq; auto).
  apply (half_phase ob (fun _ => 0) (fun b => if b =? rb then z else 0) _ (fun tid => [Dbl rb (z * H + tid) false; Dbl rb (z * H + tid) true; Dbl fb tid false; Dbl fb tid true])
    (fun tid m c => match c with Dbl b _ im => if b =? rb then Db (part im (cadd (view rb (z * H) m tid) (cmul (view fb 0 m tid) (view sb so m tid)))) else m c | _ => m c end)).
  - intros tid c Hi [<-|[<-|[<-|[<-|[]]]]]; (split; [apply Hdbl; clear - Hi Hz S1 S2; nia|]); (split; [first [exact H1|exact H2]|]); rewrite ?Nat.eqb_refl, ?N1'; auto.
  - intros t tid Hi Hm. unfold X, Y. cbn [Nat.add]. touch; lia.
  - intros t tid m c Hi Hm Hc. unfold CudaFftProofs.view, CudaFftProofs.cmul, CudaFftProofs.cadd. cbn [fst snd]. unfold_ops. steps. change (CudaBlockProofs.solo addr_eqb [] ?x) with x.
    destruct Hc as [<-|[<-|[<-|[<-|[]]]]]; rewrite ?Nat.eqb_refl, ?N1'; cbn [part fst snd]; repeat look1; reflexivity.
  - intros tid m m' c Hi Hc E. assert (Es : view sb so m tid = view sb so m' tid) by (apply view_eq; (apply E; [reflexivity|right; apply own_none, H3])).
    assert (Er : view rb (z * H) m tid = view rb (z * H) m' tid) by (apply view_eq; (apply E; [reflexivity|left; cbn [In]; tauto])).
    assert (Ef : view fb 0 m tid = view fb 0 m' tid) by (apply view_eq; (apply E; [reflexivity|left; cbn [In Nat.add]; tauto])).
    rewrite Es, Er, Ef. destruct Hc as [<-|[<-|[<-|[<-|[]]]]]; rewrite ?Nat.eqb_refl, ?N1'; try reflexivity; (apply E; [reflexivity|left; cbn [In]; tauto]).
  - intros tid c Hi [<-|[<-|[<-|[<-|[]]]]]; cbn [buf_of In]; tauto.
  - intros m m' G1 G2 (Hr & Hf & Hs). split.
    + intros z' i Hz' Hi. destruct (Nat.eqb_spec z' z) as [->|Hne].
      * rewrite (G1 i (Dbl rb (z * H + i) false) Hi) by (cbn [In]; tauto). rewrite (G1 i (Dbl rb (z * H + i) true) Hi) by (cbn [In]; tauto). rewrite Nat.eqb_refl.
        rewrite (cplx_view rb res k m z i Hr Hz Hi), Hs by exact Hi. rewrite (cplx_view fb (fun _ => x) 1 m 0 i Hf ltac:(lia) Hi : view fb 0 m i = x i). split; reflexivity.
      * rewrite !G2; [apply Hr; assumption|reflexivity| |reflexivity|]; intros tid Ht [E|[E|[E|[E|[]]]]]; try discriminate E; injection E; intros; try (apply N1; congruence); apply Hne; symmetry; apply (dbl_index z z' tid i); assumption.
    + intros z' i Hz' Hi. assert (z' = 0) by lia. subst z'. cbn [Nat.mul Nat.add]. rewrite (G1 i (Dbl fb i false) Hi) by (cbn [In]; tauto). rewrite (G1 i (Dbl fb i true) Hi) by (cbn [In]; tauto). rewrite N1'. apply (Hf 0 i); [lia|exact Hi].
Qed.
(** bootstrap_amortized.cuh:168-176 *)
Lemma copy_phase ob rb sb z k res : ob rb = true -> ob sb = true -> base rb = 0 -> base sb = 0 -> rb <> sb -> z < k -> k * H <= size sb -> H <= size rb ->
  triple (Some (own_of ob)) [copy rO N (2 * o) rb 0 sb (z * H)] (Some (own_of ob)) [sb; rb]
    (cplx sb res k) (fun m => cplx rb (fun _ => res z) 1 m /\ cplx sb res k m).
Proof.
  intros H1 H2 B1 B2 N1 Hz S1 S2. unfold copy. rewrite E_threads, E_opt.
  assert (N1' : (rb =? sb) = false) by (apply Nat.eqb_neq; auto). assert (N2' : (sb =? rb) = false) by (apply Nat.eqb_neq; auto).
  apply (half_phase ob (fun _ => 0) (fun b => if b =? sb then z else 0) _ (fun tid => [Dbl sb (z * H + tid) false; Dbl sb (z * H + tid) true; Dbl rb tid false; Dbl rb tid true])
    (fun tid m c => match c with Dbl b _ im => if b =? rb then Db (part im (view sb (z * H) m tid)) else m c | _ => m c end)).
  - intros tid c Hi [<-|[<-|[<-|[<-|[]]]]]; (split; [apply Hdbl; clear - Hi Hz S1 S2; nia|]); (split; [first [exact H1|exact H2]|]); rewrite ?Nat.eqb_refl, ?N1'; auto.
  - intros t tid Hi Hm. unfold X, Y. cbn [Nat.add]. touch; lia.
  - intros t tid m c Hi Hm Hc. unfold CudaFftProofs.view. cbn [fst snd]. unfold_ops. steps. change (CudaBlockProofs.solo addr_eqb [] ?x) with x.
    destruct Hc as [<-|[<-|[<-|[<-|[]]]]]; rewrite ?Nat.eqb_refl, ?N2'; cbn [part fst snd]; repeat look1; reflexivity.
  - intros tid m m' c Hi Hc E.
    assert (Er : view sb (z * H) m tid = view sb (z * H) m' tid) by (apply view_eq; (apply E; [reflexivity|left; cbn [In]; tauto])).
    rewrite Er. destruct Hc as [<-|[<-|[<-|[<-|[]]]]]; rewrite ?Nat.eqb_refl, ?N2'; try reflexivity; (apply E; [reflexivity|left; cbn [In]; tauto]).
  - intros tid c Hi [<-|[<-|[<-|[<-|[]]]]]; cbn [buf_of In]; tauto.
  - intros m m' G1 G2 Hr. split.
    + intros z' i Hz' Hi. assert (z' = 0) by lia. subst z'. cbn [Nat.mul Nat.add]. rewrite (G1 i (Dbl rb i false) Hi) by (cbn [In]; tauto). rewrite (G1 i (Dbl rb i true) Hi) by (cbn [In]; tauto). rewrite Nat.eqb_refl.
      rewrite (cplx_view sb res k m z i Hr Hz Hi). split; reflexivity.
    + intros z' i Hz' Hi. destruct (Nat.eqb_spec z' z) as [->|Hne].
      * rewrite (G1 i (Dbl sb (z * H + i) false) Hi) by (cbn [In]; tauto). rewrite (G1 i (Dbl sb (z * H + i) true) Hi) by (cbn [In]; tauto). rewrite N2'. apply Hr; assumption.
      * rewrite !G2; [apply Hr; assumption|reflexivity| |reflexivity|]; intros tid Ht [E|[E|[E|[E|[]]]]]; try discriminate E; injection E; intros; try (apply N1; congruence); apply Hne; symmetry; apply (dbl_index z z' tid i); assumption.
Qed.
(** polynomial/functions.cuh:170-199 *)
Context (torus1 torus2 : R -> Z).
Definition added (p : nat -> R * R) (x : nat -> Z) (i : nat) : Z := wadd w (x i) (if i <? H then torus1 (fst (p i)) else torus2 (snd (p (i - H)))).
Lemma torus_ok ob mb y ky rb z k p acc : ob mb = true -> ob rb = true -> base mb = 0 -> rb <> mb -> y < ky -> ky * H <= size mb -> z < k -> base rb + k * N <= size rb ->
  triple (Some (own_of ob)) [add_to_torus w rO N (2 * o) torus1 torus2 mb (y * H) rb (base rb + z * N)] (Some (own_of ob)) [rb; mb]
    (fun m => words rb acc k m /\ cplx mb p ky m)
    (fun m => words rb (fun z' i => if z' =? z then added (p y) (acc z) i else acc z' i) k m /\ cplx mb p ky m).
Proof.
  intros H1 H2 B1 N1 Hy S1 Hz S2. unfold add_to_torus. rewrite E_threads, E_opt, E_half.
  assert (HH : 0 < H) by (pose proof o_pos; clear - HT Ho H0; nia).
  set (A := fun tid => base rb + z * N + tid).
  apply (half_phase ob (fun _ => z) (fun _ => y) _ (fun tid => [Word rb (A tid); Word rb (A tid + H); Dbl mb (y * H + tid) false; Dbl mb (y * H + tid) true])
    (fun tid m c => match c with Word _ i => Wd (wadd w (wd (m c)) (if i =? A tid then torus1 (fst (view mb (y * H) m tid)) else torus2 (snd (view mb (y * H) m tid)))) | _ => m c end)).
  - intros tid c Hi [<-|[<-|[<-|[<-|[]]]]]; (split; [first [apply Hword|apply Hdbl]; unfold A; clear - Hi Hz Hy S1 S2; nia|]); (split; [first [exact H1|exact H2]|]); unfold A; [lia|lia|auto|auto].
  - intros t tid Hi Hm. unfold X, Y. fold (A tid). touch.
  - intros t tid m c Hi Hm Hc. fold (A tid). assert (Ea : (A tid =? A tid + H) = false) by (apply Nat.eqb_neq; lia). assert (Eb : (A tid + H =? A tid) = false) by (apply Nat.eqb_neq; lia).
    unfold CudaFftProofs.view. cbn [fst snd]. unfold_ops. steps. change (CudaBlockProofs.solo addr_eqb [] ?x) with x.
    destruct Hc as [<-|[<-|[<-|[<-|[]]]]]; rewrite ?Nat.eqb_refl, ?Eb; repeat look1; reflexivity.
  - intros tid m m' c Hi Hc E.
    assert (Er : view mb (y * H) m tid = view mb (y * H) m' tid) by (apply view_eq; (apply E; [reflexivity|left; cbn [In]; tauto])).
    rewrite Er. rewrite (E c); [reflexivity| |left; exact Hc]. destruct Hc as [<-|[<-|[<-|[<-|[]]]]]; reflexivity.
  - intros tid c Hi [<-|[<-|[<-|[<-|[]]]]]; cbn [buf_of In]; tauto.
  - intros m m' G1 G2 [Hr Hm]. split.
    + intros z' i Hz' Hi. destruct (Nat.eqb_spec z' z) as [->|Hzj].
      * unfold added. destruct (Nat.ltb_spec i H) as [Hl|Hl].
        -- rewrite (G1 i (Word rb (base rb + z * N + i)) Hl) by (left; reflexivity). unfold A. rewrite Nat.eqb_refl, Hr by assumption. rewrite (cplx_view mb p ky m y i Hm Hy Hl). reflexivity.
        -- assert (Ei : base rb + z * N + i = A (i - H) + H) by (unfold A; lia). rewrite (G1 (i - H) (Word rb (base rb + z * N + i))) by (try lia; rewrite Ei; cbn [In]; tauto).
           rewrite Hr by assumption. replace (base rb + z * N + i =? A (i - H)) with false by (symmetry; apply Nat.eqb_neq; lia). rewrite (cplx_view mb p ky m y (i - H) Hm Hy) by lia. reflexivity.
      * rewrite G2; [apply Hr; assumption|reflexivity|]. intros tid Ht [E|[E|[E|[E|[]]]]]; try discriminate E; injection E as E; unfold A in E.
        -- apply Hzj. symmetry. apply (word_index z z' tid i rb); [lia|exact Hi|exact E].
        -- apply Hzj. symmetry. apply (word_index z z' (tid + H) i rb); [lia|exact Hi|lia].
    + intros z' i Hz' Hi. destruct (Nat.eq_dec z' y) as [->|Hne].
      * rewrite (G1 i (Dbl mb (y * H + i) false) Hi) by (cbn [In]; tauto). rewrite (G1 i (Dbl mb (y * H + i) true) Hi) by (cbn [In]; tauto). apply Hm; assumption.
      * rewrite !G2; [apply Hm; assumption|reflexivity| |reflexivity|]; intros tid Ht [E|[E|[E|[E|[]]]]]; try discriminate E; injection E; intros; apply Hne; symmetry; apply (dbl_index y z' tid i); assumption.
Qed.

(** fft/bnsmfft.cuh *)
Context (tw : nat -> R * R) (q h : R).
Hypothesis (Hq : tw 1 = (q, q)).
Notation csub := (csub rsub). Notation conj := (conj ropp).
Notation dir := (dir cadd cmul csub tw n n). Notation inv := (inv cadd cmul csub (fun k => conj (tw k)) n n).
Lemma fft_frame b z (m m' : mem) g k x : z < k -> cplx b g k m -> changed_only b (z * H) H m m' -> holds b (z * H) H m' x -> cplx b (fun z' => if z' =? z then x else g z') k m'.
Proof.
  intros Hz Hm Hc Hx z' i Hz' Hi. destruct (Nat.eqb_spec z' z) as [->|Hne]; [apply Hx, Hi|].
  rewrite !(changed_only_only H _ _ _ _ Hc); [apply Hm; assumption|reflexivity| |reflexivity|]; intros j im Hj E; injection E; intros; apply Hne; apply (dbl_index z' z i j); assumption.
Qed.
Lemma fft_keeps b z (m m' : mem) : changed_only b (z * H) H m m' -> keeps [b] m m'.
Proof. intros Hc c Hl Hb. apply (changed_only_only H _ _ _ _ Hc); [exact Hl|]. intros i im _ ->. apply Hb. left. reflexivity. Qed.
Lemma dir_view x y i : (forall j, j < H -> x j = y j) -> i < H -> dir x i = dir y i.
Proof. intros E Hi. apply (dir_local cadd cmul csub tw tw H n Hn n (le_n n)); assumption. Qed.
Lemma inv_view x y i : (forall j, j < H -> x j = y j) -> i < H -> inv x i = inv y i.
Proof. intros E Hi. apply (inv_local cadd cmul csub (fun k => conj (tw k)) (fun k => conj (tw k)) H n Hn n (le_n n)); assumption. Qed.
Definition last_bar (k : list (aseg (A := addr) (V := val))) : Prop := exists k', k = k' ++ [ABar].
Lemma disciplined_left cur (k l : list (aseg (A := addr) (V := val))) : disciplined ok T cur (k ++ l) -> disciplined ok T cur k.
Proof. revert cur. induction k as [|[|own f] k IH]; intros cur D; [exact I| |]; cbn [app disciplined] in D |- *; [apply IH; assumption|]. destruct D as (D1 & D2 & D3). eauto. Qed.
Lemma disciplined_last cur k rest : last_bar k -> disciplined ok T cur k -> disciplined ok T None rest -> disciplined ok T cur (k ++ rest).
Proof. intros [k' ->] D Dr. rewrite <- app_assoc. apply (disciplined_bar ok T); [|exact Dr]. eapply disciplined_left, D. Qed.
Lemma last_bar_app k l : l = [] \/ last_bar l -> last_bar k -> last_bar (k ++ l).
Proof. intros [->|[l' ->]] [k' ->]; [rewrite app_nil_r; exists k'; reflexivity|]. exists ((k' ++ [ABar]) ++ l'). rewrite app_assoc. reflexivity. Qed.
Lemma level_last b z s code : last_bar (a_level b z H T o s code).
Proof. exists [APar (own_by b z H T (pair_index s)) (strided T (o / 2) code)]. reflexivity. Qed.
Lemma direct_loop_last b z fuel : forall s m, let k := a_direct_loop rO radd rmul rsub b z H T tw o fuel s m in k = [] \/ last_bar k.
Proof.
  induction fuel as [|fuel IH]; intros s m; cbv zeta; cbn [a_direct_loop]; [auto|]. destruct (1 <? s); [|auto]. right. apply last_bar_app; [apply IH|apply level_last].
Qed.
Lemma inverse_loop_last b z fuel : forall s m, let k := a_inverse_loop rO radd rmul rsub b z H T tw o fuel s m in k = [] \/ last_bar k.
Proof.
  induction fuel as [|fuel IH]; intros s m; cbv zeta; cbn [a_inverse_loop]; [auto|]. destruct (1 <? m); [|auto]. right. apply last_bar_app; [apply IH|apply level_last].
Qed.
Lemma direct_phase b z k g : z < k -> k * H <= size b ->
  triple None (NSMFFT_direct rO radd rmul rsub tw q b (z * H) H o) None [b] (cplx b g k) (cplx b (fun z' => if z' =? z then dir (g z) else g z') k).
Proof.
  intros Hz Hs. assert (Ha : forall i im, i < H -> ok (Dbl b (z * H + i) im) = true) by (intros i im Hi; apply Hdbl; clear - Hz Hs Hi; nia).
  destruct (direct_ok rO rI radd rmul rsub ropp R_ring b (z * H) ok H T HT Ha Hloc tw q n o Hn Hn1 Ho Heven Hq) as [D M].
  exists (a_direct rO radd rmul rsub b (z * H) H T tw q n o). split; [apply (erase_direct rO radd rmul rsub b (z * H) ok H T HT Ha Hloc tw q n o Hn Hn1 Ho Heven)|]. split.
  - intros rest Hr. apply disciplined_last; [|exact D|exact Hr]. unfold a_direct. apply last_bar_app; [apply direct_loop_last|apply level_last].
  - intros m. destruct (M m) as [C1 F1]. split; [exact (fft_keeps b z m _ C1)|]. intros Hm. apply (fft_frame b z m _ g k); [exact Hz|exact Hm|exact C1|].
    intros i Hi. destruct (F1 i Hi) as [G1 G2]. rewrite (dir_view _ (g z) i) in G1, G2 by (try exact Hi; intros j Hj; exact (cplx_view b g k m z j Hm Hz Hj)). auto.
Qed.
Lemma inverse_phase b z k g : z < k -> k * H <= size b ->
  triple None (NSMFFT_inverse rO radd rmul rsub tw h b (z * H) H o) None [b] (cplx b g k) (cplx b (fun z' => if z' =? z then inv (fun i => cmul (h, rO) (g z i)) else g z') k).
Proof.
  intros Hz Hs. assert (Ha : forall i im, i < H -> ok (Dbl b (z * H + i) im) = true) by (intros i im Hi; apply Hdbl; clear - Hz Hs Hi; nia).
  destruct (inverse_ok rO rI radd rmul rsub ropp R_ring b (z * H) ok H T HT Ha Hloc tw h n o Hn Hn1 Ho Heven) as [D M].
  exists (a_inverse rO radd rmul rsub b (z * H) H T tw h o). split; [apply (erase_inverse rO radd rmul rsub b (z * H) H T tw h n o Hn Ho Heven)|]. split.
  - intros rest Hr. apply disciplined_last; [|exact D|exact Hr]. unfold a_inverse. apply last_bar_app; [apply inverse_loop_last|]. exists [APar (own_by b (z * H) H T (fun i => i)) (strided T o (code_scale rO rmul b (z * H) h))]. reflexivity.
  - intros m. destruct (M m) as [C1 F1]. split; [exact (fft_keeps b z m _ C1)|]. intros Hm. apply (fft_frame b z m _ g k); [exact Hz|exact Hm|exact C1|].
    intros i Hi. destruct (F1 i Hi) as [G1 G2]. rewrite (inv_view _ (fun i => cmul (h, rO) (g z i)) i) in G1, G2 by (try exact Hi; intros j Hj; rewrite (cplx_view b g k m z j Hm Hz Hj); reflexivity). auto.
Qed.

(** polynomial/functions.cuh:212-282 *)
(** The array result of the threads *)
Definition regs (f : nat -> Z) (m : mem) : Prop := forall tid, tid < N -> m (Loc (tid mod T) (10 + tid / T)) = Wd (f tid).
Definition no_bufs (b : nat) : bool := false.
Lemma reg_index i i' : i mod T = i' mod T -> 10 + i / T = 10 + i' / T -> i = i'.
Proof. intros E1 E2. rewrite (Nat.div_mod i T), (Nat.div_mod i' T) by lia. rewrite E1. replace (i / T) with (i' / T) by lia. reflexivity. Qed.
Lemma reg_phase code (value : nat -> mem -> val) (P : mem -> Prop) (f : nat -> Z) :
  (forall t i, i < N -> i mod T = t -> Forall (tch ok (own_of no_bufs) [Loc t (10 + i / T)] t) (code t i)) ->
  (forall t i m, i < N -> i mod T = t -> solo (code t i) m (Loc t (10 + i / T)) = value i m) ->
  (forall i m m', i < N -> (forall d, is_local d = false -> m d = m' d) -> value i m = value i m') ->
  (forall m i, P m -> i < N -> value i m = Wd (f i)) ->
  triple (Some (own_of no_bufs)) [Par (strided T (2 * o) code)] (Some (own_of no_bufs)) [] P (regs f).
Proof.
  intros Ht He Hd Hf. assert (EN : 2 * o * T = N) by (rewrite <- Ho; lia).
  apply (triple_phase ok T HT Hloc (own_of no_bufs) (2 * o) code (fun i => [Loc (i mod T) (10 + i / T)]) (fun i m _ => value i m)); rewrite ?EN.
  - reflexivity.
  - intros i c Hi [<-|[]]. split; [apply Hloc|]. split; reflexivity.
  - intros i i' c Hi Hi' [<-|[]] [E|[]]. injection E as E1 E2. symmetry. apply reg_index; [exact E1|]. rewrite E2. reflexivity.
  - intros t i _ Hi <-. apply Ht; auto.
  - intros t i m c _ Hi Hm [<-|[]]. subst t. apply He; auto.
  - intros i m m' c Hi [<-|[]] E. apply Hd; [exact Hi|]. intros d Hl. apply E; [destruct d; [reflexivity|reflexivity|discriminate]|right; destruct d; [reflexivity|reflexivity|discriminate]].
  - intros i c Hi [<-|[]] Hl. discriminate Hl.
  - intros m m' H1 H2 Hp i Hi. rewrite (H1 i (Loc (i mod T) (10 + i / T)) Hi) by (left; reflexivity). apply Hf; assumption.
Qed.
(** acc[tid] = result[i] *)
Lemma unload_ok ob ab z k acc f : ob ab = true -> z < k -> base ab + k * N <= size ab ->
  triple (Some (own_of ob)) [Par (strided T (2 * o) (fun t tid => [put1 rO t (Word ab (base ab + z * N + tid)) (10 + tid / T) (fun x => x)]))] (Some (own_of ob)) [ab]
    (fun m => words ab acc k m /\ regs f m) (words ab (fun z' i => if z' =? z then f i else acc z' i) k).
Proof.
  intros Ha Hz Hs. assert (EN : 2 * o * T = N) by (rewrite <- Ho; lia).
  apply (triple_phase ok T HT Hloc (own_of ob) (2 * o) _ (fun i => [Word ab (base ab + z * N + i); Loc (i mod T) (10 + i / T)])
    (fun i m c => match c with Loc _ _ => m c | _ => Wd (wd (m (Loc (i mod T) (10 + i / T)))) end)); rewrite ?EN.
  - reflexivity.
  - intros i c Hi [<-|[<-|[]]]; [|split; [apply Hloc|]; split; reflexivity]. split; [apply Hword; clear - Hi Hz Hs; nia|]. split; [reflexivity|apply own_word, Ha].
  - intros i i' c Hi Hi' [<-|[<-|[]]] [E|[E|[]]]; try discriminate E; injection E; intros; [lia|]. symmetry. apply reg_index; [assumption|]. f_equal. assumption.
  - intros t i _ Hi <-. touch.
  - intros t i m c _ Hi <- Hc. unfold CudaBlockProofs.solo. cbn [fold_left]. unfold put1. cbn [exec1 map]. unfold upd, warg. cbn [nth]. destruct Hc as [<-|[<-|[]]]; [|reflexivity]. rewrite (proj2 (addr_eqb_eq _ _) eq_refl). reflexivity.
  - intros i m m' c Hi [<-|[<-|[]]] E; rewrite (E (Loc (i mod T) (10 + i / T))); try reflexivity; left; right; left; reflexivity.
  - intros i c Hi [<-|[<-|[]]] Hl; [left; reflexivity|discriminate Hl].
  - intros m m' H1 H2 [Hm Hr] z' i Hz' Hi. destruct (Nat.eqb_spec z' z) as [->|Hne].
    + rewrite (H1 i (Word ab (base ab + z * N + i)) Hi) by (left; reflexivity). rewrite Hr by exact Hi. reflexivity.
    + rewrite H2; [apply Hm; assumption|reflexivity|]. intros i' Hi' [E|[E|[]]]; [|discriminate E]. injection E as E. apply Hne. symmetry. apply (word_index z z' i' i ab Hi' Hi E).
Qed.
Definition extracted (x : nat -> Z) (i : nat) : Z := if i <? 1 then wneg w (wneg w (x 0)) else wneg w (x (N - i)).
Lemma negate_ok ob ab z k acc : ob ab = true -> z < k -> base ab + k * N <= size ab ->
  triple (Some (own_of ob)) [Par (strided T (2 * o) (fun t tid => [load rO t 0 (Word ab (base ab + z * N + tid)); put1 rO t (Word ab (base ab + z * N + tid)) 0 (wneg w)]))] (Some (own_of ob)) [ab]
    (words ab acc k) (words ab (fun z' i => if z' =? z then wneg w (acc z i) else acc z' i) k).
Proof.
  intros Ha Hz Hs. apply (word_phase ob ab z (fun i m => wneg w (wd (m (Word ab (base ab + z * N + i)))))); [exact Ha|clear - Hz Hs; nia| | | |].
  - intros t i Hit _. touch.
  - intros t i m Hit _. apply load_put1. discriminate.
  - intros i m m' Hit E _. rewrite E. reflexivity.
  - intros m m' H1 H2 Hm. apply (words_step ab z acc (fun i => wneg w (acc z i)) k m); [exact Hz|exact Hm| |exact H2]. intros i Hit. rewrite H1 by exact Hit. rewrite Hm by assumption. reflexivity.
Qed.
Lemma reverse_ok ab z k acc : z < k -> base ab + k * N <= size ab ->
  triple (Some (own_of no_bufs)) [Par (strided T (2 * o) (fun t tid => [load rO t (10 + tid / T) (Word ab (base ab + z * N + (N - tid - 1)))]))] (Some (own_of no_bufs)) []
    (words ab acc k) (regs (fun i => acc z (N - i - 1))).
Proof.
  intros Hz Hs. apply (reg_phase _ (fun i m => m (Word ab (base ab + z * N + (N - i - 1))))).
  - intros t i Hi _. constructor; [|constructor]. cbn [tch load]. split; [right; left; reflexivity|]. constructor; [|constructor]. right. right. split; [apply Hword; clear - Hi Hz Hs; nia|reflexivity].
  - intros t i m Hi _. unfold CudaBlockProofs.solo. cbn [fold_left]. unfold load. cbn [exec1 map nth]. unfold upd. rewrite (proj2 (addr_eqb_eq _ _) eq_refl). reflexivity.
  - intros i m m' Hi E. apply E. reflexivity.
  - intros m i Hm Hi. apply Hm; [exact Hz|lia].
Qed.
Lemma shift_ok ab z k acc : z < k -> base ab + k * N <= size ab ->
  triple (Some (own_of no_bufs)) [Par (strided T (2 * o) (fun t tid => if Nat.ltb 1 N then
       if Nat.ltb tid 1 then [load rO t 0 (Word ab (base ab + z * N + (tid + N - 1))); put1 rO t (Loc t (10 + tid / T)) 0 (wneg w)]
       else [load rO t (10 + tid / T) (Word ab (base ab + z * N + (tid - 1)))]
     else []))] (Some (own_of no_bufs)) []
    (words ab acc k) (regs (fun i => if i <? 1 then wneg w (acc z (N - 1)) else acc z (i - 1))).
Proof.
  intros Hz Hs. assert (HN : 1 < N) by (pose proof o_pos; clear - HT Ho H0; nia). replace (Nat.ltb 1 N) with true by (symmetry; apply Nat.ltb_lt; exact HN).
  apply (reg_phase _ (fun i m => if i <? 1 then Wd (wneg w (wd (m (Word ab (base ab + z * N + (i + N - 1)))))) else m (Word ab (base ab + z * N + (i - 1))))).
  - intros t i Hi _. destruct (Nat.ltb_spec i 1).
    + apply Forall_cons; [|apply Forall_cons; [|apply Forall_nil]]; cbn [tch load put1].
      * split; [left; exists 0; split; [lia|reflexivity]|]. apply Forall_cons; [|apply Forall_nil]. right. right. split; [apply Hword; clear - Hi Hz Hs H0; nia|reflexivity].
      * split; [right; left; reflexivity|]. apply Forall_cons; [|apply Forall_nil]. left. exists 0. split; [lia|reflexivity].
    + apply Forall_cons; [|apply Forall_nil]. cbn [tch load]. split; [right; left; reflexivity|]. apply Forall_cons; [|apply Forall_nil]. right. right. split; [apply Hword; clear - Hi Hz Hs H0; nia|reflexivity].
  - intros t i m Hi _. destruct (Nat.ltb_spec i 1).
    + apply load_put1. intros E. injection E. discriminate.
    + unfold CudaBlockProofs.solo. cbn [fold_left]. unfold load. cbn [exec1 map nth]. unfold upd. rewrite (proj2 (addr_eqb_eq _ _) eq_refl). reflexivity.
  - intros i m m' Hi E. rewrite !E by reflexivity. reflexivity.
  - intros m i Hm Hi. destruct (Nat.ltb_spec i 1); [|apply Hm; [exact Hz|lia]]. rewrite Hm by lia. replace (i + N - 1) with (N - 1) by lia. reflexivity.
Qed.
Lemma output_ok ob ab out z k acc kz f : ob ab = true -> ob out = true -> ab <> out -> z < k -> z < kz -> base ab + k * N <= size ab -> base out + kz * N <= size out ->
  triple (Some (own_of ob)) [Par (strided T (2 * o) (fun t tid => [load rO t 0 (Word ab (base ab + z * N + tid)); put1 rO t (Word out (base out + z * N + tid)) 0 (fun x => x)]))] (Some (own_of ob)) [ab; out]
    (fun m => words ab acc k m /\ words out f z m) (fun m => words ab acc k m /\ words out (fun z' i => if z' =? z then acc z i else f z' i) (S z) m).
Proof.
  intros Ha Hb Hne Hz Hz2 Hs Hs2. assert (EN : 2 * o * T = N) by (rewrite <- Ho; lia).
  apply (triple_phase ok T HT Hloc (own_of ob) (2 * o) _ (fun i => [Word ab (base ab + z * N + i); Word out (base out + z * N + i)])
    (fun i m c => if buf_of c =? out then Wd (wd (m (Word ab (base ab + z * N + i)))) else m c)); rewrite ?EN.
  - reflexivity.
  - intros i c Hi [<-|[<-|[]]]; (split; [apply Hword; clear - Hi Hz Hz2 Hs Hs2; nia|]; split; [reflexivity|apply own_word; assumption]).
  - intros i i' c Hi Hi' [<-|[<-|[]]] [E|[E|[]]]; injection E; intros; try (exfalso; congruence); lia.
  - intros t i _ Hi <-. touch.
  - intros t i m c _ Hi <- Hc. destruct Hc as [<-|[<-|[]]]; cbn [buf_of].
    + rewrite (proj2 (Nat.eqb_neq ab out) Hne). apply solo_unwritten. intros x [<-|[<-|[]]]; cbn [dest load put1]; intros E; injection E; congruence.
    + rewrite Nat.eqb_refl. apply load_put1. discriminate.
  - intros i m m' c Hi Hc E. rewrite (E (Word ab (base ab + z * N + i))) by (try reflexivity; left; left; reflexivity). rewrite (E c); [reflexivity| |left; exact Hc]. destruct Hc as [<-|[<-|[]]]; reflexivity.
  - intros i c Hi [<-|[<-|[]]] Hl; cbn [buf_of In]; tauto.
  - intros m m' H1 H2 [Hm Hr]. split.
    + intros z' i Hz' Hi. destruct (Nat.eq_dec z' z) as [->|Hn'].
      * rewrite (H1 i (Word ab (base ab + z * N + i)) Hi) by (left; reflexivity). cbn [buf_of]. rewrite (proj2 (Nat.eqb_neq ab out) Hne). apply Hm; assumption.
      * rewrite H2; [apply Hm; assumption|reflexivity|]. intros i' Hi' [E|[E|[]]]; injection E; intros; [|congruence]. apply Hn'. symmetry. apply (word_index z z' i' i ab Hi' Hi). assumption.
    + intros z' i Hz' Hi. destruct (Nat.eqb_spec z' z) as [->|Hn'].
      * rewrite (H1 i (Word out (base out + z * N + i)) Hi) by (right; left; reflexivity). cbn [buf_of]. rewrite Nat.eqb_refl, Hm by assumption. reflexivity.
      * rewrite H2; [apply Hr; [lia|assumption]|reflexivity|]. intros i' Hi' [E|[E|[]]]; injection E; intros; [congruence|]. apply Hn'. symmetry. apply (word_index z z' i' i out Hi' Hi). assumption.
Qed.
Lemma mask_ok ob ab out z k acc kz f : ob ab = true -> ob out = true -> ab <> out -> z < k -> z < kz -> base ab + k * N <= size ab -> base out + kz * N <= size out ->
  triple (Some (own_of ob)) (sample_extract_mask w rO N (2 * o) out (base out) ab (base ab) z) (Some (own_of ob)) [ab; out]
    (fun m => words ab acc k m /\ words out f z m)
    (fun m => words ab (fun z' i => if z' =? z then extracted (acc z) i else acc z' i) k m /\ words out (fun z' i => if z' =? z then extracted (acc z) i else f z' i) (S z) m).
Proof.
  intros Ha Hb Hne Hz Hz2 Hs Hs2. unfold sample_extract_mask. rewrite !E_threads. cbv zeta.
  assert (So : forall bs g j, ~ In out bs -> stable bs (words out g j)) by (intros; apply words_stable; assumption).
  set (a1 := fun z' i => if z' =? z then wneg w (acc z i) else acc z' i).
  set (a3 := fun z' i => if z' =? z then a1 z (N - i - 1) else a1 z' i).
  set (a5 := fun z' i => if z' =? z then (if i <? 1 then wneg w (a3 z (N - 1)) else a3 z (i - 1)) else a3 z' i).
  assert (I1 : incl [ab] [ab; out]) by (intros x [<-|[]]; left; reflexivity).
  assert (NI : ~ In out [ab]) by (intros [E|[]]; congruence).
  eapply (triple_seq ok T _ [Par _] (Some (own_of ob)) (_ :: _) _ _ _ (fun m => words ab a1 k m /\ words out f z m)).
  { eapply triple_weaken; [eapply (triple_frame ok T _ _ _ _ _ _ (words out f z)); [apply So, NI|apply (negate_ok ob ab z k acc); assumption]|exact I1|auto|auto]. }
  apply triple_bar_cons.
  eapply (triple_seq ok T _ [Par _] (Some (own_of no_bufs)) (_ :: _) _ _ _ (fun m => (words ab a1 k m /\ regs (fun i => a1 z (N - i - 1)) m) /\ words out f z m)).
  { apply triple_start with (Some (own_of no_bufs)). eapply triple_weaken; [eapply (triple_frame ok T _ _ _ _ _ _ (fun m => words ab a1 k m /\ words out f z m)); [|apply (reverse_ok ab z k a1); assumption]|intros x []|cbv beta; tauto|cbv beta; tauto].
    apply stable_and; apply words_stable; intros []. }
  apply triple_bar_cons.
  eapply (triple_seq ok T _ [Par _] (Some (own_of ob)) (_ :: _) _ _ _ (fun m => words ab a3 k m /\ words out f z m)).
  { apply triple_start with (Some (own_of ob)). eapply triple_weaken; [eapply (triple_frame ok T _ _ _ _ _ _ (words out f z)); [apply So, NI|apply (unload_ok ob ab z k a1 (fun i => a1 z (N - i - 1))); assumption]|exact I1|auto|auto]. }
  apply triple_bar_cons.
  eapply (triple_seq ok T _ [Par _] (Some (own_of no_bufs)) (_ :: _) _ _ _ (fun m => (words ab a3 k m /\ regs (fun i => if i <? 1 then wneg w (a3 z (N - 1)) else a3 z (i - 1)) m) /\ words out f z m)).
  { apply triple_start with (Some (own_of no_bufs)). eapply triple_weaken; [eapply (triple_frame ok T _ _ _ _ _ _ (fun m => words ab a3 k m /\ words out f z m)); [|apply (shift_ok ab z k a3); assumption]|intros x []|cbv beta; tauto|cbv beta; tauto].
    apply stable_and; apply words_stable; intros []. }
  apply triple_bar_cons.
  eapply (triple_seq ok T _ [Par _] (Some (own_of ob)) (_ :: _) _ _ _ (fun m => words ab a5 k m /\ words out f z m)).
  { apply triple_start with (Some (own_of ob)). eapply triple_weaken; [eapply (triple_frame ok T _ _ _ _ _ _ (words out f z)); [apply So, NI|apply (unload_ok ob ab z k a3 (fun i => if i <? 1 then wneg w (a3 z (N - 1)) else a3 z (i - 1))); assumption]|exact I1|auto|auto]. }
  apply triple_bar_cons.
  assert (E5 : forall z' i, i < N -> a5 z' i = if z' =? z then extracted (acc z) i else acc z' i).
  { intros z' i Hi. unfold a5, a3, a1, extracted. rewrite Nat.eqb_refl. destruct (Nat.eqb_spec z' z) as [->|_]; [|reflexivity]. destruct (Nat.ltb_spec i 1) as [Hl|Hl].
    - replace (N - (N - 1) - 1) with 0 by lia. reflexivity.
    - replace (N - (i - 1) - 1) with (N - i) by lia. reflexivity. }
  apply triple_start with (Some (own_of ob)). eapply triple_weaken; [apply (output_ok ob ab out z k a5 kz f); assumption|apply incl_refl|auto|].
  intros m [Hm1 Hm2]. split; [eapply words_ext; [|exact Hm1]; auto|]. eapply words_ext; [|exact Hm2]. cbv beta. intros z' i Hz' Hi. rewrite E5 by exact Hi. rewrite Nat.eqb_refl. reflexivity.
Qed.
(** polynomial/functions.cuh:204-209 *)
Lemma body_ok ob ab out kz acc f : ob ab = true -> ob out = true -> ab <> out -> base ab + (kz + 1) * N <= size ab -> base out + kz * N < size out ->
  triple (Some (own_of ob)) [sample_extract_body rO N (2 * o) out (base out) ab (base ab) kz] (Some (own_of ob)) [ab; out]
    (fun m => words ab acc (kz + 1) m /\ words out f kz m) (fun m => words out f kz m /\ m (Word out (base out + kz * N)) = Wd (acc kz 0)).
Proof.
  intros Ha Hb Hne Hs Hs2. unfold sample_extract_body. rewrite E_threads. assert (HN : 1 < N) by (pose proof o_pos; clear - HT Ho H0; nia).
  apply (triple_phase ok T HT Hloc (own_of ob) 1 _ (fun i => if i =? 0 then [Word ab (base ab + kz * N); Word out (base out + kz * N)] else [])
    (fun i m c => if buf_of c =? out then Wd (wd (m (Word ab (base ab + kz * N)))) else m c)); rewrite ?Nat.mul_1_l.
  - reflexivity.
  - intros i c Hi Hc. destruct (Nat.eqb_spec i 0) as [->|_]; [|contradiction]. rewrite Nat.mod_0_l by lia. pose proof (own_word ob) as Ow.
    destruct Hc as [<-|[<-|[]]]; (split; [apply Hword; lia|]; split; [reflexivity|]); [specialize (Ow ab kz 0 Ha)|specialize (Ow out kz 0 Hb)]; rewrite Nat.add_0_r, Nat.mod_0_l in Ow by lia; exact Ow.
  - intros i i' c Hi Hi' Hc Hc'. destruct (Nat.eqb_spec i 0); [|contradiction]. destruct (Nat.eqb_spec i' 0); [|contradiction]. lia.
  - intros t i _ Hi <-. destruct (Nat.eqb_spec i 0) as [->|_]; [|constructor]. touch.
  - intros t i m c _ Hi <- Hc. destruct (Nat.eqb_spec i 0) as [->|_]; [|contradiction]. destruct Hc as [<-|[<-|[]]]; cbn [buf_of].
    + rewrite (proj2 (Nat.eqb_neq ab out) Hne). apply solo_unwritten. intros x [<-|[<-|[]]]; cbn [dest load put1]; intros E; injection E; congruence.
    + rewrite Nat.eqb_refl. apply load_put1. discriminate.
  - intros i m m' c Hi Hc E. destruct (Nat.eqb_spec i 0) as [->|_]; [|contradiction]. rewrite (E (Word ab (base ab + kz * N))) by (try reflexivity; left; left; reflexivity). rewrite (E c); [reflexivity| |left; exact Hc]. destruct Hc as [<-|[<-|[]]]; reflexivity.
  - intros i c Hi Hc Hl. destruct (i =? 0); [|contradiction]. destruct Hc as [<-|[<-|[]]]; cbn [buf_of In]; tauto.
  - intros m m' H1 H2 [Hm Hr]. split.
    + intros z' i Hz' Hi. rewrite H2; [apply Hr; assumption|reflexivity|]. intros i' Hi' Hc. destruct (i' =? 0); [|contradiction]. destruct Hc as [E|[E|[]]]; [injection E; congruence|]. injection E as E1. clear - E1 Hz' Hi. nia.
    + rewrite (H1 0 (Word out (base out + kz * N)) HT) by (cbn [Nat.eqb In]; tauto). cbn [buf_of]. rewrite Nat.eqb_refl. pose proof (Hm kz 0 ltac:(lia) ltac:(lia)) as G. rewrite Nat.add_0_r in G. rewrite G. reflexivity.
Qed.
End Phases.
