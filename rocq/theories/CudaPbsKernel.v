(** * The whole GPU bootstrap kernel, under every interleaving *)
From Verif Require Import Base Word CudaKsModel CudaBlockModel CudaBlockProofs CudaFftModel CudaFftAlgebra CudaFftProofs CudaFftFacts CudaHoare CudaPbsModel CudaPbsPhases.
From Coq Require Import Ring.
Local Open Scope nat_scope.

Section Kernel.
Context (w : Z) {R : Type} (rO rI : R) (radd rmul rsub : R -> R -> R) (ropp : R -> R).
Hypothesis R_ring : ring_theory rO rI radd rmul rsub ropp (@eq R).
Context (ok : addr -> bool) (size : nat -> nat) (out H T n o : nat).
Hypothesis (HT : 0 < T) (Hn : H = 2 ^ n) (Hn1 : 1 <= n) (Ho : o * T = H) (Heven : Nat.even o = true)
  (Hloc : forall t r, ok (Loc t r) = true) (Hword : forall b i, i < size b -> ok (Word b i) = true) (Hdbl : forall b i im, i < size b -> ok (Dbl b i im) = true).
Context (of_int : Z -> R) (torus1 torus2 : R -> Z) (tw : nat -> R * R) (q h : R).
Hypothesis (Hq : tw 1 = (q, q)).
Notation val := (val R).
Notation mem := (mem addr val).
Notation seg := (seg addr val).
Notation N := (2 * H).
Notation triple := (triple (R := R) ok T).
Definition base (b : nat) : nat := if b =? OUT then out else 0.
Notation own_of ob := (own_bufs T base ob).
Notation words := (words (R := R) base H). Notation cplx := (cplx (R := R) H).
Notation cadd := (cadd radd). Notation cmul := (cmul radd rmul rsub). Notation csub := (csub rsub). Notation conj := (conj ropp). Notation cO := (cO rO). Notation cI := (cI rO rI). Notation copp := (copp ropp).
Notation view := (view rO).
Notation dir := (dir cadd cmul csub tw n n). Notation inv := (inv cadd cmul csub (fun k => conj (tw k)) n n).
Notation csum := (csum cO cadd).
Notation C_ring := (c_ring rO rI radd rmul rsub ropp R_ring).
Lemma cadd_assoc (x y z : @C R) : cadd (cadd x y) z = cadd x (cadd y z). Proof. symmetry. apply (Radd_assoc C_ring). Qed.
Lemma cadd_O_r (x : @C R) : cadd x cO = x. Proof. rewrite (Radd_comm C_ring). apply (Radd_0_l C_ring). Qed.
Lemma rev_seq j : rev (seq 0 j) = map (fun s => j - 1 - s) (seq 0 j).
Proof.
  clear. induction j as [|j IH]; [reflexivity|]. rewrite seq_S at 1. rewrite rev_app_distr. cbn [rev app]. rewrite IH. change (seq 0 (S j)) with (0 :: seq 1 j). cbn [map]. rewrite <- (seq_shift j 0), map_map. apply f_equal2; [lia|].
  apply map_ext_in. intros a Ha%in_seq. lia.
Qed.
Lemma halves i : i * N / 2 = i * H.
Proof. clear. replace (i * (2 * H)) with (i * H * 2) by lia. apply Nat.div_mul. lia. Qed.
Lemma half_N : N / 2 = H. Proof. clear. rewrite Nat.mul_comm. apply Nat.div_mul. lia. Qed.
Lemma half_o : 2 * o / 2 = o. Proof. clear. rewrite Nat.mul_comm. apply Nat.div_mul. lia. Qed.
Definition among (l : list nat) (b : nat) : bool := existsb (Nat.eqb b) l.

Notation divide_ok := (divide_ok w rO ok size base H T n o HT Hn Hn1 Ho Heven Hloc Hword Hdbl).
Notation mul_sub_ok := (mul_sub_ok w rO ok size base H T n o HT Hn Hn1 Ho Heven Hloc Hword Hdbl).
Notation round_ok := (round_ok w rO ok size base H T n o HT Hn Hn1 Ho Heven Hloc Hword Hdbl).
Notation gadget_ok := (gadget_ok w rO ok size base H T n o HT Hn Hn1 Ho Heven Hloc Hword Hdbl).
Notation clear_ok := (clear_ok rO ok size base H T n o HT Hn Hn1 Ho Heven Hloc Hword Hdbl).
Notation decompose_ok := (decompose_ok w rO ok size base H T n o HT Hn Hn1 Ho Heven Hloc Hword Hdbl of_int).
Notation product_ok := (product_ok w rO radd rmul rsub ok size base H T n o HT Hn Hn1 Ho Heven Hloc Hword Hdbl of_int).
Notation copy_phase := (copy_phase w rO ok size base H T n o HT Hn Hn1 Ho Heven Hloc Hword Hdbl of_int).
Notation torus_ok := (torus_ok w rO ok size base H T n o HT Hn Hn1 Ho Heven Hloc Hword Hdbl of_int torus1 torus2).
Notation direct_phase := (direct_phase rO rI radd rmul rsub ropp R_ring ok size base H T n o HT Hn Hn1 Ho Heven Hloc Hword Hdbl tw q Hq).
Notation inverse_phase := (inverse_phase rO rI radd rmul rsub ropp R_ring ok size base H T n o HT Hn Hn1 Ho Heven Hloc Hword Hdbl tw h).
Notation mask_ok := (mask_ok w rO ok size base H T n o HT Hn Hn1 Ho Heven Hloc Hword Hdbl of_int torus1 torus2 h).
Notation body_ok := (body_ok w rO ok size base H T n o HT Hn Hn1 Ho Heven Hloc Hword Hdbl of_int torus1 torus2 h).
Context (b : Z) (k l : nat).
Hypothesis (S_acc : (k + 1) * N <= size ACC) (S_rot : (k + 1) * N <= size ROT) (S_res : (k + 1) * H <= size RES) (S_afft : H <= size AFFT) (S_out : out + k * N < size OUT).

(** ** What an iteration computes *)
(** The state of the decomposition before level number [s] of the loop *)
Definition start (a_hat : nat) (acc : nat -> nat -> Z) (z i : nat) : Z := shr (gpu_round w b l (wsub w (rotated w H a_hat (acc z) i) (acc z i))) (w - b * Z.of_nat l).
Fixpoint state (a_hat : nat) (acc : nat -> nat -> Z) (s : nat) (z i : nat) : Z := match s with O => start a_hat acc z i | S s => state_of w b (state a_hat acc s z i) end.
(** [key level p z]: the Fourier transform of polynomial [z] of row [p] of level [level] of the key of the iteration *)
Context (key : nat -> nat -> nat -> nat -> nat -> R * R).
Definition term (it a_hat : nat) (acc : nat -> nat -> Z) (s p z i : nat) : R * R := cmul (dir (digit_cplx w H of_int b (state a_hat acc s p)) i) (key it (l - 1 - s) p z i).
Definition total (it a_hat : nat) (acc : nat -> nat -> Z) (s p z i : nat) : R * R :=
  cadd (csum s (fun s => csum (k + 1) (fun p => term it a_hat acc s p z i))) (csum p (fun p => term it a_hat acc s p z i)).
Definition back (it a_hat : nat) (acc : nat -> nat -> Z) (z : nat) : nat -> R * R := inv (fun i => cmul (h, rO) (total it a_hat acc l 0 z i)).
Definition step (it a_hat : nat) (acc : nat -> nat -> Z) : nat -> nat -> Z := fun z => added w H torus1 torus2 (back it a_hat acc z) (acc z).

Section Iteration.
Context (it : nat).
Definition block (level p : nat) : nat := mask_kth_block N it p level k l.
Hypothesis (S_bsk : forall level p z, level < l -> p <= k -> z <= k -> block level p + z * H + H <= size BSK).
Definition key_ok (m : mem) : Prop := forall level p z i, level < l -> p <= k -> z <= k -> i < H -> view BSK (block level p + z * H) m i = key it level p z i.
Lemma key_stable bs : ~ In BSK bs -> stable bs key_ok.
Proof. intros Hb m m' K Hm level p z i H1 H2 H3 H4. rewrite <- Hm by assumption. unfold CudaFftProofs.view, X, Y. rewrite !K by (try reflexivity; exact Hb). reflexivity. Qed.
Lemma eqb_false_sym a c : a <> c -> (a =? c) = false. Proof. apply Nat.eqb_neq. Qed.

(** 108-112 *)
Lemma mul_sub_all a_hat acc : a_hat <= 2 * N ->
  triple (Some (own_of (among [ROT]))) (map (multiply_by_monomial_and_sub w rO N (2 * o) ACC 0 ROT 0 a_hat) (seq 0 (k + 1))) (Some (own_of (among [ROT]))) [ROT]
    (words ACC acc (k + 1)) (words ROT (fun z i => wsub w (rotated w H a_hat (acc z) i) (acc z i)) (k + 1)).
Proof.
  intros Ha. set (rot := fun z i => wsub w (rotated w H a_hat (acc z) i) (acc z i)).
  eapply triple_weaken; [apply (triple_parts ok T _ [ROT] _ (fun z m => words ROT rot z m /\ words ACC acc (k + 1) m))|apply incl_refl| |].
  - intros z Hz. eapply triple_weaken; [apply triple_with with (bs' := [ROT]) (G := words ACC acc (k + 1)); [apply (mul_sub_ok (among [ROT]) ACC ROT a_hat z acc (k + 1) rot); first [reflexivity|assumption]|apply incl_refl|apply words_stable; intros [E|[]]; discriminate]|apply incl_refl|cbv beta; tauto|].
    cbv beta. intros m [Hm Hf]. split; [|exact Hf]. eapply words_ext; [|exact Hm]. cbv beta. intros z' i _ _. destruct (Nat.eqb_spec z' z) as [->|]; reflexivity.
  - intros m Hm. split; [intros z i Hz; lia|exact Hm].
  - cbv beta. tauto.
Qed.
Notation obC := (among [ROT; RES]).
(** 117-120 *)
Lemma round_all rot :
  triple (Some (own_of obC)) (map (round_to_closest_multiple w rO N (2 * o) b l ROT 0) (seq 0 (k + 1))) (Some (own_of obC)) [ROT]
    (words ROT rot (k + 1)) (words ROT (fun z i => gpu_round w b l (rot z i)) (k + 1)).
Proof.
  eapply triple_weaken; [apply (triple_parts ok T _ [ROT] _ (fun z m => words ROT (fun z' i => if z' <? z then gpu_round w b l (rot z' i) else rot z' i) (k + 1) m))|apply incl_refl| |].
  - intros z Hz. eapply triple_weaken; [apply (round_ok obC ROT b l z (fun z' i => if z' <? z then gpu_round w b l (rot z' i) else rot z' i) (k + 1)); first [reflexivity|assumption]|apply incl_refl|auto|].
    cbv beta. intros m Hm. eapply words_ext; [|exact Hm]. cbv beta. intros z' i _ _. destruct (Nat.eqb_spec z' z) as [->|Hne].
    + rewrite Nat.ltb_irrefl. destruct (Nat.ltb_spec z (S z)); [reflexivity|lia].
    + destruct (Nat.ltb_spec z' z), (Nat.ltb_spec z' (S z)); try reflexivity; lia.
  - intros m Hm. eapply words_ext; [|exact Hm]. reflexivity.
  - intros m Hm. eapply words_ext; [|exact Hm]. cbv beta. intros z i Hz _. destruct (Nat.ltb_spec z (k + 1)); [reflexivity|lia].
Qed.
Notation obD := (among [ROT; RES; AFFT]).
(** 155-160 *)
Lemma products_all level p x y : level < l -> p <= k -> (forall z i, z <= k -> i < H -> y z i = key it level p z i) -> forall res,
  triple (Some (own_of obD)) (map (fun j => product_accumulate rO radd rmul rsub N (2 * o) RES (j * N / 2) AFFT 0 BSK (block level p + j * N / 2)) (seq 0 (k + 1))) (Some (own_of obD)) [RES; AFFT]
    (fun m => (cplx RES res (k + 1) m /\ cplx AFFT (fun _ => x) 1 m) /\ key_ok m) (cplx RES (fun z i => cadd (res z i) (cmul (x i) (y z i))) (k + 1)).
Proof.
  intros Hl Hp Hy res.
  eapply triple_weaken; [apply (triple_parts ok T _ [RES; AFFT] _ (fun z m => (cplx RES (fun z' i => if z' <? z then cadd (res z' i) (cmul (x i) (y z' i)) else res z' i) (k + 1) m /\ cplx AFFT (fun _ => x) 1 m) /\ key_ok m))|apply incl_refl| |].
  - intros z Hz. rewrite halves. set (res' := fun z' i => if z' <? z then _ else _).
    eapply triple_weaken; [apply triple_with with (bs' := [RES; AFFT]) (G := key_ok); [apply (product_ok obD RES AFFT BSK (block level p + z * H) z (k + 1) res' x (y z)); try reflexivity; try discriminate; try assumption; apply S_bsk; lia|apply incl_refl|apply key_stable; intros [E|[E|[]]]; discriminate]|apply incl_refl| |].
    + cbv beta. intros m [[Hm1 Hm2] Hk]. split; [|exact Hk]. split; [exact Hm1|]. split; [exact Hm2|]. intros i Hi. rewrite Hy by lia. apply Hk; lia.
    + cbv beta. intros m [[Hm1 Hm2] Hk]. split; [|exact Hk]. split; [|exact Hm2]. eapply cplx_ext; [|exact Hm1]. unfold res'. cbv beta. intros z' i _ _. destruct (Nat.eqb_spec z' z) as [->|Hne].
      * rewrite Nat.ltb_irrefl. destruct (Nat.ltb_spec z (S z)); [reflexivity|lia].
      * destruct (Nat.ltb_spec z' z), (Nat.ltb_spec z' (S z)); try reflexivity; lia.
  - cbv beta. intros m [[Hm1 Hm2] Hk]. split; [|exact Hk]. split; [|exact Hm2]. eapply cplx_ext; [|exact Hm1]. reflexivity.
  - cbv beta. intros m [[Hm _] _]. eapply cplx_ext; [|exact Hm]. cbv beta. intros z i Hz _. destruct (Nat.ltb_spec z (k + 1)); [reflexivity|lia].
Qed.

(** 140-160 *)
Section Level.
Context (a_hat : nat) (acc : nat -> nat -> Z).
Notation states := (state a_hat acc). Notation sums := (total it a_hat acc).
Definition mixed (s p z i : nat) : Z := if z <? p then states (S s) z i else states s z i.
Lemma total_step s p z i : cadd (sums s p z i) (term it a_hat acc s p z i) = sums s (S p) z i.
Proof. unfold total. cbn [CudaFftAlgebra.csum]. apply cadd_assoc. Qed.
Lemma total_level s z i : sums s (k + 1) z i = sums (S s) 0 z i.
Proof. unfold total. cbn [CudaFftAlgebra.csum]. symmetry. apply cadd_O_r. Qed.
Lemma one_product_ok s p : s < l -> p <= k ->
  triple (Some (own_of obD)) (one_product w rO radd rmul rsub N (2 * o) of_int tw q b k l it (l - 1 - s) p) (Some (own_of obD)) [ROT; RES; AFFT]
    (fun m => (words ROT (mixed s p) (k + 1) m /\ cplx RES (sums s p) (k + 1) m) /\ key_ok m)
    (fun m => (words ROT (mixed s (S p)) (k + 1) m /\ cplx RES (sums s (S p)) (k + 1) m) /\ key_ok m).
Proof.
  intros Hs Hp. unfold one_product. rewrite half_N, half_o. set (x := dir (digit_cplx w H of_int b (states s p))).
  apply triple_seq with None (fun m => (words ROT (mixed s (S p)) (k + 1) m /\ cplx AFFT (fun _ => digit_cplx w H of_int b (states s p)) 1 m) /\ (cplx RES (sums s p) (k + 1) m /\ key_ok m)).
  { eapply triple_weaken; [apply triple_with with (bs := [ROT; RES; AFFT]) (bs' := [ROT; AFFT]) (G := fun m => cplx RES (sums s p) (k + 1) m /\ key_ok m);
      [apply (decompose_ok obD ROT AFFT b p (mixed s p) (k + 1)); try reflexivity; try discriminate; try assumption; lia| |]|apply incl_refl|cbv beta; tauto|].
    - intros y [<-|[<-|[]]]; cbn [In]; auto.
    - apply stable_and; [apply cplx_stable|apply key_stable]; intros [E|[E|[]]]; discriminate.
    - cbv beta. intros m [[Hm1 Hm2] Hg]. split; [|exact Hg]. split.
      + eapply words_ext; [|exact Hm1]. cbv beta. intros z i _ _. unfold mixed. destruct (Nat.eqb_spec z p) as [->|Hne].
        * rewrite Nat.ltb_irrefl. destruct (Nat.ltb_spec p (S p)); [reflexivity|lia].
        * destruct (Nat.ltb_spec z p), (Nat.ltb_spec z (S p)); try reflexivity; lia.
      + eapply cplx_ext; [|exact Hm2]. cbv beta. intros z i _ _. unfold mixed, digit_cplx. rewrite Nat.ltb_irrefl. reflexivity. }
  apply triple_seq with None (fun m => (words ROT (mixed s (S p)) (k + 1) m /\ cplx AFFT (fun _ => x) 1 m) /\ (cplx RES (sums s p) (k + 1) m /\ key_ok m)).
  { eapply triple_weaken; [apply triple_with with (bs := [ROT; RES; AFFT]) (bs' := [AFFT]) (G := fun m => words ROT (mixed s (S p)) (k + 1) m /\ cplx RES (sums s p) (k + 1) m /\ key_ok m);
      [apply (direct_phase AFFT 0 1 (fun _ => digit_cplx w H of_int b (states s p))); lia| |]|apply incl_refl|cbv beta; tauto|].
    - intros y [<-|[]]; cbn [In]; auto.
    - apply stable_and; [apply words_stable|apply stable_and; [apply cplx_stable|apply key_stable]]; intros [E|[]]; discriminate.
    - cbv beta. intros m [Hm (G1 & G2 & G3)]. split; [split; [exact G1|]|auto]. eapply cplx_ext; [|exact Hm]. cbv beta. intros z i Hz _. assert (z = 0) by lia. subst z. reflexivity. }
  apply triple_start with (Some (own_of obD)).
  eapply triple_weaken; [apply triple_with with (bs := [ROT; RES; AFFT]) (bs' := [RES; AFFT]) (G := fun m => words ROT (mixed s (S p)) (k + 1) m /\ key_ok m);
      [apply (products_all (l - 1 - s) p x (fun z i => key it (l - 1 - s) p z i) ltac:(lia) Hp ltac:(reflexivity) (sums s p))| |]|apply incl_refl|cbv beta; tauto|].
  - intros y [<-|[<-|[]]]; cbn [In]; auto.
  - apply stable_and; [apply words_stable|apply key_stable]; intros [E|[E|[]]]; discriminate.
  - cbv beta. intros m [Hm (G1 & G2)]. split; [split; [exact G1|]|exact G2]. eapply cplx_ext; [|exact Hm]. cbv beta. intros z i _ _. exact (total_step s p z i).
Qed.
Lemma levels_ok :
  triple None (flat_map (fun level => flat_map (one_product w rO radd rmul rsub N (2 * o) of_int tw q b k l it level) (seq 0 (k + 1)) ++ [Bar]) (rev (seq 0 l))) None [ROT; RES; AFFT]
    (fun m => (words ROT (states 0) (k + 1) m /\ cplx RES (fun _ _ => cO) (k + 1) m) /\ key_ok m) (cplx RES (sums l 0) (k + 1)).
Proof.
  replace (rev (seq 0 l)) with (map (fun s => l - 1 - s) (seq 0 l)).
  2: { symmetry. apply rev_seq. }
  eapply triple_weaken; [apply (triple_loop ok T None [ROT; RES; AFFT] _ (fun s m => (words ROT (states s) (k + 1) m /\ cplx RES (sums s 0) (k + 1) m) /\ key_ok m) (fun s => l - 1 - s) l 0)|apply incl_refl| |].
  - intros s Hs. cbn [Nat.add]. apply triple_seq with (Some (own_of obD)) (fun m => (words ROT (states (S s)) (k + 1) m /\ cplx RES (sums (S s) 0) (k + 1) m) /\ key_ok m); [|apply triple_bar].
    apply triple_start with (Some (own_of obD)). rewrite <- (map_id (seq 0 (k + 1))).
    eapply triple_weaken; [apply (triple_loop ok T (Some (own_of obD)) [ROT; RES; AFFT] _ (fun p m => (words ROT (mixed s p) (k + 1) m /\ cplx RES (sums s p) (k + 1) m) /\ key_ok m) (fun p => p) (k + 1) 0)|apply incl_refl| |].
    + intros p Hp. apply one_product_ok; lia.
    + auto.
    + cbv beta. intros m [[H1 H2] H3]. split; [|exact H3]. split.
      * eapply words_ext; [|exact H1]. intros z i Hz _. unfold mixed. destruct (Nat.ltb_spec z (k + 1)); [reflexivity|lia].
      * eapply cplx_ext; [|exact H2]. intros z i _ _. apply total_level.
  - cbv beta. intros m [[H1 H2] H3]. split; [|exact H3]. split; [exact H1|]. eapply cplx_ext; [|exact H2]. intros z i _ _. unfold total. cbn [CudaFftAlgebra.csum]. symmetry. apply cadd_O_r.
  - cbv beta. tauto.
Qed.
End Level.

(** 164-198 *)
Notation obE := (among [ACC; RES; AFFT]).
Lemma back_ok partial res acc :
  triple None (back_to_torus w rO radd rmul rsub N (2 * o) torus1 torus2 tw h k partial) None [ACC; RES; AFFT]
    (fun m => words ACC acc (k + 1) m /\ cplx RES res (k + 1) m)
    (words ACC (fun z => added w H torus1 torus2 (inv (fun i => cmul (h, rO) (res z i))) (acc z)) (k + 1)).
Proof.
  set (p := fun z => inv (fun i => cmul (h, rO) (res z i))). unfold back_to_torus. rewrite half_N, half_o. destruct partial.
  - apply triple_seq with (Some (own_of obE)) (words ACC (fun z => added w H torus1 torus2 (p z) (acc z)) (k + 1)); [|apply triple_bar].
    apply triple_start with (Some (own_of obE)). rewrite <- (map_id (seq 0 (k + 1))).
    set (Inv := fun z m => words ACC (fun z' => if z' <? z then added w H torus1 torus2 (p z') (acc z') else acc z') (k + 1) m /\ cplx RES res (k + 1) m).
    eapply triple_weaken; [apply (triple_loop ok T (Some (own_of obE)) [ACC; RES; AFFT] _ Inv (fun z => z) (k + 1) 0)|apply incl_refl| |].
    + intros z Hz. cbn [Nat.add]. rewrite halves. unfold Inv. set (acc' := fun z' => if z' <? z then _ else _).
      apply triple_cons with (Some (own_of obE)) (fun m => (cplx AFFT (fun _ => res z) 1 m /\ cplx RES res (k + 1) m) /\ words ACC acc' (k + 1) m).
      { eapply triple_weaken; [apply triple_with with (bs := [ACC; RES; AFFT]) (bs' := [RES; AFFT]) (G := words ACC acc' (k + 1)); [apply (copy_phase obE AFFT RES z (k + 1) res); try reflexivity; try discriminate; assumption| |]|apply incl_refl|cbv beta; tauto|cbv beta; tauto].
        - intros y [<-|[<-|[]]]; cbn [In]; auto.
        - apply words_stable. intros [E|[E|[]]]; discriminate. }
      apply triple_bar_cons. apply triple_seq with None (fun m => cplx AFFT (fun _ => p z) 1 m /\ cplx RES res (k + 1) m /\ words ACC acc' (k + 1) m).
      { eapply triple_weaken; [apply triple_with with (bs := [ACC; RES; AFFT]) (bs' := [AFFT]) (G := fun m => cplx RES res (k + 1) m /\ words ACC acc' (k + 1) m); [apply (inverse_phase AFFT 0 1 (fun _ => res z)); lia| |]|apply incl_refl|cbv beta; tauto|].
        - intros y [<-|[]]; cbn [In]; auto.
        - apply stable_and; [apply cplx_stable|apply words_stable]; intros [E|[]]; discriminate.
        - cbv beta. intros m [Hm Hg]. split; [|exact Hg]. eapply cplx_ext; [|exact Hm]. cbv beta. intros z' i Hz' _. assert (z' = 0) by lia. subst z'. reflexivity. }
      apply triple_bar_cons. apply triple_start with (Some (own_of obE)).
      eapply triple_weaken; [apply triple_with with (bs := [ACC; RES; AFFT]) (bs' := [ACC; AFFT]) (G := cplx RES res (k + 1)); [apply (torus_ok obE AFFT 0 1 ACC z (k + 1) (fun _ => p z) acc'); try reflexivity; try discriminate; try assumption; lia| |]|apply incl_refl|cbv beta; tauto|].
      * intros y [<-|[<-|[]]]; cbn [In]; auto.
      * apply cplx_stable. intros [E|[E|[]]]; discriminate.
      * cbv beta. intros m [[Hm _] Hg]. split; [|exact Hg]. eapply words_ext; [|exact Hm]. cbv beta. unfold acc'. intros z' i _ _. destruct (Nat.eqb_spec z' z) as [->|Hne].
        -- rewrite Nat.ltb_irrefl. destruct (Nat.ltb_spec z (S z)); [reflexivity|lia].
        -- destruct (Nat.ltb_spec z' z), (Nat.ltb_spec z' (S z)); try reflexivity; lia.
    + unfold Inv. cbv beta. intros m [H1 H2]. split; [|exact H2]. eapply words_ext; [|exact H1]. reflexivity.
    + unfold Inv. cbv beta. intros m [H1 _]. eapply words_ext; [|exact H1]. cbv beta. intros z i Hz _. destruct (Nat.ltb_spec z (k + 1)); [reflexivity|lia].
  - cbn [app]. apply triple_bar_cons. apply triple_seq with None (fun m => words ACC acc (k + 1) m /\ cplx RES p (k + 1) m).
    { rewrite <- (map_id (seq 0 (k + 1))). set (Inv := fun z m => cplx RES (fun z' => if z' <? z then p z' else res z') (k + 1) m /\ words ACC acc (k + 1) m).
      eapply triple_weaken; [apply (triple_loop ok T None [ACC; RES; AFFT] _ Inv (fun z => z) (k + 1) 0)|apply incl_refl| |].
      + intros z Hz. cbn [Nat.add]. rewrite halves. unfold Inv. eapply triple_weaken; [apply triple_with with (bs := [ACC; RES; AFFT]) (bs' := [RES]) (G := words ACC acc (k + 1)); [apply (inverse_phase RES z (k + 1) (fun z' => if z' <? z then p z' else res z')); assumption| |]|apply incl_refl|cbv beta; tauto|].
        * intros y [<-|[]]; cbn [In]; auto.
        * apply words_stable. intros [E|[]]; discriminate.
        * cbv beta. intros m [Hm Hg]. split; [|exact Hg]. eapply cplx_ext; [|exact Hm]. cbv beta. intros z' i _ _. destruct (Nat.eqb_spec z' z) as [->|Hne].
          -- rewrite Nat.ltb_irrefl. destruct (Nat.ltb_spec z (S z)); [reflexivity|lia].
          -- destruct (Nat.ltb_spec z' z), (Nat.ltb_spec z' (S z)); try reflexivity; lia.
      + unfold Inv. cbv beta. intros m [H1 H2]. split; [|exact H1]. eapply cplx_ext; [|exact H2]. reflexivity.
      + unfold Inv. cbv beta. intros m [H1 H2]. split; [exact H2|]. eapply cplx_ext; [|exact H1]. cbv beta. intros z i Hz _. destruct (Nat.ltb_spec z (k + 1)); [reflexivity|lia]. }
    apply triple_bar_cons. apply triple_seq with (Some (own_of obE)) (words ACC (fun z => added w H torus1 torus2 (p z) (acc z)) (k + 1)); [|apply triple_bar].
    apply triple_start with (Some (own_of obE)). set (Inv := fun z m => words ACC (fun z' => if z' <? z then added w H torus1 torus2 (p z') (acc z') else acc z') (k + 1) m /\ cplx RES p (k + 1) m).
    eapply triple_weaken; [apply (triple_parts ok T (Some (own_of obE)) [ACC; RES; AFFT] _ Inv (k + 1))|apply incl_refl| |].
    + intros z Hz. rewrite halves. unfold Inv. set (acc' := fun z' => if z' <? z then _ else _).
      eapply triple_weaken; [apply (torus_ok obE RES z (k + 1) ACC z (k + 1) p acc'); try reflexivity; try discriminate; assumption| | |].
      * intros y [<-|[<-|[]]]; cbn [In]; auto.
      * auto.
      * cbv beta. intros m [Hm Hg]. split; [|exact Hg]. eapply words_ext; [|exact Hm]. cbv beta. unfold acc'. intros z' i _ _. destruct (Nat.eqb_spec z' z) as [->|Hne].
        -- rewrite Nat.ltb_irrefl. destruct (Nat.ltb_spec z (S z)); [reflexivity|lia].
        -- destruct (Nat.ltb_spec z' z), (Nat.ltb_spec z' (S z)); try reflexivity; lia.
    + unfold Inv. cbv beta. intros m [H1 H2]. split; [|exact H2]. eapply words_ext; [|exact H1]. reflexivity.
    + unfold Inv. cbv beta. intros m [H1 _]. eapply words_ext; [|exact H1]. cbv beta. intros z i Hz _. destruct (Nat.ltb_spec z (k + 1)); [reflexivity|lia].
Qed.

(** 102-199 *)
Lemma iteration_ok cur partial a_hat acc : a_hat <= 2 * N ->
  triple cur (pbs_iteration w rO radd rmul rsub N (2 * o) torus1 torus2 of_int tw q h b k l partial it a_hat) None [ACC; ROT; RES; AFFT]
    (fun m => words ACC acc (k + 1) m /\ key_ok m) (words ACC (step it a_hat acc) (k + 1)).
Proof.
  intros Ha. unfold pbs_iteration. cbn [app]. apply triple_bar_cons. set (G := fun m : mem => words ACC acc (k + 1) m /\ key_ok m).
  set (rot := fun z i => wsub w (rotated w H a_hat (acc z) i) (acc z i)).
  assert (SG : forall bs, ~ In ACC bs -> ~ In BSK bs -> stable bs G) by (intros bs N1 N2; apply stable_and; [apply words_stable; exact N1|apply key_stable; exact N2]).
  apply triple_seq with (Some (own_of (among [ROT]))) (fun m => words ROT rot (k + 1) m /\ G m).
  { apply triple_start with (Some (own_of (among [ROT]))). eapply triple_weaken; [apply triple_with with (bs := [ACC; ROT; RES; AFFT]) (bs' := [ROT]) (G := G); [apply (mul_sub_all a_hat acc Ha)| |]|apply incl_refl| |cbv beta; auto].
    - intros y [<-|[]]; cbn [In]; auto.
    - apply SG; intros [E|[]]; discriminate.
    - unfold G. cbv beta. tauto. }
  apply triple_bar_cons. apply triple_seq with (Some (own_of obC)) (fun m => words ROT (fun z i => gpu_round w b l (rot z i)) (k + 1) m /\ G m).
  { apply triple_start with (Some (own_of obC)). apply triple_with with (bs' := [ROT]); [apply round_all| |].
    - intros y [<-|[]]; cbn [In]; auto.
    - apply SG; intros [E|[]]; discriminate. }
  apply triple_cons with (Some (own_of obC)) (fun m => cplx RES (fun _ _ => cO) (k + 1) m /\ (words ROT (fun z i => gpu_round w b l (rot z i)) (k + 1) m /\ G m)).
  { eapply triple_weaken; [apply triple_with with (bs := [ACC; ROT; RES; AFFT]) (bs' := [RES]) (G := fun m => words ROT (fun z i => gpu_round w b l (rot z i)) (k + 1) m /\ G m); [apply (clear_ok obC k); try reflexivity; assumption| |]|apply incl_refl|cbv beta; tauto|cbv beta; auto].
    - intros y [<-|[]]; cbn [In]; auto.
    - apply stable_and; [apply words_stable|apply SG]; intros [E|[]]; discriminate. }
  apply triple_seq with None (fun m => words ROT (state a_hat acc 0) (k + 1) m /\ (cplx RES (fun _ _ => cO) (k + 1) m /\ G m)).
  { eapply triple_weaken; [apply triple_with with (bs := [ACC; ROT; RES; AFFT]) (bs' := [ROT]) (G := fun m => cplx RES (fun _ _ => cO) (k + 1) m /\ G m); [apply (gadget_ok obC ROT b l (k + 1) (fun z i => gpu_round w b l (rot z i))); try reflexivity; assumption| |]|apply incl_refl|cbv beta; tauto|cbv beta; auto].
    - intros y [<-|[]]; cbn [In]; auto.
    - apply stable_and; [apply cplx_stable|apply SG]; intros [E|[]]; discriminate. }
  apply triple_seq with None (fun m => cplx RES (total it a_hat acc l 0) (k + 1) m /\ words ACC acc (k + 1) m).
  { eapply triple_weaken; [apply triple_with with (bs := [ACC; ROT; RES; AFFT]) (bs' := [ROT; RES; AFFT]) (G := words ACC acc (k + 1)); [apply (levels_ok a_hat acc)| |]|apply incl_refl|unfold G; cbv beta; tauto|cbv beta; auto].
    - intros y [<-|[<-|[<-|[]]]]; cbn [In]; auto.
    - apply words_stable. intros [E|[E|[E|[]]]]; discriminate. }
  eapply triple_weaken; [apply (back_ok partial (total it a_hat acc l 0) acc)| |cbv beta; tauto|].
  - intros y [<-|[<-|[<-|[]]]]; cbn [In]; auto.
  - intros m Hm. exact Hm.
Qed.
End Iteration.

(** ** The kernel *)
Context (lwe_dimension : nat) (lut : nat) (tv : nat -> nat -> Z) (a_hat : nat -> nat) (b_hat : nat).
Hypothesis (S_lut : lut + (k + 1) * N <= size LUT) (Ha : forall it, a_hat it <= 2 * N) (Hb : b_hat <= 2 * N)
  (S_bsk : forall it level p z, it < lwe_dimension -> level < l -> p <= k -> z <= k -> block it level p + z * H + H <= size BSK).
Fixpoint accumulator (it : nat) : nat -> nat -> Z := match it with O => fun z => divided w H b_hat (tv z) | S it => step it (a_hat it) (accumulator it) end.
Definition given (m : mem) : Prop := (forall z i, z <= k -> i < N -> m (Word LUT (lut + z * N + i)) = Wd (tv z i)) /\ forall it, it < lwe_dimension -> key_ok it m.
Lemma given_stable bs : ~ In LUT bs -> ~ In BSK bs -> stable bs given.
Proof.
  intros N1 N2 m m' K [H1 H2]. split.
  - intros z i Hz Hi. rewrite K by (try reflexivity; exact N1). apply H1; assumption.
  - intros it Hit. exact (key_stable it bs N2 m m' K (H2 it Hit)).
Qed.
Notation obX := (among [ACC; OUT]).
Definition changed : list nat := [ACC; ROT; RES; AFFT; OUT].
Theorem kernel_ok partial :
  triple None
    (map (divide_by_monomial w rO N (2 * o) ACC 0 LUT lut b_hat) (seq 0 (k + 1)) ++
     flat_map (fun it => pbs_iteration w rO radd rmul rsub N (2 * o) torus1 torus2 of_int tw q h b k l partial it (a_hat it)) (seq 0 lwe_dimension) ++
     flat_map (sample_extract_mask w rO N (2 * o) OUT out ACC 0) (seq 0 k) ++ [sample_extract_body rO N (2 * o) OUT out ACC 0 k])
    (Some (own_of obX)) changed given
    (fun m => words OUT (fun z => extracted w H (accumulator lwe_dimension z)) k m /\ m (Word OUT (out + k * N)) = Wd (accumulator lwe_dimension k 0)).
Proof.
  assert (Gs : forall bs, incl bs changed -> stable bs given).
  { intros bs Hi. apply given_stable; intros Hin; apply Hi in Hin; repeat (destruct Hin as [E|Hin]; [discriminate E|]); contradiction. }
  apply triple_seq with (Some (own_of obX)) (fun m => words ACC (accumulator 0) (k + 1) m /\ given m).
  { apply triple_start with (Some (own_of obX)). eapply triple_weaken; [apply (triple_parts ok T (Some (own_of obX)) changed _ (fun z m => words ACC (accumulator 0) z m /\ given m) (k + 1))|apply incl_refl| |].
    - intros z Hz. assert (I : incl [ACC] changed) by (intros y [<-|[]]; cbn [In changed]; auto).
      eapply triple_weaken; [apply triple_with with (bs := changed) (bs' := [ACC]) (G := given); [apply (divide_ok obX ACC LUT lut b_hat z tv (k + 1) (accumulator 0)); try reflexivity; try discriminate; assumption|exact I|apply Gs, I]|apply incl_refl| |].
      + cbv beta. intros m [Hm Hg]. split; [|exact Hg]. split; [exact Hm|]. intros i Hi. apply Hg; lia.
      + cbv beta. intros m [Hm Hg]. split; [|exact Hg]. eapply words_ext; [|exact Hm]. cbv beta. intros z' i _ _. destruct (Nat.eqb_spec z' z) as [->|]; reflexivity.
    - intros m Hg. split; [intros z i Hz; lia|exact Hg].
    - auto. }
  apply triple_seq with (Some (own_of obX)) (fun m => words ACC (accumulator lwe_dimension) (k + 1) m /\ given m).
  { rewrite <- (map_id (seq 0 lwe_dimension)). apply (triple_loop ok T (Some (own_of obX)) changed _ (fun it m => words ACC (accumulator it) (k + 1) m /\ given m) (fun it => it) lwe_dimension 0).
    intros it Hit. cbn [Nat.add]. apply triple_end. assert (I : incl [ACC; ROT; RES; AFFT] changed) by (intros y [<-|[<-|[<-|[<-|[]]]]]; cbn [In changed]; auto).
    eapply triple_weaken; [apply triple_with with (bs := changed) (bs' := [ACC; ROT; RES; AFFT]) (G := given); [apply (iteration_ok it) with (acc := accumulator it); [intros; apply S_bsk; assumption|apply Ha]|exact I|apply Gs, I]|apply incl_refl| |].
    - cbv beta. intros m [Hm Hg]. split; [|exact Hg]. split; [exact Hm|]. apply Hg, Hit.
    - cbv beta. intros m [Hm Hg]. split; [exact Hm|exact Hg]. }
  set (A := accumulator lwe_dimension).
  assert (I : incl [ACC; OUT] changed) by (intros y [<-|[<-|[]]]; cbn [In changed]; auto 6).
  apply triple_seq with (Some (own_of obX)) (fun m => words ACC (fun z i => if z <? k then extracted w H (A z) i else A z i) (k + 1) m /\ words OUT (fun z => extracted w H (A z)) k m).
  { rewrite <- (map_id (seq 0 k)). set (Inv := fun z m => words ACC (fun z' i => if z' <? z then extracted w H (A z') i else A z' i) (k + 1) m /\ words OUT (fun z => extracted w H (A z)) z m).
    eapply triple_weaken; [apply (triple_loop ok T (Some (own_of obX)) [ACC; OUT] _ Inv (fun z => z) k 0)|exact I| |].
    - intros z Hz. cbn [Nat.add]. unfold Inv. eapply triple_weaken; [apply (mask_ok obX ACC OUT z (k + 1) (fun z' i => if z' <? z then extracted w H (A z') i else A z' i) k (fun z => extracted w H (A z))); try reflexivity; try discriminate; try assumption; try lia|apply incl_refl|auto|].
      + change (base OUT) with out. lia.
      + cbv beta. rewrite Nat.ltb_irrefl. intros m [H1 H2]. split.
        * eapply words_ext; [|exact H1]. cbv beta. intros z' i _ _. destruct (Nat.eqb_spec z' z) as [->|Hne].
          -- destruct (Nat.ltb_spec z (S z)); [|lia]. reflexivity.
          -- destruct (Nat.ltb_spec z' z), (Nat.ltb_spec z' (S z)); try reflexivity; lia.
        * eapply words_ext; [|exact H2]. cbv beta. intros z' i _ _. destruct (Nat.eqb_spec z' z) as [->|Hne]; [|reflexivity]. reflexivity.
    - unfold Inv. cbv beta. intros m [H1 _]. split; [|intros z i Hz; lia]. eapply words_ext; [|exact H1]. reflexivity.
    - unfold Inv. cbv beta. auto. }
  eapply triple_weaken; [apply (body_ok obX ACC OUT k (fun z i => if z <? k then extracted w H (A z) i else A z i) (fun z => extracted w H (A z))); try reflexivity; try discriminate; try assumption|exact I|auto|].
  cbv beta. rewrite Nat.ltb_irrefl. auto.
Qed.
End Kernel.
