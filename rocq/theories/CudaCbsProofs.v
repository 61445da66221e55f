(** * The kernels of the circuit bootstrap of the CUDA backend *)
From Coq Require Import Reals Permutation.
From Verif Require Import Base Word WordFacts LweSpec LweModel LweProofs WopModel WopBitsProofs CudaSpec CudaKsModel CudaGatesModel CudaGatesTheorems CudaBitsModel CudaBitsProofs CudaFpksModel CudaCbsModel.
From Verif Require CudaModel CudaFacts CudaTheorems CudaBitsTheorems CudaKsFacts CudaKsTheorems.
Local Open Scope Z_scope.

Lemma run_writes_ok (g : nat * outcome Z -> Z) ops : NoDup (map fst ops) -> (forall o, In o ops -> snd o = Ret (g o)) ->
  forall order buf, NoDup order -> (forall j, In j order -> (j < length ops)%nat) -> (forall o, In o ops -> (fst o < length buf)%nat) ->
  exists out, run_writes ops order buf = Ret out /\ length out = length buf /\
    (forall j o, In j order -> nth_error ops j = Some o -> nth_error out (fst o) = Some (g o)) /\
    (forall c, (forall j o, In j order -> nth_error ops j = Some o -> fst o <> c) -> nth_error out c = nth_error buf c).
Proof.
  intros Hnd Hf. induction order as [|j order IH]; intros buf Ho Hj Hb.
  - exists buf. split; [reflexivity|]. split; [reflexivity|]. split; [intros j o []|reflexivity].
  - cbn [run_writes]. apply NoDup_cons_iff in Ho. destruct Ho as [Hni Ho].
    assert (Lj : (j < length ops)%nat) by (apply Hj; left; reflexivity).
    destruct (nth_error ops j) as [o|] eqn:Eo; [|apply nth_error_None in Eo; lia]. pose proof (nth_error_In _ _ Eo) as Io.
    rewrite (CudaFacts.get_some _ _ o Eo). cbn [obind]. destruct o as [c act] eqn:Ed. rewrite <- Ed in *. pose proof (Hf o Io) as Ea. rewrite Ed in Ea at 1. cbn [snd] in Ea. rewrite Ea. cbn [obind].
    pose proof (Hb o Io) as Lc. rewrite Ed in Lc. cbn [fst] in Lc.
    destruct (set_cell_nth buf c (g o) Lc) as (buf' & -> & Lb & Hn). cbn [obind].
    destruct (IH buf' Ho) as (out & E & L & H1 & H2); [intros; apply Hj; right; assumption|intros; rewrite Lb; apply Hb; assumption|].
    assert (Hne : forall j' o', In j' order -> nth_error ops j' = Some o' -> fst o' <> c).
    { intros j' o' Hj' Eo' Ec. apply Hni. replace j with j'; [exact Hj'|]. apply (proj1 (NoDup_nth_error (map fst ops)) Hnd); [rewrite map_length; apply Hj; right; exact Hj'|].
      rewrite !nth_error_map, Eo, Eo'. cbn [option_map]. rewrite Ec, Ed. reflexivity. }
    exists out. split; [exact E|]. split; [congruence|]. split.
    + intros j' o' [<-|Hj'] Eold.
      * rewrite Eo in Eold. injection Eold as <-. rewrite Ed at 1. cbn [fst]. rewrite H2 by exact Hne. rewrite Hn, Nat.eqb_refl. reflexivity.
      * apply (H1 j'); assumption.
    + intros c' Hc'. rewrite H2 by (intros j' o' Hj'; apply Hc'; right; exact Hj'). rewrite Hn. destruct (Nat.eqb_spec c' c) as [->|_]; [|reflexivity].
      exfalso. apply (Hc' j o (or_introl eq_refl) Eo). rewrite Ed. reflexivity.
Qed.
(** In any order, every cell of the kernel gets its value and the others keep theirs. *)
Lemma write_kernel_ok sched (g : nat * outcome Z -> Z) ops buf : any_order sched -> NoDup (map fst ops) -> (forall o, In o ops -> snd o = Ret (g o)) ->
  (forall o, In o ops -> (fst o < length buf)%nat) ->
  exists out, write_kernel sched ops buf = Ret out /\ length out = length buf /\ (forall o, In o ops -> nth_error out (fst o) = Some (g o)) /\
    (forall c, ~ In c (map fst ops) -> nth_error out c = nth_error buf c).
Proof.
  intros Hs Hnd Hf Hb. pose proof (Hs (length ops)) as P.
  destruct (run_writes_ok g ops Hnd Hf (sched (length ops)) buf) as (out & E & L & H1 & H2).
  - apply (Permutation_NoDup (Permutation_sym P)), seq_NoDup.
  - intros j Hj. apply (Permutation_in _ P) in Hj. apply in_seq in Hj. lia.
  - exact Hb.
  - exists out. split; [exact E|]. split; [exact L|]. split.
    + intros o Ho. destruct (In_nth_error _ _ Ho) as [j Ej]. apply (H1 j); [|exact Ej]. apply (Permutation_in _ (Permutation_sym P)), in_seq. assert (j < length ops)%nat by (apply nth_error_Some; congruence). lia.
    + intros c Hc. apply H2. intros j o _ Ej Ec. apply Hc. rewrite <- Ec. apply in_map, (nth_error_In _ _ Ej).
Qed.
Definition ret_or_0 (o : nat * outcome Z) : Z := match snd o with Ret v => v | _ => 0 end.

(** Rows of [size] cells of which the threads write those of [cells]. *)
Lemma write_rows sched count size cells (inb : nat -> bool) (act : nat -> nat -> outcome Z) (g : nat -> nat -> Z) buf : any_order sched -> (0 < size)%nat ->
  NoDup cells -> (forall c, In c cells <-> (c < size)%nat /\ inb c = true) -> length buf = (count * size)%nat ->
  (forall r c, (r < count)%nat -> (c < size)%nat -> inb c = true -> act r c = Ret (g r c)) ->
  (forall r c, (r < count)%nat -> (c < size)%nat -> inb c = false -> nth (r * size + c) buf 0 = g r c) ->
  write_kernel sched (flat_map (fun r => map (fun c => ((r * size + c)%nat, act r c)) cells) (seq 0 count)) buf
    = Ret (concat (map (fun r => map (g r) (seq 0 size)) (seq 0 count))).
Proof.
  intros Hs Hsz Hnd Hin Lb Hact Hkeep. set (ops := flat_map _ _).
  assert (Ho : forall o, In o ops <-> exists r c, (r < count)%nat /\ In c cells /\ o = ((r * size + c)%nat, act r c)).
  { intros o. unfold ops. rewrite in_flat_map. split.
    - intros (r & Hr & Hx). apply in_map_iff in Hx. destruct Hx as (c & <- & Hc). apply in_seq in Hr. exists r, c. split; [lia|]. auto.
    - intros (r & c & Hr & Hc & ->). exists r. split; [apply in_seq; lia|]. apply in_map_iff. exists c. auto. }
  assert (Hpos : forall r c, (r < count)%nat -> (c < size)%nat -> (r * size + c < count * size)%nat).
  { intros r c Hr Hc. assert (S r * size <= count * size)%nat by (apply Nat.mul_le_mono_r; lia). lia. }
  assert (Hdm : forall r c, (c < size)%nat -> ((r * size + c) / size = r /\ (r * size + c) mod size = c)%nat).
  { intros r c Hc. rewrite Nat.add_comm, Nat.div_add, Nat.mod_add, Nat.div_small, Nat.mod_small by lia. auto. }
  destruct (write_kernel_ok sched ret_or_0 ops buf Hs) as (out & -> & Lo & H1 & H2).
  - unfold ops. rewrite flat_map_concat_map, concat_map, map_map, <- flat_map_concat_map. apply NoDup_flat_map; [apply seq_NoDup| |].
    + intros r _. rewrite map_map. cbn [fst]. apply FinFun.Injective_map_NoDup; [intros a b; lia|exact Hnd].
    + intros r r' c _ _ Hc Hc'. rewrite map_map in Hc, Hc'. apply in_map_iff in Hc, Hc'. destruct Hc as (a & E & Ha), Hc' as (a' & E' & Ha'). cbn [fst] in E, E'.
      apply Hin in Ha, Ha'. rewrite <- (proj1 (Hdm r a (proj1 Ha))), <- (proj1 (Hdm r' a' (proj1 Ha'))). f_equal. lia.
  - intros o Hx. apply Ho in Hx. destruct Hx as (r & c & Hr & Hc & ->). apply Hin in Hc. unfold ret_or_0. cbn [snd]. rewrite (Hact r c Hr) by apply Hc. reflexivity.
  - intros o Hx. apply Ho in Hx. destruct Hx as (r & c & Hr & Hc & ->). apply Hin in Hc. cbn [fst]. rewrite Lb. apply Hpos; [exact Hr|apply Hc].
  - f_equal. set (res := concat _).
    assert (Lres : length res = (count * size)%nat).
    { unfold res. rewrite (CudaFacts.concat_len size); [rewrite map_length, seq_length; reflexivity|]. apply Forall_map, Forall_forall. intros r _. rewrite map_length. apply seq_length. }
    apply (nth_ext _ _ 0 0); [congruence|]. intros i Hi. rewrite Lo, Lb in Hi.
    pose proof (Nat.div_mod i size ltac:(lia)) as D. pose proof (Nat.mod_upper_bound i size ltac:(lia)) as B. rewrite Nat.mul_comm in D.
    set (r := (i / size)%nat) in *. set (c := (i mod size)%nat) in *.
    assert (Hr : (r < count)%nat) by (unfold r; apply Nat.div_lt_upper_bound; lia).
    assert (Er : nth i res 0 = g r c).
    { apply nth_error_nth. rewrite D. unfold res. rewrite (CudaKsFacts.nth_error_concat_gen size _ _ _ []); [|apply Forall_map, Forall_forall; intros ? _; rewrite map_length; apply seq_length|exact B|rewrite map_length, seq_length; exact Hr].
      rewrite nth_seq_map by exact Hr. rewrite nth_error_map, (nth_error_nth' _ 0%nat) by (rewrite seq_length; exact B). rewrite seq_nth by exact B. reflexivity. }
    rewrite Er. destruct (inb c) eqn:Eb.
    + apply nth_error_nth. pose proof (H1 (i, act r c)) as X. cbn [fst] in X. rewrite X; [unfold ret_or_0; cbn [snd]; rewrite Hact by assumption; reflexivity|].
      apply Ho. exists r, c. split; [exact Hr|]. split; [apply Hin; auto|]. f_equal. exact D.
    + rewrite <- (Hkeep r c Hr B Eb), <- D. assert (E : nth_error out i = nth_error buf i).
      { apply H2. intros Hx. apply in_map_iff in Hx. destruct Hx as (o & Eo & Hx). apply Ho in Hx. destruct Hx as (r' & c' & Hr' & Hc' & ->). cbn [fst] in Eo. apply Hin in Hc'.
        destruct (Hdm r' c' (proj1 Hc')) as [_ M]. rewrite Eo in M. fold c in M. destruct Hc' as [_ X]. congruence. }
      rewrite (nth_error_nth' out 0), (nth_error_nth' buf 0) in E by lia. injection E as E. exact E.
Qed.
(** Two nested loops are one loop. *)
Lemma shifted_loop {B} (F : nat -> list B) a : forall m s, flat_map (fun b => F (a + b)%nat) (seq s m) = flat_map F (seq (a + s) m).
Proof. induction m as [|m IH]; intros s; [reflexivity|]. cbn [seq flat_map]. f_equal. rewrite <- Nat.add_succ_r. apply IH. Qed.
Lemma nested_loops {B} (F : nat -> list B) m : forall n, flat_map (fun a => flat_map (fun b => F (a * m + b)%nat) (seq 0 m)) (seq 0 n) = flat_map F (seq 0 (n * m)).
Proof.
  induction n as [|n IH]; [reflexivity|]. rewrite seq_S, flat_map_app, IH. cbn [flat_map Nat.add]. rewrite app_nil_r. replace (S n * m)%nat with (n * m + m)%nat by lia. rewrite seq_app, flat_map_app. f_equal.
  rewrite shifted_loop. rewrite Nat.add_0_r. reflexivity.
Qed.
Lemma flat_map_ext_in {A B} (f g : A -> list B) l : (forall a, In a l -> f a = g a) -> flat_map f l = flat_map g l.
Proof. intros Hx. rewrite !flat_map_concat_map. f_equal. apply map_ext_in, Hx. Qed.

(** ** Rows *)
Definition rows (count : nat) (row : nat -> list Z) : list Z := concat (map row (seq 0 count)).
Lemma nth_rows count size row r c : (forall r, (r < count)%nat -> length (row r) = size) -> (r < count)%nat -> (c < size)%nat -> nth_error (rows count row) (r * size + c) = Some (nth c (row r) 0).
Proof.
  intros Hl Hr Hc. unfold rows. rewrite (CudaKsFacts.nth_error_concat_gen size _ _ _ []).
  - rewrite nth_seq_map by exact Hr. apply nth_error_nth'. rewrite Hl; assumption.
  - apply Forall_map, Forall_forall. intros a Ha. apply in_seq in Ha. apply Hl. lia.
  - exact Hc.
  - rewrite map_length, seq_length. exact Hr.
Qed.
Lemma rows_length count size row : (forall r, (r < count)%nat -> length (row r) = size) -> length (rows count row) = (count * size)%nat.
Proof. intros Hl. unfold rows. rewrite (CudaFacts.concat_len size); [rewrite map_length, seq_length; reflexivity|]. apply Forall_map, Forall_forall. intros a Ha. apply in_seq in Ha. apply Hl. lia. Qed.
Lemma rows_ext count f g : (forall r, (r < count)%nat -> f r = g r) -> rows count f = rows count g.
Proof. intros E. unfold rows. f_equal. apply map_ext_in. intros a Ha. apply in_seq in Ha. apply E. lia. Qed.
Lemma rows_S count f : rows (S count) f = rows count f ++ f count.
Proof. unfold rows. rewrite seq_S, map_app, concat_app. cbn. rewrite app_nil_r. reflexivity. Qed.
Lemma nth_error_skipn {A} : forall n (l : list A) i, nth_error (skipn n l) i = nth_error l (n + i).
Proof. induction n as [|n IH]; intros l i; [reflexivity|]. destruct l as [|a l]; [destruct i; reflexivity|]. apply IH. Qed.
Lemma row_of count size row r : (forall r, (r < count)%nat -> length (row r) = size) -> (r < count)%nat -> firstn size (skipn (r * size) (rows count row)) = row r.
Proof.
  intros Hl Hr. pose proof (rows_length count size row Hl) as L. assert (S r * size <= count * size)%nat by (apply Nat.mul_le_mono_r; lia).
  apply (nth_ext _ _ 0 0); [rewrite firstn_length, skipn_length, L, Hl by exact Hr; lia|]. intros c Hc. rewrite firstn_length, skipn_length, L in Hc. assert (Hc' : (c < size)%nat) by lia.
  apply nth_error_nth. rewrite CudaKsTheorems.nth_error_firstn_lt by exact Hc'. rewrite nth_error_skipn. apply (nth_rows count); assumption.
Qed.
Lemma map_nth_seq (f : Z -> Z) x n : length x = n -> map (fun c => f (nth c x 0)) (seq 0 n) = map f x.
Proof. intros <-. apply (nth_ext _ _ (f 0) (f 0)); [rewrite !map_length; apply seq_length|]. intros i Hi. rewrite map_length, seq_length in Hi. rewrite (map_nth f). rewrite nth_seq_map by exact Hi. reflexivity. Qed.

(** A value added to the last of [S n] words *)
Definition bump (w : Z) (n : nat) (q : Z) (x : list Z) : list Z := map (fun c => if Nat.eqb c n then wadd w (nth c x 0) q else nth c x 0) (seq 0 (S n)).
Lemma bump_length w n q x : length (bump w n q x) = S n.
Proof. unfold bump. rewrite map_length. apply seq_length. Qed.
Lemma add_to_body_bump w n q x : length x = S n -> add_to_body w x q = Ret (bump w n q x).
Proof.
  intros L. destruct (snoc_dec x n L) as (m & b & -> & Lm). unfold add_to_body. rewrite split_last_snoc. cbn [obind]. f_equal. unfold bump. rewrite seq_S, map_app. cbn [map Nat.add].
  rewrite Nat.eqb_refl, app_nth2, Lm, Nat.sub_diag by lia. cbn [nth]. f_equal. apply (nth_ext _ _ 0 0); [rewrite map_length, seq_length; exact Lm|]. intros i Hi.
  rewrite Lm in Hi. rewrite nth_seq_map by exact Hi. destruct (Nat.eqb_spec i n); [lia|]. rewrite app_nth1 by lia. reflexivity.
Qed.

Section Kernels.
Context (w : Z) (H T opt k level : nat).
Hypothesis (HT : (0 < T)%nat) (HH : (opt * T = H)%nat) (Hk : (0 < k)%nat) (Hlevel : (0 < level)%nat).
Notation N := (2 * H)%nat.

Lemma shift_ok sched inputs n src value buf : any_order sched -> (forall r, (r < inputs)%nat -> length (src r) = S n) -> length buf = (inputs * level * S n)%nat ->
  write_kernel sched (shift_ops w level inputs (n + 1) (rows inputs src) value) buf = Ret (rows (inputs * level) (fun r => map (fun v => wmul w v value) (src (r / level)%nat))).
Proof.
  intros Hs Hl Lb. rewrite Nat.add_1_r. unfold shift_ops.
  set (act := fun r c => let! v := CudaModel.get (rows inputs src) (r / level * S n + c) in Ret (wmul w v value)).
  assert (Hd : forall r, (r < inputs * level)%nat -> (r / level < inputs)%nat) by (intros r Hr; apply Nat.div_lt_upper_bound; [lia|]; rewrite Nat.mul_comm; exact Hr).
  assert (E : flat_map (fun y => flat_map (fun x => map (fun c => (((y * level + x) * S n + c)%nat, let! v := CudaModel.get (rows inputs src) (y * S n + c) in Ret (wmul w v value))) (small_cells (S n))) (seq 0 level)) (seq 0 inputs)
    = flat_map (fun r => map (fun c => ((r * S n + c)%nat, act r c)) (small_cells (S n))) (seq 0 (inputs * level))).
  { rewrite <- nested_loops. apply flat_map_ext_in. intros y _. apply flat_map_ext_in. intros x Hx. apply in_seq in Hx. apply map_ext. intros c. unfold act.
    replace ((y * level + x) / level)%nat with y; [reflexivity|]. rewrite Nat.add_comm, Nat.div_add, Nat.div_small by lia. reflexivity. }
  rewrite E. rewrite (write_rows sched (inputs * level) (S n) (small_cells (S n)) (fun _ => true) act (fun r c => wmul w (nth c (src (r / level)%nat) 0) value) buf); try assumption; try lia.
  - f_equal. apply rows_ext. intros r Hr. apply (map_nth_seq (fun v => wmul w v value)), Hl, Hd, Hr.
  - apply (small_cells_nodup H T opt k); assumption.
  - intros c. rewrite (small_cells_in H T opt k HT HH Hk). tauto.
  - intros r c Hr Hc _. unfold act. rewrite (CudaFacts.get_some _ _ (nth c (src (r / level)%nat) 0)); [reflexivity|]. apply (nth_rows inputs); [exact Hl|apply Hd, Hr|exact Hc].
Qed.

Lemma add_to_bodies_ok sched count n q row : any_order sched -> (forall r, (r < count)%nat -> length (row r) = S n) ->
  add_to_bodies w sched count n q (rows count row) = Ret (rows count (fun r => bump w n q (row r))).
Proof.
  intros Hs Hl. unfold add_to_bodies. rewrite Nat.add_1_r. pose proof (rows_length count (S n) row Hl) as L.
  assert (Hin : forall c, In c (map (fun block => block * S n + n)%nat (seq 0 count)) <-> exists r, (r < count)%nat /\ c = (r * S n + n)%nat).
  { intros c. rewrite in_map_iff. split; [intros (r & <- & Hr); apply in_seq in Hr; exists r; split; [lia|reflexivity]|intros (r & Hr & ->); exists r; split; [reflexivity|apply in_seq; lia]]. }
  destruct (cell_kernel_ok sched (fun _ old => Ret (wadd w old q)) (fun _ old => wadd w old q) (map (fun block => block * S n + n)%nat (seq 0 count)) (rows count row) Hs) as (out & -> & Lo & H1 & H2).
  - apply FinFun.Injective_map_NoDup; [intros a b; nia|apply seq_NoDup].
  - reflexivity.
  - intros c Hc. apply Hin in Hc. destruct Hc as (r & Hr & ->). rewrite L. assert (S r * S n <= count * S n)%nat by (apply Nat.mul_le_mono_r; lia). lia.
  - f_equal. pose proof (rows_length count (S n) (fun r => bump w n q (row r)) ltac:(intros; apply bump_length)) as L2.
    apply (nth_ext _ _ 0 0); [congruence|]. intros i Hi. rewrite Lo, L in Hi.
    pose proof (Nat.div_mod i (S n) ltac:(lia)) as D. pose proof (Nat.mod_upper_bound i (S n) ltac:(lia)) as B. rewrite Nat.mul_comm in D.
    assert (Hr : (i / S n < count)%nat) by (apply Nat.div_lt_upper_bound; [lia|]; rewrite Nat.mul_comm; exact Hi).
    set (r := (i / S n)%nat) in *. set (c := (i mod S n)%nat) in *. clearbody r c. subst i.
    pose proof (nth_rows count (S n) row r c Hl Hr B) as Ex. pose proof (nth_rows count (S n) (fun r => bump w n q (row r)) r c ltac:(intros; apply bump_length) Hr B) as Ey. rewrite (nth_error_nth _ _ _ Ey).
    apply nth_error_nth. unfold bump. rewrite nth_seq_map by exact B. destruct (Nat.eqb_spec c n) as [->|Hn].
    + apply H1; [apply Hin; exists r; auto|exact Ex].
    + rewrite H2; [exact Ex|]. intros Hx. apply Hin in Hx. destruct Hx as (r' & Hr' & E). apply Hn.
      assert (M : ((r * S n + c) mod S n = (r' * S n + n) mod S n)%nat) by (f_equal; exact E). rewrite !(Nat.add_comm (_ * S n)), !Nat.mod_add, !Nat.mod_small in M by lia. exact M.
Qed.

Lemma fill_ok sched base alpha : any_order sched -> (0 < N)%nat -> (forall r, (r < level)%nat -> one_shl w (CudaModel.u32 (w - 1 - base * Z.of_nat (r + 1))) = Ret (alpha r)) ->
  write_kernel sched (fill_ops w H T opt k level base) (repeat 0 (level * (k + 1) * N)) = Ret (rows level (fun r => concat (const_accumulator N (S k) (wneg w (alpha r))))).
Proof.
  intros Hs HN Ha. unfold fill_ops. set (size := ((k + 1) * N)%nat).
  set (cells := flat_map (fun t => map (fun c => k * N + c)%nat (strided T (2 * opt) t)) (seq 0 T)).
  set (act := fun (r c : nat) => let! alpha := one_shl w (CudaModel.u32 (w - 1 - base * Z.of_nat (r + 1))) in Ret (wneg w alpha)).
  assert (E : flat_map (fun block => flat_map (fun t => map (fun c => (((block * (k + 1) + k) * N + c)%nat,
     let! alpha := one_shl w (CudaModel.u32 (w - 1 - base * Z.of_nat (block + 1))) in Ret (wneg w alpha))) (strided T (2 * opt) t)) (seq 0 T)) (seq 0 level)
    = flat_map (fun r => map (fun c => ((r * size + c)%nat, act r c)) cells) (seq 0 level)).
  { apply flat_map_ext_in. intros r _. unfold cells. rewrite !flat_map_concat_map, concat_map, map_map. f_equal. apply map_ext. intros t. rewrite map_map. apply map_ext. intros c. unfold size, act. f_equal. ring. }
  rewrite E. rewrite (write_rows sched level size cells (fun c => Nat.leb (k * N) c) act (fun r c => if Nat.leb (k * N) c then wneg w (alpha r) else 0) (repeat 0 (level * (k + 1) * N))); try assumption.
  - f_equal. apply rows_ext. intros r Hr. rewrite CudaBitsTheorems.concat_const. unfold size. replace ((k + 1) * N)%nat with (k * N + N)%nat by lia. rewrite seq_app, map_app. f_equal.
    + apply (nth_ext _ _ 0 0); [rewrite map_length, seq_length, repeat_length; reflexivity|]. intros i Hi. rewrite map_length, seq_length in Hi. rewrite nth_seq_map, nth_repeat by exact Hi. destruct (Nat.leb_spec (k * N) i); [lia|reflexivity].
    + apply (nth_ext _ _ (if Nat.leb (k * N) 0 then wneg w (alpha r) else 0) (wneg w (alpha r))); [rewrite map_length, seq_length, repeat_length; reflexivity|]. intros i Hi. rewrite map_length, seq_length in Hi.
      rewrite nth_repeat. rewrite (map_nth (fun c => if Nat.leb (k * N) c then wneg w (alpha r) else 0)), seq_nth by exact Hi. destruct (Nat.leb_spec (k * N) (0 + k * N + i)); [reflexivity|lia].
  - unfold size. nia.
  - apply (body_cells_nodup H T opt k); assumption.
  - intros c. unfold cells. rewrite (body_cells_in H T opt k HT HH Hk), Nat.leb_le. unfold size. lia.
  - rewrite repeat_length. unfold size. lia.
  - intros r c Hr _ Hc. unfold act. rewrite Ha by exact Hr. rewrite Hc. reflexivity.
  - intros r c _ _ ->. apply nth_repeat.
Qed.

Lemma copy_ok sched base alpha count src buf : any_order sched -> (forall r, (r < level)%nat -> one_shl w ((w - 1 - base * Z.of_nat (r + 1)) mod 2 ^ 64) = Ret (alpha r)) ->
  (forall r, (r < count)%nat -> length (src r) = S (k * N)) -> length buf = (count * S k * S (k * N))%nat ->
  write_kernel sched (copy_ops w H T opt k level base count (rows count src)) buf
    = Ret (rows (count * S k) (fun r => bump w (k * N) (alpha (r / S k mod level)%nat) (src (r / S k)%nat))).
Proof.
  intros Hs Ha Hl Lb. unfold copy_ops. rewrite !Nat.add_1_r.
  assert (Hd : forall r, (r < count * S k)%nat -> (r / S k < count)%nat) by (intros r Hr; apply Nat.div_lt_upper_bound; [lia|]; rewrite Nat.mul_comm; exact Hr).
  rewrite (write_rows sched (count * S k) (S (k * N)) (shift_cells H T opt k) (fun _ => true)
    (fun r c => let! v := CudaModel.get (rows count src) (r / S k * S (k * N) + c) in
      if Nat.eqb c (k * N) then let! val := one_shl w ((w - 1 - base * Z.of_nat (r / S k mod level + 1)) mod 2 ^ 64) in Ret (wadd w v val) else Ret v)
    (fun r c => if Nat.eqb c (k * N) then wadd w (nth c (src (r / S k)%nat) 0) (alpha (r / S k mod level)%nat) else nth c (src (r / S k)%nat) 0) buf); try assumption; try lia.
  - reflexivity.
  - apply shift_cells_nodup; assumption.
  - intros c. rewrite (shift_cells_in H T opt k HT HH Hk). split; [intros; split; [lia|reflexivity]|lia].
  - intros r c Hr Hc _. rewrite (CudaFacts.get_some _ _ (nth c (src (r / S k)%nat) 0)); [|apply (nth_rows count); [exact Hl|apply Hd, Hr|exact Hc]]. cbn [obind].
    destruct (Nat.eqb c (k * N)); [|reflexivity]. rewrite Ha by (apply Nat.mod_upper_bound; lia). reflexivity.
Qed.
End Kernels.
