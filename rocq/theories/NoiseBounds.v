(** * Noise polynomials are bounded when the samples are *)
From Verif Require Import Base Word WordFacts NegaRing PolySpec PolyProofs RingSum RandomModel GlweProofs.

(** Every sample, read as a signed word, has absolute value at most [beta]. *)
Definition gauss_small (w beta : Z) (gauss : list Z -> option (Z * Z)) : Prop :=
  forall l a b, gauss l = Some (a, b) -> Z.abs (sgn w a) <= beta /\ Z.abs (sgn w b) <= beta.

Lemma gaussian_loop_small w beta gauss fuel : gauss_small w beta gauss -> forall g a b g', gaussian_loop gauss fuel g = Ret (a, b, g') ->
  Z.abs (sgn w a) <= beta /\ Z.abs (sgn w b) <= beta.
Proof.
  intros Hg. induction fuel as [|fuel IH]; intros g a b g' E; [discriminate|]. cbn [gaussian_loop] in E.
  destruct (read_bytes 8 g) as [[u g1]|]; [|discriminate]. cbn [obind] in E.
  destruct (read_bytes 8 g1) as [[v g2]|]; [|discriminate]. cbn [obind] in E.
  destruct (gauss (u ++ v)) as [[x y]|] eqn:El.
  - injection E as <- <- <-. apply (Hg _ _ _ El).
  - apply (IH _ _ _ _ E).
Qed.

Lemma gaussian_tensor_small w beta gauss : gauss_small w beta gauss -> forall n g l g', gaussian_tensor gauss n g = Ret (l, g') ->
  length l = n /\ Forall (fun x => Z.abs (sgn w x) <= beta) l.
Proof.
  intros Hg n. induction n as [n IHn] using lt_wf_ind. intros g l g' E.
  destruct n as [|[|n]]; cbn [gaussian_tensor] in E.
  - injection E as <- <-. split; [reflexivity|constructor].
  - destruct (gaussian_pair gauss g) as [[[a b] g1]|] eqn:E1; [|discriminate]. cbn [obind] in E. injection E as <- <-.
    apply (gaussian_loop_small w beta) in E1; [|assumption]. split; [reflexivity|]. constructor; [apply E1|constructor].
  - destruct (gaussian_pair gauss g) as [[[a b] g1]|] eqn:E1; [|discriminate]. cbn [obind] in E.
    destruct (gaussian_tensor gauss n g1) as [[l1 g2]|] eqn:E2; [|discriminate]. cbn [obind] in E. injection E as <- <-.
    apply (gaussian_loop_small w beta) in E1; [|assumption]. apply IHn in E2; [|lia]. destruct E2 as [L F].
    split; [cbn; lia|]. constructor; [apply E1|]. constructor; [apply E1|assumption].
Qed.

Lemma eqm_sgn w x : 0 <= w -> eqm (2 ^ w) x (sgn w x).
Proof.
  intros Hw. unfold sgn. destruct (x <? 2 ^ (w - 1)); [reflexivity|]. apply (eqm_k _ _ _ 1). lia.
Qed.

Lemma small_rbound w N beta l : 0 <= w -> length l = N -> Forall (fun x => Z.abs (sgn w x) <= beta) l -> rbound (2 ^ w) beta (R N l).
Proof.
  intros Hw Hl H. apply rbound_R; [assumption|]. eapply Forall_impl; [|exact H]. intros x Hx. exists (sgn w x).
  split; [apply eqm_sgn; assumption|exact Hx].
Qed.
