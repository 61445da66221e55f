(** * What a safe entry point promises
    The specification of the checked methods of the engines, independent of how the checks are written. *)
From Verif Require Import Base EngineModel.

(** The call never panics; it answers [Ok] exactly when the arguments are [valid], and then the result is [good];
    otherwise it answers an error whose documented meaning [means] is the case. *)
Definition engine_spec {A} (valid : Prop) (good : A -> Prop) (means : engine_error -> Prop) (o : outcome (result A)) : Prop :=
  match o with
  | Ret (Ok a) => valid /\ good a
  | Ret (Err e) => ~ valid /\ means e
  | Panic => False
  end.

(** The same for an operation that consumes randomness, which panics when a generator runs out: on valid arguments
    the call does what the operation [op] does, otherwise it answers an error (and op is not run: the generators
    are untouched). *)
Definition guarded_spec {A} (valid : Prop) (op : outcome A) (means : engine_error -> Prop) (o : outcome (result A)) : Prop :=
  (valid /\ o = match op with Ret a => Ret (Ok a) | Panic => Panic end) \/
  (~ valid /\ exists e, o = Ret (Err e) /\ means e).

(** Well-formed entities: what the constructors of the library produce. *)
Definition lwe_vec_wf (v : lwe_vec) : Prop := (0 < lv_size v)%nat /\ Forall (fun c => length c = lv_size v) (lv_cts v).
Definition glwe_ct_wf (c : glwe_ct) : Prop := (0 < g_N c)%nat /\ g_polys c <> [] /\ Forall (fun a => length a = g_N c) (g_polys c).
Definition glwe_key_wf (k : glwe_key) : Prop := (0 < gk_N k)%nat /\ Forall (fun a => length a = gk_N k) (gk_polys k).
Definition glwe_vec_wf (v : glwe_vec) : Prop :=
  (0 < gv_N v)%nat /\ (0 < gv_size v)%nat /\ Forall (fun c => length c = gv_size v /\ Forall (fun a => length a = gv_N v) c) (gv_cts v).
