(** * Model of the signed decomposition
    /repo/concrete-core/src/commons/math/decomposition/{decomposer,iter,term}.rs and the copy in
    /repo/concrete-core/src/backends/fft/private/math/decomposition.rs.
    [w] is [Scalar::BITS].  Levels are [nat]; [base_log] is a Z. *)
From Verif Require Import Base Word.

Section Decomp.
Context (p : profile) (w : Z).

(** decomposer.rs:11-18 SignedDecomposer *)
Record decomposer := Dec { base_log : Z; level_count : nat }.

(** decomposer.rs:36-49 new: the [debug_assert!] is compiled only in debug builds. *)
Definition dec_new (b : Z) (l : nat) : outcome decomposer :=
  let! bl := plain p usize_bits (b * Z.of_nat l) in
  match p with
  | Debug => if w >? bl then Ret (Dec b l) else Panic
  | Release => Ret (Dec b l)
  end.

(** decomposer.rs:98-115 closest_representable, operator by operator. *)
Definition closest_representable_ (d : decomposer) (input : Z) : outcome Z :=
  let! lb := plain p usize_bits (Z.of_nat (level_count d) * base_log d) in
  let! non_rep_bit_count := plain p usize_bits (w - lb) in
  let! s1 := plain p usize_bits (non_rep_bit_count - 1) in
  let! non_rep_mask := shl_ p w 1 s1 in
  let non_rep_bits := Z.land input non_rep_mask in
  let! non_rep_msb := shr_ p w non_rep_bits s1 in
  let! res := shr_ p w input non_rep_bit_count in
  let! res := plain p w (res + non_rep_msb) in
  shl_ p w res non_rep_bit_count.

(** The value [closest_representable_] returns when [0 < base_log * level_count < BITS]
    ([DecompProofs.closest_representable_ok]). *)
Definition closest_representable (d : decomposer) (input : Z) : Z :=
  let nr := w - base_log d * Z.of_nat (level_count d) in
  shl w (shr input nr + shr (Z.land input (2 ^ (nr - 1))) (nr - 1)) nr.

(** iter.rs:276-283 decompose_one_level (also fft/private/math/decomposition.rs:79-86):
    returns the digit and the new state. *)
Definition decompose_one_level_ (b state mask : Z) : outcome (Z * Z) :=
  let res := Z.land state mask in
  let! state := shr_ p w state b in
  let carry := Z.land (Z.lor (wsub w res 1) state) res in
  let! b1 := plain p usize_bits (b - 1) in
  let! carry := shr_ p w carry b1 in
  let! state := plain p w (state + carry) in
  let! cb := shl_ p w carry b in
  Ret (wsub w res cb, state).

(** Its value when [0 < base_log < BITS]. *)
Definition decompose_one_level (b state : Z) : Z * Z :=
  let res := Z.land state (2 ^ b - 1) in
  let state := shr state b in
  let carry := shr (Z.land (Z.lor (wsub w res 1) state) res) (b - 1) in
  (wsub w res (shl w carry b), state + carry).

(** iter.rs:167-186 SignedDecompositionIter; [input] and [level_count] are kept although only
    the accessors read them. *)
Record sdi := Sdi {
  it_input : Z; it_base_log : Z; it_level_count : nat; it_state : Z;
  it_current_level : nat; it_mask : Z; it_fresh : bool }.

(** term.rs:15-22 DecompositionTerm *)
Record term := Term { t_level : nat; t_base_log : Z; t_value : Z }.

(** iter.rs:192-206 SignedDecompositionIter::new *)
Definition sdi_new (input : Z) (b : Z) (l : nat) : outcome sdi :=
  let! bl := plain p usize_bits (b * Z.of_nat l) in
  let! s := plain p usize_bits (w - bl) in
  let! state := shr_ p w input s in
  let! m := shl_ p w 1 b in
  let! mask := plain p w (m - 1) in
  Ret (Sdi input b l state l mask true).

(** decomposer.rs:168-176 decompose *)
Definition decompose_ (d : decomposer) (input : Z) : outcome sdi :=
  let! c := closest_representable_ d input in
  sdi_new c (base_log d) (level_count d).

(** iter.rs:257-273 next *)
Definition sdi_next (it : sdi) : outcome (option term * sdi) :=
  match it_current_level it with
  | O => Ret (None, Sdi (it_input it) (it_base_log it) (it_level_count it) (it_state it) O (it_mask it) false)
  | S l =>
      let! (output, state) := decompose_one_level_ (it_base_log it) (it_state it) (it_mask it) in
      Ret (Some (Term (l + 1) (it_base_log it) output),
           Sdi (it_input it) (it_base_log it) (it_level_count it) state l (it_mask it) false)
  end.

(** term.rs:56-59 to_recomposition_summand *)
Definition summand (t : term) : outcome Z :=
  let! bl := plain p usize_bits (t_base_log t * Z.of_nat (t_level t)) in
  let! s := plain p usize_bits (w - bl) in
  shl_ p w (t_value t) s.

(** [k] calls to [next], in order (the shape of any [for]/[fold] over the iterator). *)
Fixpoint sdi_take (k : nat) (it : sdi) : outcome (list (option term) * sdi) :=
  match k with
  | O => Ret ([], it)
  | S k' => let! (t, it) := sdi_next it in
            let! (ts, it) := sdi_take k' it in Ret (t :: ts, it)
  end.

(** Iterator::fold: consumes the iterator until its first [None].  [fuel] bounds the number of
    calls; [current_level + 1] calls always reach [None]. *)
Fixpoint recompose_fold (fuel : nat) (acc : Z) (it : sdi) : outcome Z :=
  match fuel with
  | O => Panic
  | S k => let! (t, it) := sdi_next it in
           match t with
           | None => Ret acc
           | Some t => let! s := summand t in recompose_fold k (wadd w acc s) it
           end
  end.

(** decomposer.rs:195-203 recompose *)
Definition recompose (it : sdi) : outcome (option Z) :=
  if it_fresh it then
    let! v := recompose_fold (S (it_current_level it)) 0 it in Ret (Some v)
  else Ret None.

(** *** Tensors *)

(** iter.rs:25-47 TensorSignedDecompositionIter.  The [inputs] copy, never read, is left out. *)
Record tsdi := Tsdi {
  ti_base_log : Z; ti_level_count : nat; ti_current_level : nat; ti_mask : Z;
  ti_states : list Z; ti_outputs : list Z; ti_fresh : bool }.

(** decomposer.rs:239-252 decompose_tensor with iter.rs:54-73 new *)
Definition decompose_tensor_ (d : decomposer) (input : list Z) : outcome tsdi :=
  let! rounded := omap (closest_representable_ d) input in
  let! m := shl_ p w 1 (base_log d) in
  let! mask := plain p w (m - 1) in
  let! states := omap (fun i =>
      let! bl := plain p usize_bits (base_log d * Z.of_nat (level_count d)) in
      let! s := plain p usize_bits (w - bl) in shr_ p w i s) rounded in
  Ret (Tsdi (base_log d) (level_count d) (level_count d) mask states (map (fun _ => 0) input) true).

(** term.rs:104-111 DecompositionTermTensor *)
Record term_tensor := TermT { tt_level : nat; tt_base_log : Z; tt_values : list Z }.

(** iter.rs:140-158 next_term *)
Definition tsdi_next (it : tsdi) : outcome (option term_tensor * tsdi) :=
  match ti_current_level it with
  | O => Ret (None, Tsdi (ti_base_log it) (ti_level_count it) O (ti_mask it) (ti_states it) (ti_outputs it) false)
  | S l =>
      let! r := omap (fun s => decompose_one_level_ (ti_base_log it) s (ti_mask it)) (ti_states it) in
      Ret (Some (TermT (l + 1) (ti_base_log it) (map fst r)),
           Tsdi (ti_base_log it) (ti_level_count it) l (ti_mask it) (map snd r) (map fst r) false)
  end.

(** term.rs:161-173 update_tensor_with_recomposition_summand_wrapping_addition, through
    [update_with_one] (math/tensor/tensor.rs:1045-1057). *)
Definition update_summand (t : term_tensor) (output : list Z) : outcome (list Z) :=
  let! _ := ck_dim_eq p (length output) (length (tt_values t)) in
  ozip_update (fun out v =>
      let! bl := plain p usize_bits (tt_base_log t * Z.of_nat (tt_level t)) in
      let! s := plain p usize_bits (w - bl) in
      let! x := shl_ p w v s in Ret (wadd w out x)) output (tt_values t).

(** decomposer.rs:285-290: the [while let] loop, with the same fuel as above. *)
Fixpoint recompose_tensor_loop (fuel : nat) (it : tsdi) (output : list Z) : outcome (list Z) :=
  match fuel with
  | O => Panic
  | S k => let! (t, it) := tsdi_next it in
           match t with
           | None => Ret output
           | Some t => let! output := update_summand t output in recompose_tensor_loop k it output
           end
  end.

(** decomposer.rs:277-294 fill_tensor_with_recompose: [None] leaves the output as it is. *)
Definition fill_tensor_with_recompose (it : tsdi) (output : list Z) : outcome (option (list Z)) :=
  if ti_fresh it then
    let! v := recompose_tensor_loop (S (ti_current_level it)) it output in Ret (Some v)
  else Ret None.

(** ** The digits as a list
    [digits b k st] are the values of the [k] remaining levels, most significant level number
    first (levels k, k-1, ..., 1), when the state is [st]. *)
Fixpoint digits (b : Z) (k : nat) (st : Z) : list Z :=
  match k with
  | O => []
  | S k' => let (d, st') := decompose_one_level b st in d :: digits b k' st'
  end.

(** The digit list of an input, in the order in which the code yields it (level l first). *)
Definition decomp (d : decomposer) (input : Z) : list Z :=
  digits (base_log d) (level_count d)
    (shr (closest_representable d input) (w - base_log d * Z.of_nat (level_count d))).

End Decomp.

(** fft/private/math/decomposition.rs:11-76 TensorSignedDecompositionLendingIter: the lazily
    consumed map is modelled as consumed in full before the next call, which is what every
    caller in the backend does. *)
Record lending := Lend { le_base_log : Z; le_current_level : nat; le_mask : Z; le_states : list Z; le_fresh : bool }.

Definition lending_new (p : profile) (w : Z) (input : list Z) (b : Z) (l : nat) : outcome lending :=
  let! bl := plain p usize_bits (b * Z.of_nat l) in
  let! s := plain p usize_bits (w - bl) in
  let! states := omap (fun i => shr_ p w i s) input in
  let! m := shl_ p w 1 b in
  let! mask := plain p w (m - 1) in
  Ret (Lend b l mask states true).

Definition lending_next (p : profile) (w : Z) (it : lending) : outcome (option (nat * Z * list Z) * lending) :=
  match le_current_level it with
  | O => Ret (None, Lend (le_base_log it) O (le_mask it) (le_states it) false)
  | S l =>
      let! r := omap (fun s => decompose_one_level_ p w (le_base_log it) s (le_mask it)) (le_states it) in
      Ret (Some (S l, le_base_log it, map fst r), Lend (le_base_log it) l (le_mask it) (map snd r) false)
  end.
