(** * Model of the NTT backend
    /repo/concrete-core/src/backends/ntt/private/math/{mod_q,transform,polynomial}.rs and
    /repo/concrete-core/src/backends/ntt/private/crypto/{ggsw/ntt,bootstrap/ntt/mod}.rs.

    A [ModQ] is modelled by its value: the modulus stored next to it is the section variable [q], the
    same for all the elements (the code asserts it in debug builds only).  [W] is the width of the type
    of the values: 64 for 32-bit words, 128 for 64-bit words.  Sizes and indices are natural numbers,
    without the overflow of usize. *)
From Verif Require Import Base Word DecompModel PolyModel GlweModel SeededModel BootstrapModel.

(** [for j in js { body }] *)
Fixpoint for_ {S} (js : list nat) (body : nat -> S -> outcome S) (s : S) : outcome S :=
  match js with [] => Ret s | j :: js' => let! s := body j s in for_ js' body s end.

(** tensor.rs get_element, set_element: an index out of bounds panics. *)
Definition get_element (l : list Z) (j : nat) : outcome Z := match nth_error l j with Some x => Ret x | None => Panic end.
Definition set_element (l : list Z) (j : nat) (x : Z) : outcome (list Z) :=
  if (j <? length l)%nat then Ret (firstn j l ++ x :: skipn (S j) l) else Panic.

(** math/mod.rs:6 ALLOWED_POLY_SIZE *)
Definition ALLOWED_POLY_SIZE : list nat := [128; 256; 512; 1024; 2048; 4096]%nat.

(** transform.rs:17-23 Ntt *)
Record ntt := Ntt { nt_log : nat; nt_roots : list Z; nt_roots_inv : list Z; nt_n_inv : Z; nt_buffer : list Z }.
(** transform.rs:53-69 new *)
Definition ntt_new (poly_size log_size : nat) (roots roots_inv : list Z) (n_inv : Z) : ntt :=
  Ntt log_size roots roots_inv n_inv (repeat 0 poly_size).
Definition with_buffer (nt : ntt) (b : list Z) : ntt := Ntt (nt_log nt) (nt_roots nt) (nt_roots_inv nt) (nt_n_inv nt) b.

Section Ntt.
Context (p : profile) (W q : Z).

(** [x % q] on unsigned integers *)
Definition rem_q (x : Z) : outcome Z := if q =? 0 then Panic else Ret (x mod q).
(** mod_q.rs:13-24 *)
Definition mq_add (a b : Z) : outcome Z := let! s := plain p W (a + b) in rem_q s.
(** mod_q.rs:32-43 *)
Definition mq_mul (a b : Z) : outcome Z := let! s := plain p W (a * b) in rem_q s.
(** mod_q.rs:51-61 *)
Definition mq_neg (a : Z) : outcome Z := let! s := plain p W (q - a) in rem_q s.
(** mod_q.rs:63-72 *)
Definition mq_sub (a b : Z) : outcome Z := let! n := mq_neg b in let! s := mq_add a n in rem_q s.
(** mod_q.rs:83-86 mod_switch_from; the cast keeps the [w] low bits *)
Definition mod_switch_from (w v : Z) : outcome Z :=
  let! s := shl_ p W v w in
  let! h := shr_ p W q 1 in
  if q =? 0 then Panic else Ret ((Z.lor s h / q) mod 2 ^ w).
(** mod_q.rs:90-93 mod_switch_into, with set (95-102) *)
Definition mod_switch_into (w input : Z) : outcome Z :=
  let! m := plain p W (input * q) in
  let! h := shl_ p W 1 (w - 1) in
  let! s := plain p W (m + h) in
  let! r := shr_ p W s w in
  rem_q r.

(** ** transform.rs *)

(** transform.rs:242-245: one butterfly *)
Definition fwd_butterfly (s : Z) (t j : nat) (buf : list Z) : outcome (list Z) :=
  let! u := get_element buf j in
  let! x := get_element buf (j + t) in
  let! v := mq_mul x s in
  let! a := mq_add u v in
  let! buf := set_element buf j a in
  let! b := mq_sub u v in
  set_element buf (j + t) b.
(** transform.rs:236-247 *)
Definition fwd_block (roots : list Z) (m t i : nat) (buf : list Z) : outcome (list Z) :=
  let! s := get_element roots (m + i) in
  for_ (seq (2 * i * t) t) (fwd_butterfly s t) buf.
(** transform.rs:232-248 *)
Definition fwd_scale (roots : list Z) (log_size scale : nat) (buf : list Z) : outcome (list Z) :=
  let t := (2 ^ (log_size - 1 - scale))%nat in
  let m := (2 ^ scale)%nat in
  for_ (seq 0 m) (fwd_block roots m t) buf.
(** transform.rs:223-257 forward_from_buffer: the output and the new state of the transform *)
Definition forward_from_buffer (nt : ntt) (out : list Z) : outcome (list Z * ntt) :=
  let! buf := for_ (seq 0 (nt_log nt)) (fwd_scale (nt_roots nt) (nt_log nt)) (nt_buffer nt) in
  Ret (zip_update (fun _ b => b) out buf, with_buffer nt buf).
(** transform.rs:195-220 forward *)
Definition forward (nt : ntt) (out poly : list Z) : outcome (list Z * ntt) :=
  let! _ := debug_assert p (existsb (Nat.eqb (length out)) ALLOWED_POLY_SIZE) in
  let! _ := assert_ (Nat.eqb (length out) (length poly)) in
  forward_from_buffer (with_buffer nt (zip_update (fun _ x => x) (nt_buffer nt) poly)) out.
(** transform.rs:119-145 forward_w_mod_switch, for words of [w] bits *)
Definition forward_w_mod_switch (w : Z) (nt : ntt) (out poly : list Z) : outcome (list Z * ntt) :=
  let! _ := debug_assert p (existsb (Nat.eqb (length out)) ALLOWED_POLY_SIZE) in
  let! _ := assert_ (Nat.eqb (length out) (length poly)) in
  let! buf := ozip_update (fun _ x => mod_switch_into w x) (nt_buffer nt) poly in
  forward_from_buffer (with_buffer nt buf) out.

(** transform.rs:366-371 *)
Definition bwd_butterfly (s : Z) (t j : nat) (buf : list Z) : outcome (list Z) :=
  let! u := get_element buf j in
  let! v := get_element buf (j + t) in
  let! a := mq_add u v in
  let! buf := set_element buf j a in
  let! d := mq_sub u v in
  let! b := mq_mul d s in
  set_element buf (j + t) b.
(** transform.rs:362-374; [j1] is 2 t i in the i-th iteration *)
Definition bwd_block (roots_inv : list Z) (h t i : nat) (buf : list Z) : outcome (list Z) :=
  let! s := get_element roots_inv (h + i) in
  for_ (seq (2 * t * i) t) (bwd_butterfly s t) buf.
(** transform.rs:356-375 *)
Definition bwd_scale (roots_inv : list Z) (log_size scale : nat) (buf : list Z) : outcome (list Z) :=
  let h := (2 ^ (log_size - 1 - scale))%nat in
  let t := (2 ^ scale)%nat in
  for_ (seq 0 h) (bwd_block roots_inv h t) buf.
(** transform.rs:340-376 backwards_into_buffer *)
Definition backwards_into_buffer (nt : ntt) (poly : list Z) : outcome ntt :=
  let! buf := for_ (seq 0 (nt_log nt)) (bwd_scale (nt_roots_inv nt) (nt_log nt)) (zip_update (fun _ x => x) (nt_buffer nt) poly) in
  Ret (with_buffer nt buf).
(** transform.rs:315-337 backward *)
Definition backward (nt : ntt) (out poly : list Z) : outcome (list Z * ntt) :=
  let! _ := assert_ (Nat.eqb (length out) (length poly)) in
  let! nt := backwards_into_buffer nt poly in
  let! out := ozip_update (fun _ b => mq_mul b (nt_n_inv nt)) out (nt_buffer nt) in
  Ret (out, nt).
(** transform.rs:264-285 backward_w_mod_switch *)
Definition backward_w_mod_switch (w : Z) (nt : ntt) (out poly : list Z) : outcome (list Z * ntt) :=
  let! _ := assert_ (Nat.eqb (length out) (length poly)) in
  let! nt := backwards_into_buffer nt poly in
  let! out := ozip_update (fun _ b => let! x := mq_mul b (nt_n_inv nt) in mod_switch_from w x) out (nt_buffer nt) in
  Ret (out, nt).
(** transform.rs:287-309 add_backward_w_mod_switch *)
Definition add_backward_w_mod_switch (w : Z) (nt : ntt) (out poly : list Z) : outcome (list Z * ntt) :=
  let! _ := assert_ (Nat.eqb (length out) (length poly)) in
  let! nt := backwards_into_buffer nt poly in
  let! out := ozip_update (fun o b => let! x := mq_mul b (nt_n_inv nt) in let! y := mod_switch_from w x in Ret (wadd w o y)) out (nt_buffer nt) in
  Ret (out, nt).

(** polynomial.rs:277-295 update_with_multiply_accumulate *)
Definition multiply_accumulate (res poly_1 poly_2 : list Z) : outcome (list Z) :=
  let! _ := ck_dim_eq p (length res) (length poly_1) in
  let! _ := ck_dim_eq p (length res) (length poly_2) in
  ozip_update (fun r '(a, b) => let! m := mq_mul a b in mq_add r m) res (combine poly_1 poly_2).

(** ** ggsw/ntt.rs *)
Context (w : Z).

(** Threads the state of the transform through a list. *)
Fixpoint forward_polys (nt : ntt) (outs polys : list (list Z)) : outcome (list (list Z) * ntt) :=
  match outs, polys with
  | o :: outs', x :: polys' =>
      let! (o, nt) := forward_w_mod_switch w nt o x in
      let! (os, nt) := forward_polys nt outs' polys' in
      Ret (o :: os, nt)
  | _, _ => Ret (outs, nt)
  end.
Fixpoint forward_rows (nt : ntt) (outs rows : list (list (list Z))) : outcome (list (list (list Z)) * ntt) :=
  match outs, rows with
  | o :: outs', x :: rows' =>
      let! (o, nt) := forward_polys nt o x in
      let! (os, nt) := forward_rows nt outs' rows' in
      Ret (o :: os, nt)
  | _, _ => Ret (outs, nt)
  end.
(** ggsw/ntt.rs:402-426 fill_with_forward_ntt.  The code walks the two flat containers polynomial by
    polynomial; here the containers are nested lists of the same shape (levels, rows, polynomials). *)
Fixpoint fill_with_forward_ntt (nt : ntt) (outs levels : list (list (list (list Z)))) : outcome (list (list (list (list Z))) * ntt) :=
  match outs, levels with
  | o :: outs', x :: levels' =>
      let! (o, nt) := forward_rows nt o x in
      let! (os, nt) := fill_with_forward_ntt nt outs' levels' in
      Ret (o :: os, nt)
  | _, _ => Ret (outs, nt)
  end.
(** bootstrap/ntt/mod.rs:189-204 *)
Fixpoint bsk_forward_ntt (nt : ntt) (outs bsk : list (list (list (list (list Z))))) : outcome (list (list (list (list (list Z)))) * ntt) :=
  match outs, bsk with
  | o :: outs', x :: bsk' =>
      let! (o, nt) := fill_with_forward_ntt nt o x in
      let! (os, nt) := bsk_forward_ntt nt outs' bsk' in
      Ret (o :: os, nt)
  | _, _ => Ret (outs, nt)
  end.

(** ggsw/ntt.rs:489-511: the rows of one level.  [fft] is fft_buffer and [acc] ntt_glwe_buffer. *)
Fixpoint ntt_ep_rows (rows : list (list (list Z))) (polys : list (list Z)) (nt : ntt) (fft : list Z) (acc : list (list Z))
    : outcome (ntt * list Z * list (list Z)) :=
  match rows, polys with
  | row :: rows', x :: polys' =>
      let! (fft, nt) := forward_w_mod_switch w nt fft x in
      let! acc := ozip_update (fun o g => multiply_accumulate o g fft) acc row in
      ntt_ep_rows rows' polys' nt fft acc
  | _, _ => Ret (nt, fft, acc)
  end.
(** ggsw/ntt.rs:471-512: the levels, already reversed *)
Fixpoint ntt_ep_levels (N : nat) (levels : list (list (list (list Z)))) (it : tsdi) (nt : ntt) (fft : list Z) (acc : list (list Z))
    : outcome (ntt * list Z * list (list Z)) :=
  match levels with
  | [] => Ret (nt, fft, acc)
  | rows :: levels' =>
      let! (t, it) := tsdi_next p w it in
      match t with
      | None => Panic
      | Some t =>
          let! _ := debug_assert p (Nat.eqb (length levels) (tt_level t)) in
          let! (nt, fft, acc) := ntt_ep_rows rows (chunks N (tt_values t)) nt fft acc in
          ntt_ep_levels N levels' it nt fft acc
      end
  end.
(** ggsw/ntt.rs:518-523 *)
Fixpoint add_backward_polys (nt : ntt) (outs polys : list (list Z)) : outcome (list (list Z) * ntt) :=
  match outs, polys with
  | o :: outs', x :: polys' =>
      let! (o, nt) := add_backward_w_mod_switch w nt o x in
      let! (os, nt) := add_backward_polys nt outs' polys' in
      Ret (o :: os, nt)
  | _, _ => Ret (outs, nt)
  end.

(** The buffers an operation borrows: the transform (with its buffer) and the rounded input, flat. *)
Record nbufs := NB { nb_ntt : ntt; nb_rounded : list Z }.

(** ggsw/ntt.rs:428-524 external_product.  [N], [glwe_size] and [base_log] are stored in the GGSW
    ciphertext. The comparison of the polynomial sizes (442-446) is left out. *)
Definition ntt_external_product (N glwe_size : nat) (base_log : Z) (out : list (list Z)) (ggsw : list (list (list (list Z)))) (glwe : list (list Z)) (bufs : nbufs)
    : outcome (list (list Z) * nbufs) :=
  let! _ := ck_dim_eq p glwe_size (length glwe) in
  let! _ := ck_dim_eq p glwe_size (length out) in
  let! d := dec_new p w base_log (length ggsw) in
  let! _ := ck_dim_eq p (length (nb_rounded bufs)) (length (concat glwe)) in
  let! rounded := ozip_update (fun _ x => closest_representable_ p w d x) (nb_rounded bufs) (concat glwe) in
  let! it := decompose_tensor_ p w d rounded in
  let! (nt, _, acc) := ntt_ep_levels N (rev ggsw) it (nb_ntt bufs) (repeat 0 N) (repeat (repeat 0 N) glwe_size) in
  let! (out, nt) := add_backward_polys nt out acc in
  Ret (out, NB nt rounded).
(** ggsw/ntt.rs:527-543 cmux *)
Definition ntt_cmux (N glwe_size : nat) (base_log : Z) (ct0 ct1 : list (list Z)) (ggsw : list (list (list (list Z)))) (bufs : nbufs)
    : outcome (list (list Z) * list (list Z) * nbufs) :=
  let ct1 := zip_update (zip_update (wsub w)) ct1 ct0 in
  let! (ct0, bufs) := ntt_external_product N glwe_size base_log ct0 ggsw ct1 bufs in
  Ret (ct0, ct1, bufs).

(** bootstrap/ntt/mod.rs:484-510: the loop of blind_rotate.  ct_1 is a copy of ct_0 at the start of each
    iteration. *)
Fixpoint ntt_rotate_loop (N glwe_size : nat) (base_log : Z) (steps : list (Z * list (list (list (list Z))))) (ct0 : list (list Z)) (bufs : nbufs)
    : outcome (list (list Z) * nbufs) :=
  match steps with
  | [] => Ret (ct0, bufs)
  | (a, ggsw) :: steps' =>
      if a =? 0 then ntt_rotate_loop N glwe_size base_log steps' ct0 bufs
      else
        let! d := pbs_modulus_switch p w a (Z.of_nat N) 0 0 in
        let ct1 := list_monic_monomial_mul w ct0 (Z.to_nat d) in
        let! (ct0, _, bufs) := ntt_cmux N glwe_size base_log ct0 ct1 ggsw bufs in
        ntt_rotate_loop N glwe_size base_log steps' ct0 bufs
  end.
(** bootstrap/ntt/mod.rs:454-511 blind_rotate, on the LUT buffer *)
Definition ntt_blind_rotate (N glwe_size : nat) (base_log : Z) (bsk : list (list (list (list (list Z))))) (lut : list (list Z)) (lwe : list Z) (bufs : nbufs)
    : outcome (list (list Z) * nbufs) :=
  match lwe with
  | [] => Panic
  | _ =>
      let! d := pbs_modulus_switch p w (last lwe 0) (Z.of_nat N) 0 0 in
      ntt_rotate_loop N glwe_size base_log (combine (removelast lwe) bsk) (list_monic_monomial_div w lut (Z.to_nat d)) bufs
  end.
(** bootstrap/ntt/mod.rs:654-681 bootstrap: [copy_from_slice] panics unless the LUT buffer has the size of
    the accumulator; the LUT buffer keeps the rotated accumulator. *)
Definition ntt_bootstrap (N glwe_size : nat) (base_log : Z) (bsk : list (list (list (list (list Z))))) (lwe_out lwe_in : list Z) (accumulator : list (list Z))
    (lut_buffer : list (list Z)) (bufs : nbufs) : outcome (list Z * list (list Z) * nbufs) :=
  let! _ := assert_ (Nat.eqb (length (concat lut_buffer)) (length (concat accumulator))) in
  let! (lut, bufs) := ntt_blind_rotate N glwe_size base_log bsk accumulator lwe_in bufs in
  let! out := fill_lwe_with_sample_extraction w N lut lwe_out 0 in
  Ret (out, lut, bufs).
End Ntt.
