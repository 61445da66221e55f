(** * Model of the external product and of the cmux
    /repo/concrete-core/src/backends/fft/private/crypto/ggsw.rs:255-708.

    The transform domain of the FFT backend (vectors of N/2 double-precision complex numbers) is not
    modelled: it is a parameter [backend] made of the five operations the code calls on it.  The
    theorems quantify over the backend and over a bound on its error.  Everything around it
    (rounding, decomposition, order of the levels and rows, accumulation, the uninitialised buffer)
    is modelled. *)
From Verif Require Import Base Word DecompModel PolyModel GlweModel.

(** One polynomial of the transform domain.
    [bk_key]: forward_as_torus, applied to the GGSW rows (ggsw.rs:276-283).
    [bk_digit]: forward_as_integer, applied to the digit polynomials (ggsw.rs:423-429).
    [bk_mul], [bk_mac]: update_with_fmadd_scalar, with and without [is_output_uninit]
      (ggsw.rs:619-638; the AVX versions 499-610 compute the same expressions).
    [bk_add_back]: add_backward_as_torus (ggsw.rs:466-468). *)
Record backend := Backend {
  bk_dom : Type;
  bk_key : list Z -> bk_dom;
  bk_digit : list Z -> bk_dom;
  bk_mul : bk_dom -> bk_dom -> bk_dom;
  bk_mac : bk_dom -> bk_dom -> bk_dom -> bk_dom;
  bk_add_back : list Z -> bk_dom -> list Z }.

(** ** The double loop over levels and rows (also that of the NTT backend) *)

(** The loop over the rows of one level, zipped with the polynomials of the decomposition term:
    ggsw.rs:412-446.  [step] accumulates one row multiplied by one transformed polynomial. *)
Fixpoint ep_rows {D A} (step : A -> list D -> D -> A) (fwd : list Z -> D) (rows : list (list D)) (polys : list (list Z)) (acc : A) : A :=
  match rows, polys with
  | row :: rows', q :: polys' => ep_rows step fwd rows' polys' (step acc row (fwd q))
  | _, _ => acc
  end.

(** The loop over the levels, already reversed (ggsw.rs:392-447): [next] yields the decomposition
    terms; [.unwrap()] panics when there is none left (ggsw.rs:482); the level of the head of
    [levels] is the number of levels left (ggsw.rs:398, debug_assert). *)
Fixpoint ep_levels {It D A} (p : profile) (next : It -> outcome (option (nat * list Z) * It)) (N : nat)
    (step : A -> list D -> D -> A) (fwd : list Z -> D) (levels : list (list (list D))) (it : It) (acc : A) : outcome A :=
  match levels with
  | [] => Ret acc
  | rows :: levels' =>
      let! (t, it) := next it in
      match t with
      | None => Panic
      | Some (level, term) =>
          let! _ := ck_dim_eq p (length levels) level in
          ep_levels p next N step fwd levels' it (ep_rows step fwd rows (chunks N term) acc)
      end
  end.

Section ExtProd.
Context (p : profile) (w : Z) (B : backend).

(** ggsw.rs:262-284 fill_with_forward_fourier, polynomial by polynomial (and
    fft/private/crypto/bootstrap.rs fill_with_forward_fourier for the GGSW list of a bootstrap key). *)
Definition fill_with_forward_fourier (G : list (list (list (list Z)))) : list (list (list (bk_dom B))) :=
  map (map (map (bk_key B))) G.

(** ggsw.rs:648-681 update_with_fmadd; [None] is the uninitialised buffer ([is_output_uninit]). *)
Definition update_with_fmadd (acc : option (list (bk_dom B))) (row : list (bk_dom B)) (fourier : bk_dom B) : option (list (bk_dom B)) :=
  match acc with
  | None => Some (map (fun g => bk_mul B g fourier) row)
  | Some a => Some (zip_update (fun o g => bk_mac B o g fourier) a row)
  end.

Definition lending_next2 (it : lending) : outcome (option (nat * list Z) * lending) :=
  let! (t, it) := lending_next p w it in
  Ret (match t with Some (level, _, term) => Some (level, term) | None => None end, it).

(** ggsw.rs:347-470 external_product; [N] is the polynomial size and [base_log] the decomposition base
    stored in the GGSW ciphertext. *)
Definition external_product (N : nat) (base_log : Z) (out : list (list Z)) (ggsw : list (list (list (bk_dom B)))) (glwe : list (list Z))
    : outcome (list (list Z)) :=
  let! _ := ck_dim_eq p (length glwe) (length out) in
  let! d := dec_new p w base_log (length ggsw) in
  let! rounded := omap (closest_representable_ p w d) (concat glwe) in
  let! it := lending_new p w rounded base_log (length ggsw) in
  let! acc := ep_levels p lending_next2 N update_with_fmadd (bk_digit B) (rev ggsw) it None in
  Ret (match acc with
       | None => out
       | Some a => zip_update (bk_add_back B) out a
       end).

(** fft_engine/glwe_ciphertext_ggsw_ciphertext_discarding_external_product.rs:102-131, 220-251 *)
Definition discard_external_product (N : nat) (base_log : Z) (out : list (list Z)) (ggsw : list (list (list (bk_dom B)))) (glwe : list (list Z)) :=
  external_product N base_log (map (map (fun _ => 0)) out) ggsw glwe.

(** ggsw.rs:693-708 cmux: both ciphertexts are modified; the result is the first component. *)
Definition cmux (N : nat) (base_log : Z) (ct0 ct1 : list (list Z)) (ggsw : list (list (list (bk_dom B)))) : outcome (list (list Z) * list (list Z)) :=
  let ct1 := zip_update (zip_update (wsub w)) ct1 ct0 in
  let! ct0 := external_product N base_log ct0 ggsw ct1 in
  Ret (ct0, ct1).
End ExtProd.
