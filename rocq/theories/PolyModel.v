(** * Model of polynomial arithmetic
    /repo/concrete-core/src/commons/math/polynomial/{polynomial,list,monomial}.rs.
    A polynomial is the list of its coefficients (words of [w] bits), constant term first. *)
From Verif Require Import Base Word.

Section Poly.
Context (p : profile) (w : Z).

(** [*tensor.get_element_mut(n) = f(..)]: panics when the index is out of range. *)
Fixpoint upd (l : list Z) (n : nat) (f : Z -> Z) : outcome (list Z) :=
  match l, n with
  | [], _ => Panic
  | a :: l', O => Ret (f a :: l')
  | a :: l', S n' => let! l'' := upd l' n' f in Ret (a :: l'')
  end.

(** The double loop shared by the three products: polynomial.rs:304-319, 548-567, 601-622.
    [term] computes the product of two coefficients, [inside] updates the target when the degree
    is below N, [outside] when it wraps. *)
Fixpoint row_loop (term : Z -> Z -> outcome Z) (inside outside : Z -> Z -> Z)
    (degree i : nat) (a : Z) (acc : list Z) (j : nat) (rhs : list Z) : outcome (list Z) :=
  match rhs with
  | [] => Ret acc
  | b :: rhs' =>
      let target := (i + j)%nat in
      let! t := term a b in
      let! acc :=
        if Nat.leb target degree then upd acc target (fun e => inside e t)
        else upd acc (Nat.modulo target (degree + 1)) (fun e => outside e t) in
      row_loop term inside outside degree i a acc (S j) rhs'
  end.

Fixpoint mul_loop (term : Z -> Z -> outcome Z) (inside outside : Z -> Z -> Z)
    (degree : nat) (acc : list Z) (i : nat) (lhs rhs : list Z) : outcome (list Z) :=
  match lhs with
  | [] => Ret acc
  | a :: lhs' =>
      let! acc := row_loop term inside outside degree i a acc 0 rhs in
      mul_loop term inside outside degree acc (S i) lhs' rhs
  end.

(** polynomial.rs:291-320 fill_with_wrapping_mul: [self] is overwritten.  [degree] is computed
    with a plain subtraction; a polynomial of size 0 is outside the model (Panic). *)
Definition fill_with_wrapping_mul_ (self lhs rhs : list Z) : outcome (list Z) :=
  let! _ := ck_dim_eq p (length self) (length lhs) in
  let! _ := ck_dim_eq p (length self) (length rhs) in
  match length lhs with
  | O => Panic
  | S degree =>
      mul_loop (fun a b => Ret (wmul w a b)) (wadd w) (wsub w) degree (map (fun _ => 0) self) 0 lhs rhs
  end.

(** polynomial.rs:532-568 update_with_wrapping_add_mul: the product of two coefficients is a
    plain [*]. *)
Definition update_with_wrapping_add_mul_ (self poly bin : list Z) : outcome (list Z) :=
  let! _ := ck_dim_eq p (length self) (length poly) in
  let! _ := ck_dim_eq p (length self) (length bin) in
  match length poly with
  | O => Panic
  | S degree => mul_loop (fun a b => plain p w (a * b)) (wadd w) (wsub w) degree self 0 poly bin
  end.

(** polynomial.rs:585-623 update_with_wrapping_sub_mul *)
Definition update_with_wrapping_sub_mul_ (self poly bin : list Z) : outcome (list Z) :=
  let! _ := ck_dim_eq p (length self) (length poly) in
  let! _ := ck_dim_eq p (length self) (length bin) in
  match length poly with
  | O => Panic
  | S degree => mul_loop (fun a b => plain p w (a * b)) (wsub w) (wadd w) degree self 0 poly bin
  end.

(** polynomial.rs:451-466 update_with_wrapping_add_multisum (lists are zipped). *)
Fixpoint update_with_wrapping_add_multisum_ (self : list Z) (coefs bins : list (list Z)) : outcome (list Z) :=
  match coefs, bins with
  | c :: coefs', b :: bins' =>
      let! self := update_with_wrapping_add_mul_ self c b in
      update_with_wrapping_add_multisum_ self coefs' bins'
  | _, _ => Ret self
  end.

(** polynomial.rs:500-515 update_with_wrapping_sub_multisum *)
Fixpoint update_with_wrapping_sub_multisum_ (self : list Z) (coefs bins : list (list Z)) : outcome (list Z) :=
  match coefs, bins with
  | c :: coefs', b :: bins' =>
      let! self := update_with_wrapping_sub_mul_ self c b in
      update_with_wrapping_sub_multisum_ self coefs' bins'
  | _, _ => Ret self
  end.

(** polynomial.rs:638-650 and 674-686 update_with_wrapping_{add,sub} *)
Definition update_with_wrapping_add_ (self other : list Z) : outcome (list Z) :=
  let! _ := ck_dim_eq p (length self) (length other) in
  Ret (zip_update (wadd w) self other).
Definition update_with_wrapping_sub_ (self other : list Z) : outcome (list Z) :=
  let! _ := ck_dim_eq p (length self) (length other) in
  Ret (zip_update (wsub w) self other).

(** ** Monomials *)

(** [slice::rotate_right(d)] and [rotate_left(d)] of the standard library, for d <= len. *)
Definition rotate_right {A} (l : list A) (d : nat) : list A :=
  skipn (length l - d) l ++ firstn (length l - d) l.
Definition rotate_left {A} (l : list A) (d : nat) : list A := skipn d l ++ firstn d l.

(** [iter_mut().take(d).for_each(neg)] and [iter_mut().rev().take(d).for_each(neg)]. *)
Definition neg_first (l : list Z) (d : nat) : list Z := map (wneg w) (firstn d l) ++ skipn d l.
Definition neg_last (l : list Z) (d : nat) : list Z :=
  firstn (length l - d) l ++ map (wneg w) (skipn (length l - d) l).

(** polynomial.rs:701-722 update_with_wrapping_monic_monomial_mul (a polynomial of size 0 divides
    by zero: outside the model). *)
Definition monic_monomial_mul (self : list Z) (d : nat) : list Z :=
  let full_cycles := Nat.div d (length self) in
  let self := if Nat.eqb (Nat.modulo full_cycles 2) 0 then self else map (wneg w) self in
  let rem := Nat.modulo d (length self) in
  neg_first (rotate_right self rem) rem.

(** polynomial.rs:737-759 update_with_wrapping_unit_monomial_div *)
Definition unit_monomial_div (self : list Z) (d : nat) : list Z :=
  let full_cycles := Nat.div d (length self) in
  let self := if Nat.eqb (Nat.modulo full_cycles 2) 0 then self else map (wneg w) self in
  let rem := Nat.modulo d (length self) in
  neg_last (rotate_left self rem) rem.

(** list.rs:326-334 and 351-359: the same on every polynomial of a list. *)
Definition list_monic_monomial_mul (l : list (list Z)) (d : nat) : list (list Z) :=
  map (fun poly => monic_monomial_mul poly d) l.
Definition list_monic_monomial_div (l : list (list Z)) (d : nat) : list (list Z) :=
  map (fun poly => unit_monomial_div poly d) l.

(** ** Karatsuba *)

(** [tensor.get_sub(a..b)] and an update of [tensor.get_sub_mut(a..b)] by [f]; both panic when the
    range is not inside the tensor. *)
Definition get_sub (l : list Z) (a b : nat) : outcome (list Z) :=
  if Nat.leb a b && Nat.leb b (length l) then Ret (firstn (b - a) (skipn a l)) else Panic.
Definition upd_sub (l : list Z) (a b : nat) (f : list Z -> outcome (list Z)) : outcome (list Z) :=
  let! s := get_sub l a b in
  let! s' := f s in
  Ret (firstn a l ++ s' ++ skipn b l).

(** math/tensor/tensor.rs fill_with_wrapping_{add,sub}: [self] only provides the length. *)
Definition fill_with_wrapping_add_ (self a b : list Z) : outcome (list Z) :=
  let! _ := ck_dim_eq p (length self) (length a) in
  let! _ := ck_dim_eq p (length self) (length b) in
  Ret (zip_update (fun _ ab => ab) self (map2 (wadd w) a b)).
Definition fill_with_wrapping_sub_ (self a b : list Z) : outcome (list Z) :=
  let! _ := ck_dim_eq p (length self) (length a) in
  let! _ := ck_dim_eq p (length self) (length b) in
  Ret (zip_update (fun _ ab => ab) self (map2 (wsub w) a b)).

(** polynomial.rs:837-843: the schoolbook loop of the recursion's base case. *)
Fixpoint full_row (acc : list Z) (i : nat) (a : Z) (j : nat) (q : list Z) : outcome (list Z) :=
  match q with
  | [] => Ret acc
  | b :: q' =>
      let! acc := upd acc (i + j) (fun e => wadd w e (wmul w a b)) in
      full_row acc i a (S j) q'
  end.
Fixpoint full_loop (acc : list Z) (i : nat) (l q : list Z) : outcome (list Z) :=
  match l with
  | [] => Ret acc
  | a :: l' => let! acc := full_row acc i a 0 q in full_loop acc (S i) l' q
  end.

Definition KARATSUBA_STOP : nat := 32.

(** polynomial.rs:828-892 induction_karatsuba.  [fuel] bounds the recursion depth; running out of
    it stands for a stack overflow. *)
Fixpoint induction_karatsuba (fuel : nat) (res l q : list Z) : outcome (list Z) :=
  if Nat.eqb (length l) KARATSUBA_STOP then full_loop res 0 l q
  else
    match fuel with
    | O => Panic
    | S fuel =>
        let n := length res in
        let half := Nat.div n 2 in
        let quarter := Nat.div n 4 in
        let zeros := repeat 0 half in
        let! l0 := get_sub l 0 quarter in
        let! q0 := get_sub q 0 quarter in
        let! l1 := get_sub l quarter half in
        let! q1 := get_sub q quarter half in
        let! a0 := induction_karatsuba fuel zeros l0 q0 in
        let! a1 := induction_karatsuba fuel zeros l1 q1 in
        let! input_l := fill_with_wrapping_add_ (repeat 0 quarter) l0 l1 in
        let! input_q := fill_with_wrapping_add_ (repeat 0 quarter) q0 q1 in
        let! a2 := induction_karatsuba fuel zeros input_l input_q in
        let! res := upd_sub res quarter (Nat.div (3 * n) 4) (fun s => fill_with_wrapping_sub_ s a2 a0) in
        let! res := upd_sub res quarter (Nat.div (3 * n) 4) (fun s => update_with_wrapping_sub_ s a1) in
        let! res := upd_sub res 0 half (fun s => update_with_wrapping_add_ s a0) in
        upd_sub res half n (fun s => update_with_wrapping_add_ s a1)
    end.

(** polynomial.rs:339-418 fill_with_karatsuba_mul.  The [debug_assert!] on f64 logarithms checks
    that the size is a power of two; it is modelled by [is_pow2]. *)
Definition is_pow2 (n : nat) : bool := Nat.eqb n (2 ^ Nat.log2 n).

Definition fill_with_karatsuba_mul_ (fuel : nat) (self l q : list Z) : outcome (list Z) :=
  let! _ := ck_dim_eq p (length self) (length l) in
  let! _ := ck_dim_eq p (length self) (length q) in
  let! _ := match p with Debug => assert_ (is_pow2 (length l)) | Release => Ret tt end in
  let n := length self in
  let half := Nat.div n 2 in
  let zeros := repeat 0 n in
  let! l0 := get_sub l 0 half in
  let! q0 := get_sub q 0 half in
  let! a0 := induction_karatsuba fuel zeros l0 q0 in
  let! l1 := get_sub l half n in
  let! q1 := get_sub q half n in
  let! a1 := induction_karatsuba fuel zeros l1 q1 in
  let! input_l := fill_with_wrapping_add_ (repeat 0 half) l0 l1 in
  let! input_q := fill_with_wrapping_add_ (repeat 0 half) q0 q1 in
  let! a2 := induction_karatsuba fuel zeros input_l input_q in
  let! self := fill_with_wrapping_sub_ self a0 a1 in
  let! a0b := get_sub a0 0 half in let! a0t := get_sub a0 half n in
  let! a1b := get_sub a1 0 half in let! a1t := get_sub a1 half n in
  let! a2b := get_sub a2 0 half in let! a2t := get_sub a2 half n in
  let! self := upd_sub self 0 half (fun s => update_with_wrapping_sub_ s a2t) in
  let! self := upd_sub self 0 half (fun s => update_with_wrapping_add_ s a0t) in
  let! self := upd_sub self 0 half (fun s => update_with_wrapping_add_ s a1t) in
  let! self := upd_sub self half n (fun s => update_with_wrapping_add_ s a2b) in
  let! self := upd_sub self half n (fun s => update_with_wrapping_sub_ s a0b) in
  upd_sub self half n (fun s => update_with_wrapping_sub_ s a1b).

End Poly.

(** The same products when nothing is checked (release builds), as total functions: used by the
    models of the higher layers.  [PolyProofs] shows they are what the definitions above return. *)
Definition poly_add (w : Z) (a b : list Z) : list Z := map2 (wadd w) a b.
Definition poly_sub (w : Z) (a b : list Z) : list Z := map2 (wsub w) a b.
Definition get_or (o : outcome (list Z)) : list Z := match o with Ret l => l | Panic => [] end.
Definition poly_mul (w : Z) (a b : list Z) : list Z := get_or (fill_with_wrapping_mul_ Release w a a b).
Definition poly_add_mul (w : Z) (out a b : list Z) : list Z := get_or (update_with_wrapping_add_mul_ Release w out a b).
Definition poly_sub_mul (w : Z) (out a b : list Z) : list Z := get_or (update_with_wrapping_sub_mul_ Release w out a b).
Definition poly_add_multisum (w : Z) (out : list Z) (cs bs : list (list Z)) : list Z :=
  get_or (update_with_wrapping_add_multisum_ Release w out cs bs).
Definition poly_sub_multisum (w : Z) (out : list Z) (cs bs : list (list Z)) : list Z :=
  get_or (update_with_wrapping_sub_multisum_ Release w out cs bs).
