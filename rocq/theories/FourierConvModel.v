(** * Model of the conversions between words and Fourier coefficients
    Models /repo/concrete-core/src/backends/fft/private/math/fft/mod.rs and x86.rs.
    A double is the rational it denotes ([FloatModel]); where the code looks at its bits, [f64_bits] gives
    them.  A vector register is the list of its lanes, lane 0 first; integer lanes are words of 64 (or 32)
    bits.  A slice of [c64] seen through a pointer to [f64] is the flat list re0, im0, re1, im1, ...
    Reads and writes outside a slice (undefined behaviour in the release profile) are not modelled: the
    theorems assume slices of equal lengths. *)
From Coq Require Import QArith Qabs Qround.
From Verif Require Import Base Word FloatModel FourierConvSpec SeededModel.
Open Scope Q_scope.
Open Scope Z_scope.

(** ** Instructions (Intel intrinsics guide), one lane *)
Definition srl (count x : Z) : Z := if count <? 64 then x / 2 ^ count else 0.
Definition sll (count x : Z) : Z := if count <? 64 then (x * 2 ^ count) mod 2 ^ 64 else 0.
Definition byte_of (x : Z) (i : nat) : Z := (x / 256 ^ Z.of_nat i) mod 256.
(** _mm256_blendv_epi8: each byte from [b] if the top bit of the mask's byte is set, from [a] otherwise. *)
Definition blendv8 (a b mask : Z) : Z :=
  fold_right Z.add 0 (map (fun i => (if 128 <=? byte_of mask i then byte_of b i else byte_of a i) * 256 ^ Z.of_nat i) (seq 0 8)).
(** _mm256_cmpeq_epi64 *)
Definition cmpeq (a b : Z) : Z := if a =? b then 2 ^ 64 - 1 else 0.
(** _mm256_srai_epi32: both halves of a 64-bit lane. *)
Definition srai32 (count x : Z) : Z :=
  let half v := (sgn 32 v / 2 ^ count) mod 2 ^ 32 in
  half (x mod 2 ^ 32) + 2 ^ 32 * half (x / 2 ^ 32).
(** _mm256_blend_epi16: bit [k] of the immediate chooses word [k] of each 128-bit half; [lane] is the
    position of the 64-bit lane. *)
Definition blend16 (imm : Z) (lane : nat) (a b : Z) : Z :=
  let word x k := (x / 2 ^ (16 * Z.of_nat k)) mod 2 ^ 16 in
  let bit k := Z.testbit imm (Z.of_nat (k + if Nat.odd lane then 4 else 0)) in
  fold_right Z.add 0 (map (fun k => (if bit k then word b k else word a k) * 2 ^ (16 * Z.of_nat k)) (seq 0 4)).
(** _mm256_fmadd_pd, _mm256_fmsub_pd, _mm256_fnmadd_pd: one rounding *)
Definition fmadd (a b c : Q) : Q := rnd (a * b + c).
Definition fmsub (a b c : Q) : Q := rnd (a * b - c).
Definition fnmadd (a b c : Q) : Q := rnd (- (a * b) + c).
(** _mm256_round_pd, _mm512_roundscale_pd to nearest: ties to even *)
Definition fround_even (x : Q) : Q := inject_Z (round_even x).
(** _mm256_cvtpd_epi32: rounds to nearest even; 0x80000000 if the result does not fit. *)
Definition cvtpd_epi32 (x : Q) : Z :=
  let r := round_even x in
  if (- 2 ^ 31 <=? r) && (r <? 2 ^ 31) then r mod 2 ^ 32 else 2 ^ 31.
(** _mm256_castpd_si256: the bits of a double (of a normal one or zero; the sign of zero is +). *)
Definition f64_bits (x : Q) : Z :=
  if Qnum x =? 0 then 0
  else
    let e := ulp_exp x in
    (if Qle_bool 0 x then 0 else 2 ^ 63) + (e + 1075) * 2 ^ 52 + (Qfloor (Qabs x / 2 ^ e)%Q - 2 ^ 52).

(** ** Conversions of lanes *)
(** x86.rs:28-80 mm256_cvtpd_epi64, on the bits of a lane *)
Definition mm256_cvtpd_epi64_bits (bits : Z) : Z :=
  let mantissa := Z.lor (Z.land bits 4503599627370495) 4503599627370496 in
  let biased_exp := Z.land (srl 52 bits) 2047 in
  let sign_is_negative_mask := wsub 64 0 (srl 63 bits) in
  let mantissa_lshift := sll 11 mantissa in
  let mantissa_shift := srl (wsub 64 1086 biased_exp) mantissa_lshift in
  let value_if_positive := mantissa_shift in
  let value_if_negative := wsub 64 0 value_if_positive in
  let value_if_non_subnormal := blendv8 value_if_positive value_if_negative sign_is_negative_mask in
  let is_subnormal := cmpeq biased_exp 0 in
  blendv8 value_if_non_subnormal 0 is_subnormal.
Definition mm256_cvtpd_epi64 (x : Q) : Z := mm256_cvtpd_epi64_bits (f64_bits x).

(** x86.rs:90-142 mm512_cvtpd_epi64: with mask registers; [_mm512_mask_blend_epi64 k a b] takes [b] where
    [k] is set. *)
Definition mm512_cvtpd_epi64_bits (bits : Z) : Z :=
  let mask_blend (k : bool) (a b : Z) := if k then b else a in
  let mantissa := Z.lor (Z.land bits 4503599627370495) 4503599627370496 in
  let biased_exp := Z.land (srl 52 bits) 2047 in
  let sign_is_negative_mask := negb (srl 63 bits =? 1) in
  let mantissa_lshift := sll 11 mantissa in
  let mantissa_shift := srl (wsub 64 1086 biased_exp) mantissa_lshift in
  let value_if_positive := mantissa_shift in
  let value_if_negative := wsub 64 0 value_if_positive in
  let value_if_non_subnormal := mask_blend sign_is_negative_mask value_if_positive value_if_negative in
  let is_subnormal := biased_exp =? 0 in
  mask_blend is_subnormal value_if_non_subnormal 0.
Definition mm512_cvtpd_epi64 (x : Q) : Z := mm512_cvtpd_epi64_bits (f64_bits x).

(** x86.rs:151-167 mm256_cvtepi64_pd, on the lane at position [lane] *)
Definition mm256_cvtepi64_pd (lane : nat) (x : Z) : Q :=
  let x_hi := srai32 16 x in
  let x_hi := blend16 51 lane x_hi 0 in
  let x_hi := wadd 64 x_hi (f64_bits (inject_Z 442721857769029238784)) in
  let x_lo := blend16 136 lane x (f64_bits (inject_Z 4503599627370496)) in
  let f := fsub (f64_value x_hi) (inject_Z 442726361368656609280) in
  fadd f (f64_value x_lo).

(** ** Vectors *)
Definition set1 {A} (lanes : nat) (x : A) : list A := repeat x lanes.
Definition map3 {A B C D} (f : A -> B -> C -> D) (a : list A) (b : list B) (c : list C) : list D :=
  map2 (fun g z => g z) (map2 f a b) c.
(** _mm256_unpacklo_pd, _mm256_unpackhi_pd, _mm256_permute2f128_pd *)
Definition unpacklo (a b : list Q) : list Q :=
  match a, b with [a0; _; a2; _], [b0; _; b2; _] => [a0; b0; a2; b2] | _, _ => [] end.
Definition unpackhi (a b : list Q) : list Q :=
  match a, b with [_; a1; _; a3], [_; b1; _; b3] => [a1; b1; a3; b3] | _, _ => [] end.
Definition permute2f128 (imm : Z) (a b : list Q) : list Q :=
  let pick c := match c with 0 => firstn 2 a | 1 => skipn 2 a | 2 => firstn 2 b | _ => skipn 2 b end in
  let control c := if Z.testbit c 3 then [0%Q; 0%Q] else pick (c mod 4) in
  control (imm mod 16) ++ control (imm / 16).
(** _mm_unpacklo_pd, _mm_unpackhi_pd, _mm256_insertf128_pd::<1> *)
Definition unpacklo2 (a b : list Q) : list Q := match a, b with [a0; _], [b0; _] => [a0; b0] | _, _ => [] end.
Definition unpackhi2 (a b : list Q) : list Q := match a, b with [_; a1], [_; b1] => [a1; b1] | _, _ => [] end.
Definition insertf128_1 (a b : list Q) : list Q := firstn 2 a ++ b.
(** _mm512_permutex2var_pd *)
Definition permutex2var (a : list Q) (idx : list nat) (b : list Q) : list Q :=
  map (fun k => nth (k mod 8) (if Nat.leb 8 (k mod 16) then b else a) 0%Q) idx.

(** Loads and stores through pointers *)
Definition load_at {A} (pos len : nat) (l : list A) : list A := firstn len (skipn pos l).
Definition store_at {A} (pos : nat) (v l : list A) : list A := firstn pos l ++ v ++ skipn (pos + length v) l.
Definition flat (l : list (Q * Q)) : list Q := flat_map (fun z => [fst z; snd z]) l.

(** ** Forward conversion of integers *)
Record twisties := Twisties { tw_re : list Q; tw_im : list Q }.

(** Products of [c64] (crate num-complex): four roundings per part. *)
Definition cmul (a b : Q * Q) : Q * Q :=
  (fsub (fmul (fst a) (fst b)) (fmul (snd a) (snd b)), fadd (fmul (fst a) (snd b)) (fmul (snd a) (fst b))).
Definition cscale (a : Q * Q) (t : Q) : Q * Q := (fmul (fst a) t, fmul (snd a) t).

Fixpoint zip4 {A B C D} (a : list A) (b : list B) (c : list C) (d : list D) : list (A * B * C * D) :=
  match a, b, c, d with
  | x :: a, y :: b, z :: c, t :: d => (x, y, z, t) :: zip4 a b c d
  | _, _, _, _ => []
  end.

(** [izip!(out, ...)]: the first [length new] elements of [out] are replaced, at most all of them. *)
Definition overwrite {A} (out new : list A) : list A := firstn (length out) new ++ skipn (length new) out.

(** mod.rs:186-209 convert_forward_torus *)
Definition convert_forward_torus (w : Z) (out : list (Q * Q)) (in_re in_im : list Z) (tw : twisties) : list (Q * Q) :=
  let normalization := fpow2 (- w) in
  overwrite out (map (fun '(re, im, w_re, w_im) =>
      cmul (fmul (of_int (sgn w re)) normalization, fmul (of_int (sgn w im)) normalization) (w_re, w_im))
    (zip4 in_re in_im (tw_re tw) (tw_im tw))).

(** mod.rs:211-232 convert_forward_integer_scalar *)
Definition convert_forward_integer_scalar (w : Z) (out : list (Q * Q)) (in_re in_im : list Z) (tw : twisties) : list (Q * Q) :=
  overwrite out (map (fun '(re, im, w_re, w_im) => cmul (of_int (sgn w re), of_int (sgn w im)) (w_re, w_im))
    (zip4 in_re in_im (tw_re tw) (tw_im tw))).

(** The lengths checked by the [debug_assert]s at the top of the x86 functions (x86.rs:204-210 and others). *)
Definition x86_lengths {A B C D} (p : profile) (lanes n : nat) (a : list A) (b : list B) (c : list C) (d : list D) : outcome unit :=
  let! _ := debug_assert p (Nat.eqb (n mod lanes) 0) in
  let! _ := debug_assert p (Nat.eqb n (length a)) in
  let! _ := debug_assert p (Nat.eqb n (length b)) in
  let! _ := debug_assert p (Nat.eqb n (length c)) in
  debug_assert p (Nat.eqb n (length d)).

(** Conversions of a vector of words: _mm256_cvtepi32_pd, _mm512_cvtepi32_pd (exact; x86.rs:221, 357),
    mm256_cvtepi64_pd (x86.rs:151-167), mm512_cvtepi64_pd ([as f64] on every lane, x86.rs:177-191). *)
Definition cvtepi32_pd (v : list Z) : list Q := map (fun x => inject_Z (sgn 32 x)) v.
Definition vcvtepi64_pd_256 (v : list Z) : list Q := map2 mm256_cvtepi64_pd (seq 0 4) v.
Definition vcvtepi64_pd_512 (v : list Z) : list Q := map (fun x => of_int (sgn 64 x)) v.

(** x86.rs:354-393 and 421-460: one block of four coefficients *)
Definition fwd_block_256 (cvt : list Z -> list Q) (in_re in_im : list Z) (w_re w_im : list Q) : list Q * list Q :=
  let in_re := cvt in_re in
  let in_im := cvt in_im in
  let out_re := map3 fmsub in_re w_re (map2 fmul in_im w_im) in
  let out_im := map3 fmadd in_re w_im (map2 fmul in_im w_re) in
  let lo := unpacklo out_re out_im in
  let hi := unpackhi out_re out_im in
  (permute2f128 32 lo hi, permute2f128 49 lo hi).
(** x86.rs:218-258 and 287-327: one block of eight coefficients *)
Definition fwd_block_512 (cvt : list Z -> list Q) (in_re in_im : list Z) (w_re w_im : list Q) : list Q * list Q :=
  let in_re := cvt in_re in
  let in_im := cvt in_im in
  let out_re := map3 fmsub in_re w_re (map2 fmul in_im w_im) in
  let out_im := map3 fmadd in_re w_im (map2 fmul in_im w_re) in
  (permutex2var out_re [0; 8; 1; 9; 2; 10; 3; 11]%nat out_im, permutex2var out_re [4; 12; 5; 13; 6; 14; 7; 15]%nat out_im).

(** The loops: block [i] reads coefficients [lanes*i ..] and writes doubles [2*lanes*i ..] of the output. *)
Definition fwd_loop (lanes : nat) (block : list Z -> list Z -> list Q -> list Q -> list Q * list Q) (n : nat)
    (out : list Q) (in_re in_im : list Z) (tw : twisties) : list Q :=
  fold_left (fun out i =>
      let i := (i * lanes)%nat in
      let '(out0, out1) := block (load_at i lanes in_re) (load_at i lanes in_im) (load_at i lanes (tw_re tw)) (load_at i lanes (tw_im tw)) in
      store_at (2 * i + lanes) out1 (store_at (2 * i) out0 out))
    (seq 0 (n / lanes)) out.

(** x86.rs:334-394 convert_forward_integer_u32_fma *)
Definition convert_forward_integer_u32_fma (p : profile) (out : list Q) (in_re in_im : list Z) (tw : twisties) : outcome (list Q) :=
  let n := Nat.div2 (length out) in
  let! _ := x86_lengths p 4 n in_re in_im (tw_re tw) (tw_im tw) in
  Ret (fwd_loop 4 (fwd_block_256 cvtepi32_pd) n out in_re in_im tw).
(** x86.rs:401-461 convert_forward_integer_u64_avx2_fma *)
Definition convert_forward_integer_u64_avx2_fma (p : profile) (out : list Q) (in_re in_im : list Z) (tw : twisties) : outcome (list Q) :=
  let n := Nat.div2 (length out) in
  let! _ := x86_lengths p 4 n in_re in_im (tw_re tw) (tw_im tw) in
  Ret (fwd_loop 4 (fwd_block_256 vcvtepi64_pd_256) n out in_re in_im tw).
(** x86.rs:198-259 convert_forward_integer_u32_avx512f *)
Definition convert_forward_integer_u32_avx512f (p : profile) (out : list Q) (in_re in_im : list Z) (tw : twisties) : outcome (list Q) :=
  let n := Nat.div2 (length out) in
  let! _ := x86_lengths p 8 n in_re in_im (tw_re tw) (tw_im tw) in
  Ret (fwd_loop 8 (fwd_block_512 cvtepi32_pd) n out in_re in_im tw).
(** x86.rs:267-328 convert_forward_integer_u64_avx512f_avx512dq *)
Definition convert_forward_integer_u64_avx512f_avx512dq (p : profile) (out : list Q) (in_re in_im : list Z) (tw : twisties) : outcome (list Q) :=
  let n := Nat.div2 (length out) in
  let! _ := x86_lengths p 8 n in_re in_im (tw_re tw) (tw_im tw) in
  Ret (fwd_loop 8 (fwd_block_512 vcvtepi64_pd_512) n out in_re in_im tw).

(** ** Backward conversion *)
(** mod.rs:266-271: the product of a coefficient with the conjugate of its twisting factor, normalised *)
Definition untwist (normalization : Q) (inp : Q * Q) (w_re w_im : Q) : Q * Q :=
  cmul inp (cscale (w_re, - w_im)%Q normalization).

(** mod.rs:258-277 convert_backward_torus *)
Definition convert_backward_torus (w : Z) (out_re out_im : list Z) (inp : list (Q * Q)) (tw : twisties) : list Z * list Z :=
  let normalization := fdiv 1 (of_int (Z.of_nat (length inp))) in
  let tmp := map (fun '(z, w_re, w_im, _) => untwist normalization z w_re w_im) (zip4 inp (tw_re tw) (tw_im tw) inp) in
  (overwrite out_re (map (fun z => from_torus w (fst z)) tmp), overwrite out_im (map (fun z => from_torus w (snd z)) tmp)).

(** mod.rs:284-306 convert_add_backward_torus_scalar *)
Definition convert_add_backward_torus_scalar (w : Z) (out_re out_im : list Z) (inp : list (Q * Q)) (tw : twisties) : list Z * list Z :=
  let normalization := fdiv 1 (of_int (Z.of_nat (length inp))) in
  let tmp := map (fun '(z, w_re, w_im, _) => untwist normalization z w_re w_im) (zip4 inp (tw_re tw) (tw_im tw) inp) in
  (zip_update (fun o z => wadd w o (from_torus w (fst z))) out_re tmp,
   zip_update (fun o z => wadd w o (from_torus w (snd z))) out_im tmp).

(** x86.rs:682-687: the centred fractional part, scaled and rounded *)
Definition scaled_fract (scaling m : Q) : Q := fround_even (fmul scaling (fsub m (fround_even m))).

(** x86.rs:641-690 convert_torus_prologue_fma; [inp] are the four coefficients from position [i] *)
Definition convert_torus_prologue_fma (normalization : list Q) (w_re w_im : list Q) (inp : list (Q * Q)) (scaling : Q) : list Q * list Q :=
  let w_re := map2 fmul normalization w_re in
  let w_im := map2 fmul normalization w_im in
  let lanes k := match nth_error inp k with Some z => [fst z; snd z] | None => [] end in
  let inp_re01 := unpacklo2 (lanes 0%nat) (lanes 1%nat) in
  let inp_im01 := unpackhi2 (lanes 0%nat) (lanes 1%nat) in
  let inp_re23 := unpacklo2 (lanes 2%nat) (lanes 3%nat) in
  let inp_im23 := unpackhi2 (lanes 2%nat) (lanes 3%nat) in
  let inp_re := insertf128_1 inp_re01 inp_re23 in
  let inp_im := insertf128_1 inp_im01 inp_im23 in
  let mul_re := map3 fmadd inp_re w_re (map2 fmul inp_im w_im) in
  let mul_im := map3 fnmadd inp_re w_im (map2 fmul inp_im w_re) in
  (map (scaled_fract scaling) mul_re, map (scaled_fract scaling) mul_im).
(** x86.rs:475-520 convert_torus_prologue_avx512f; [inp] are the eight coefficients from position [i] *)
Definition convert_torus_prologue_avx512f (normalization : list Q) (w_re w_im : list Q) (inp : list (Q * Q)) (scaling : Q) : list Q * list Q :=
  let w_re := map2 fmul normalization w_re in
  let w_im := map2 fmul normalization w_im in
  let inp0 := flat (firstn 4 inp) in
  let inp1 := flat (skipn 4 inp) in
  let inp_re := permutex2var inp0 [0; 2; 4; 6; 8; 10; 12; 14]%nat inp1 in
  let inp_im := permutex2var inp0 [1; 3; 5; 7; 9; 11; 13; 15]%nat inp1 in
  let mul_re := map3 fmadd inp_re w_re (map2 fmul inp_im w_im) in
  let mul_im := map3 fnmadd inp_re w_im (map2 fmul inp_im w_re) in
  (map (scaled_fract scaling) mul_re, map (scaled_fract scaling) mul_im).

(** The loops of x86.rs:552-573, 606-627, 721-742, 775-796: convert, add to the words of the output, store. *)
Definition bwd_loop (w : Z) (lanes : nat)
    (prologue : list Q -> list Q -> list Q -> list (Q * Q) -> Q -> list Q * list Q) (cvt : Q -> Z) (n : nat)
    (out_re out_im : list Z) (inp : list (Q * Q)) (tw : twisties) : list Z * list Z :=
  let normalization := set1 lanes (fdiv 1 (of_int (Z.of_nat n))) in
  let scaling := fpow2 w in
  fold_left (fun '(out_re, out_im) i =>
      let i := (i * lanes)%nat in
      let '(fract_re, fract_im) := prologue normalization (load_at i lanes (tw_re tw)) (load_at i lanes (tw_im tw)) (load_at i lanes inp) scaling in
      (store_at i (map2 (wadd w) (map cvt fract_re) (load_at i lanes out_re)) out_re,
       store_at i (map2 (wadd w) (map cvt fract_im) (load_at i lanes out_im)) out_im))
    (seq 0 (n / lanes)) (out_re, out_im).

(** x86.rs:699-743 convert_add_backward_torus_u32_fma *)
Definition convert_add_backward_torus_u32_fma (p : profile) (out_re out_im : list Z) (inp : list (Q * Q)) (tw : twisties) : outcome (list Z * list Z) :=
  let n := length out_re in
  let! _ := x86_lengths p 4 n out_im inp (tw_re tw) (tw_im tw) in
  Ret (bwd_loop 32 4 convert_torus_prologue_fma cvtpd_epi32 n out_re out_im inp tw).
(** x86.rs:753-797 convert_add_backward_torus_u64_fma *)
Definition convert_add_backward_torus_u64_fma (p : profile) (out_re out_im : list Z) (inp : list (Q * Q)) (tw : twisties) : outcome (list Z * list Z) :=
  let n := length out_re in
  let! _ := x86_lengths p 4 n out_im inp (tw_re tw) (tw_im tw) in
  Ret (bwd_loop 64 4 convert_torus_prologue_fma mm256_cvtpd_epi64 n out_re out_im inp tw).
(** x86.rs:530-574 convert_add_backward_torus_u32_avx512f *)
Definition convert_add_backward_torus_u32_avx512f (p : profile) (out_re out_im : list Z) (inp : list (Q * Q)) (tw : twisties) : outcome (list Z * list Z) :=
  let n := length out_re in
  let! _ := x86_lengths p 8 n out_im inp (tw_re tw) (tw_im tw) in
  Ret (bwd_loop 32 8 convert_torus_prologue_avx512f cvtpd_epi32 n out_re out_im inp tw).
(** x86.rs:584-628 convert_add_backward_torus_u64_avx512f *)
Definition convert_add_backward_torus_u64_avx512f (p : profile) (out_re out_im : list Z) (inp : list (Q * Q)) (tw : twisties) : outcome (list Z * list Z) :=
  let n := length out_re in
  let! _ := x86_lengths p 8 n out_im inp (tw_re tw) (tw_im tw) in
  Ret (bwd_loop 64 8 convert_torus_prologue_avx512f mm512_cvtpd_epi64 n out_re out_im inp tw).

(** ** Dispatch: what the processor and the build offer *)
Record features := Features { nightly_avx512 : bool; has_avx512f : bool; has_avx512dq : bool; has_avx2 : bool; has_fma : bool }.

Fixpoint pair_up (l : list Q) : list (Q * Q) :=
  match l with a :: b :: l => (a, b) :: pair_up l | _ => [] end.
Definition via_flat (f : list Q -> outcome (list Q)) (out : list (Q * Q)) : outcome (list (Q * Q)) :=
  let! r := f (flat out) in Ret (pair_up r).

(** x86.rs:799-826 convert_forward_integer_u32, 828-855 convert_forward_integer_u64;
    mod.rs:235-255 convert_forward_integer ([w] = 32 or 64, otherwise [unreachable!]) on x86 *)
Definition convert_forward_integer (p : profile) (f : features) (w : Z) (out : list (Q * Q)) (in_re in_im : list Z) (tw : twisties) : outcome (list (Q * Q)) :=
  if w =? 32 then
    if nightly_avx512 f && has_avx512f f then via_flat (fun o => convert_forward_integer_u32_avx512f p o in_re in_im tw) out
    else if has_fma f then via_flat (fun o => convert_forward_integer_u32_fma p o in_re in_im tw) out
    else Ret (convert_forward_integer_scalar 32 out in_re in_im tw)
  else if w =? 64 then
    if nightly_avx512 f && (has_avx512f f && has_avx512dq f) then via_flat (fun o => convert_forward_integer_u64_avx512f_avx512dq p o in_re in_im tw) out
    else if has_avx2 f && has_fma f then via_flat (fun o => convert_forward_integer_u64_avx2_fma p o in_re in_im tw) out
    else Ret (convert_forward_integer_scalar 64 out in_re in_im tw)
  else Panic.

(** x86.rs:867-899 and 911-943; mod.rs:317-339 convert_add_backward_torus on x86 *)
Definition convert_add_backward_torus (p : profile) (f : features) (w : Z) (out_re out_im : list Z) (inp : list (Q * Q)) (tw : twisties) : outcome (list Z * list Z) :=
  if w =? 32 then
    if nightly_avx512 f && has_avx512f f then convert_add_backward_torus_u32_avx512f p out_re out_im inp tw
    else if has_fma f then convert_add_backward_torus_u32_fma p out_re out_im inp tw
    else Ret (convert_add_backward_torus_scalar 32 out_re out_im inp tw)
  else if w =? 64 then
    if nightly_avx512 f && has_avx512f f then convert_add_backward_torus_u64_avx512f p out_re out_im inp tw
    else if has_avx2 f && has_fma f then convert_add_backward_torus_u64_fma p out_re out_im inp tw
    else Ret (convert_add_backward_torus_scalar 64 out_re out_im inp tw)
  else Panic.
