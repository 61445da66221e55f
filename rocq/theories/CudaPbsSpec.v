(** * The arithmetic of the GPU bootstrap, as a backend of the bootstrap of the CPU *)
From Verif Require Import Base Word ExtProdModel CudaFftSpec CudaPbsModel.
Local Open Scope nat_scope.

(** The ciphertext that is bootstrapped: every word goes through a double (only words above 2^53 change) *)
Definition as_double (w x : Z) : Z := (to_double x mod 2 ^ w)%Z.

(** The polynomials are functions from the degree to a number.  [frac] converts the signed words of the key, [of_int] the signed digits;
    products are exact; [torus1] converts the coefficients below degree H back to words, [torus2] the others. *)
Definition gpu_backend (w : Z) {R} (rO : R) (radd rmul : R -> R -> R) (ropp : R -> R) (H : nat) (of_int frac : Z -> R) (torus1 torus2 : R -> Z) : backend :=
  {| bk_dom := nat -> R;
     bk_key := fun a i => frac (sgn w (nth i a 0%Z));
     bk_digit := fun a i => of_int (sgn w (nth i a 0%Z));
     bk_mul := fun g d => nega_coeff rO radd rmul ropp (2 * H) d g;
     bk_mac := fun o g d i => radd (o i) (nega_coeff rO radd rmul ropp (2 * H) d g i);
     bk_add_back := fun out p => map (fun i => wadd w (nth i out 0%Z) ((if i <? H then torus1 else torus2) (p i))) (seq 0 (2 * H)) |}.
