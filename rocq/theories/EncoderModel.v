(** * Model of the encoders
    /repo/concrete-core/src/commons/crypto/encoding/encoder.rs, the entities
    /repo/concrete-core/src/backends/default/implementation/entities/encoder.rs and the engines
    .../engines/default_engine/{encoder_creation,encoder_vector_creation,cleartext_encoding,cleartext_vector_encoding,
    plaintext_decoding,plaintext_vector_decoding}.rs.
    Doubles are modelled by [FloatModel]; [w] is the number of bits of the plaintext. *)
From Coq Require Import QArith Qabs Qround.
From Verif Require Import Base Word DecompModel FloatModel.
Open Scope Q_scope.
Open Scope Z_scope.

(** The errors of the encoding engines (backends/default/implementation/engines/default_engine/mod.rs:20-27 DefaultError,
    specification/engines/{cleartext_vector_encoding,plaintext_vector_decoding}.rs) and their [Result]. *)
Inductive encoder_error : Type :=
| FloatEncoderMinMaxOrder | FloatEncoderNullRadius | FloatEncoderNullPrecision | FloatEncoderMessageOutsideInterval
| EncoderCountMismatch.
Inductive eresult (A : Type) : Type := EOk (a : A) | EErr (e : encoder_error).
Arguments EOk {A} a.
Arguments EErr {A} e.
Definition erefuse {A} (bad : bool) (e : encoder_error) (rest : outcome (eresult A)) : outcome (eresult A) :=
  if bad then Ret (EErr e) else rest.
Definition erun {A} (o : outcome A) : outcome (eresult A) := let! a := o in Ret (EOk a).

Section Encoder.
Context (p : profile) (w : Z).

(** encoder.rs:118-126 FloatEncoder *)
Record float_encoder := FE { fe_o : Q; fe_delta : Q; fe_prec : Z; fe_pad : Z; fe_round : bool }.

(** [nb_bit_precision as i32] *)
Definition as_i32 (x : Z) : Z := sgn 32 (x mod 2 ^ 32).

(** entities/encoder.rs:35-54 FloatEncoderMinMaxConfig::to_commons (the same arithmetic as encoder.rs:129-146 new) *)
Definition min_max_to_commons (min max : Q) (prec pad : Z) : outcome float_encoder :=
  let! _ := assert_ (flt min max) in
  let! _ := assert_ (negb (prec =? 0)) in
  let margin := fdiv (fsub max min) (fsub (fpow2 (as_i32 prec)) 1) in
  Ret (FE min (fadd (fsub max min) margin) prec pad false).

(** entities/encoder.rs:67-80 FloatEncoderCenterRadiusConfig::to_commons *)
Definition center_radius_to_commons (center radius : Q) (prec pad : Z) : outcome float_encoder :=
  let! _ := assert_ (flt 0 radius) in
  let! _ := assert_ (negb (prec =? 0)) in
  min_max_to_commons (fsub center radius) (fadd center radius) prec pad.

(** encoder.rs:213-215 is_valid *)
Definition is_valid (e : float_encoder) : bool := negb ((fe_prec e =? 0) || Qle_bool (fe_delta e) 0).

(** encoder.rs:217-219 is_message_out_of_range *)
Definition is_message_out_of_range (e : float_encoder) (m : Q) : bool :=
  flt m (fe_o e) || flt (fadd (fe_o e) (fe_delta e)) m.

(** encoder.rs:228-253 encode *)
Definition encode (e : float_encoder) (raw : Q) : outcome Z :=
  let! _ := assert_ (negb (is_message_out_of_range e raw)) in
  let! _ := assert_ (is_valid e) in
  let res := from_torus w (fdiv (fsub raw (fe_o e)) (fe_delta e)) in
  let! res :=
    if fe_round e then
      let! d := dec_new p w (fe_prec e) 1 in
      closest_representable_ p w d res
    else Ret res in
  if 0 <? fe_pad e then shr_ p w res (fe_pad e) else Ret res.

(** encoder.rs:255-292 decode *)
Definition decode (e : float_encoder) (encoded : Z) : outcome Q :=
  let! _ := assert_ (is_valid e) in
  let! tmp :=
    if fe_round e then
      let! b := plain p usize_bits (fe_prec e + fe_pad e) in
      let! d := dec_new p w b 1 in
      closest_representable_ p w d encoded
    else Ret encoded in
  let! tmp := if 0 <? fe_pad e then shl_ p w tmp (fe_pad e) else Ret tmp in
  let! b1 := plain p usize_bits (fe_prec e + 1) in
  let! one := shl_ p w 1 b1 in
  let! ones := plain p w (one - 1) in
  let! s := plain p usize_bits (w - fe_prec e) in
  let! start := shl_ p w ones s in
  let! d := dec_new p w (fe_prec e) 1 in
  let! tmp := if tmp >? start then closest_representable_ p w d tmp else Ret tmp in
  Ret (fadd (fmul (into_torus w tmp) (fe_delta e)) (fe_o e)).

(** encoder.rs:91-115 RealEncoder: encode and decode. *)
Definition real_encode (offset delta raw : Q) : Z := from_torus w (fdiv (fsub raw offset) delta).
Definition real_decode (offset delta : Q) (encoded : Z) : Q := fadd (fmul (into_torus w encoded) delta) offset.

(** encoder_creation.rs:29-50 create_encoder_from, from the bounds *)
Definition create_min_max (min max : Q) (prec pad : Z) : outcome (eresult float_encoder) :=
  erefuse (Qle_bool max min) FloatEncoderMinMaxOrder
  (erefuse (prec =? 0) FloatEncoderNullPrecision
  (erun (min_max_to_commons min max prec pad))).

(** encoder_creation.rs:76-97 create_encoder_from, from the center and the radius *)
Definition create_center_radius (center radius : Q) (prec pad : Z) : outcome (eresult float_encoder) :=
  erefuse (Qle_bool radius 0) FloatEncoderNullRadius
  (erefuse (prec =? 0) FloatEncoderNullPrecision
  (erun (center_radius_to_commons center radius prec pad))).

(** A configuration: bounds (or center and radius), precision and padding. *)
Definition config : Type := Q * Q * Z * Z.

(** encoder_vector_creation.rs:35-62 create_encoder_vector_from, from bounds *)
Definition create_vector_min_max (cs : list config) : outcome (eresult (list float_encoder)) :=
  erefuse (existsb (fun '(min, max, _, _) => Qle_bool max min) cs) FloatEncoderMinMaxOrder
  (erefuse (existsb (fun '(_, _, prec, _) => prec =? 0) cs) FloatEncoderNullPrecision
  (erun (omap (fun '(min, max, prec, pad) => min_max_to_commons min max prec pad) cs))).

(** encoder_vector_creation.rs:92-119 create_encoder_vector_from, from centers and radiuses *)
Definition create_vector_center_radius (cs : list config) : outcome (eresult (list float_encoder)) :=
  erefuse (existsb (fun '(_, radius, _, _) => Qle_bool radius 0) cs) FloatEncoderNullRadius
  (erefuse (existsb (fun '(_, _, prec, _) => prec =? 0) cs) FloatEncoderNullPrecision
  (erun (omap (fun '(center, radius, prec, pad) => center_radius_to_commons center radius prec pad) cs))).

(** cleartext_encoding.rs:32-51, 79-98 encode_cleartext *)
Definition encode_cleartext (e : float_encoder) (m : Q) : outcome (eresult Z) :=
  erefuse (is_message_out_of_range e m) FloatEncoderMessageOutsideInterval (erun (encode e m)).

(** plaintext_decoding.rs:33-47, 76-90 decode_plaintext *)
Definition decode_plaintext (e : float_encoder) (v : Z) : outcome (eresult Q) := erun (decode e v).

(** cleartext_vector_encoding.rs:43-76, 114-147 encode_cleartext_vector, with the generic checks of
    specification/engines/cleartext_vector_encoding.rs:14-28 *)
Definition encode_cleartext_vector (es : list float_encoder) (ms : list Q) : outcome (eresult (list Z)) :=
  erefuse (negb (Nat.eqb (length es) (length ms))) EncoderCountMismatch
  (erefuse (existsb (fun '(e, m) => is_message_out_of_range e m) (combine es ms)) FloatEncoderMessageOutsideInterval
  (erun (omap (fun '(e, m) => encode e m) (combine es ms)))).

(** plaintext_vector_decoding.rs:45-67, 107-129 decode_plaintext_vector: the generic checks of
    specification/engines/plaintext_vector_decoding.rs:14-28 are not called. *)
Definition decode_plaintext_vector (es : list float_encoder) (vs : list Z) : outcome (eresult (list Q)) :=
  erun (omap (fun '(e, v) => decode e v) (combine es vs)).

End Encoder.
