(** * C51: the block ciphers behind the generators are AES-128 *)
From Verif Require Import Base CsprngModel CsprngSpec CsprngTheorems AesSpec AesModel AesProofs AesArmProofs.

(** The specification is the standard: the example of FIPS 197, appendix C.1, and the last round key of appendix A.1. *)
Example C51_fips_vector : cipher (zseq 0 16) (map (fun i => 17 * i) (zseq 0 16)) =
  [105; 196; 224; 216; 106; 123; 4; 48; 216; 205; 183; 128; 112; 180; 197; 90].
Proof. vm_compute. reflexivity. Qed.
Example C51_fips_schedule : round_key [43; 126; 21; 22; 40; 174; 210; 166; 171; 247; 21; 136; 9; 207; 79; 60] 10 =
  [208; 20; 249; 168; 201; 238; 37; 137; 225; 63; 12; 200; 182; 99; 12; 166].
Proof. vm_compute. reflexivity. Qed.

Lemma aes_block_bytes key c : bytes 16 (aes_block key c).
Proof. unfold aes_block. rewrite !le16_bytes. apply cipher_bytes; apply to_bytes_bytes. Qed.
Lemma aes_block_wf key : cipher_wf (aes_block key).
Proof. intros c. apply aes_block_bytes. Qed.

(** Each of the three implementations computes the batch of eight AES-128 blocks that the generator of C01 is built on
    (and panics with it, in checked builds, on the last seven counters). *)
Local Opaque cipher arm_encrypt aesni_encrypt arm_round_keys aesni_round_keys.
Theorem C51_aesni_is_aes p key ctr :
  aesni_generate_batch p (aesni_round_keys key) ctr = generate_batch p (aes_block key) ctr.
Proof.
  unfold aesni_generate_batch, generate_batch. destruct (omap _ _) as [cs|]; [|reflexivity]. cbn [obind]. f_equal.
  rewrite flat_map_concat_map. f_equal. apply map_ext. intros c. unfold aes_block. rewrite !le16_bytes.
  apply aesni_encrypt_ok, to_bytes_bytes.
Qed.
Print Assumptions C51_aesni_is_aes.

Theorem C51_neon_is_aes p key ctr :
  arm_generate_batch p (arm_round_keys key) ctr = generate_batch p (aes_block key) ctr.
Proof.
  unfold arm_generate_batch, generate_batch.
  assert (E : forall l, omap (fun i => let! c := plain p 128 (ctr + i) in Ret (to_bytes 16 (arm_encrypt c (arm_round_keys key)))) l
    = let! cs := omap (fun j => plain p 128 (ctr + j)) l in Ret (map (aes_block key) cs)).
  { induction l as [|i l IH]; [reflexivity|]. cbn [omap]. destruct (plain p 128 (ctr + i)) as [c|]; [|reflexivity]. cbn [obind].
    rewrite IH. clear IH. destruct (omap (fun j => plain p 128 (ctr + j)) l) as [cs|]; [|reflexivity]. cbn [obind map]. rewrite arm_encrypt_ok, <- !le16_bytes. reflexivity. }
  rewrite E. destruct (omap _ _) as [cs|]; [|reflexivity]. cbn [obind]. now rewrite flat_map_concat_map.
Qed.
Print Assumptions C51_neon_is_aes.

Theorem C51_software_is_aes p key ctr : soft_generate_batch p key ctr = generate_batch p (aes_block key) ctr.
Proof.
  unfold soft_generate_batch, generate_batch. destruct (omap _ _) as [cs|]; [|reflexivity]. cbn [obind]. f_equal.
  rewrite flat_map_concat_map. f_equal. apply map_ext. intros c. unfold aes_block. now rewrite !le16_bytes.
Qed.
Print Assumptions C51_software_is_aes.

Example C51_batch_case : exists b, aesni_generate_batch Debug (aesni_round_keys 5) 7 = Ret b /\
  arm_generate_batch Debug (arm_round_keys 5) 7 = Ret b /\ soft_generate_batch Debug 5 7 = Ret b /\ length b = 128%nat /\ firstn 16 b = aes_block 5 7.
Proof.
  assert (L : forall c, length (aes_block 5 c) = 16%nat) by (intros c; apply aes_block_bytes).
  assert (E : generate_batch Debug (aes_block 5) 7 = Ret (flat_map (aes_block 5) (zseq 7 8))).
  { unfold generate_batch. assert (E : omap (fun j => plain Debug 128 (7 + j)) (zseq 0 8) = Ret (zseq 7 8)) by reflexivity. rewrite E. cbn [obind]. reflexivity. }
  exists (flat_map (aes_block 5) (zseq 7 8)).
  rewrite C51_aesni_is_aes, C51_neon_is_aes, C51_software_is_aes. generalize (aes_block 5), L, E. clear. intros f L E.
  split; [exact E|]. split; [exact E|]. split; [exact E|]. cbn [zseq flat_map]. split; [rewrite !app_length, !L; reflexivity|].
  rewrite firstn_app, L, Nat.sub_diag, firstn_O, app_nil_r. apply firstn_all2. rewrite L. lia.
Qed.
Local Transparent cipher arm_encrypt aesni_encrypt arm_round_keys aesni_round_keys.

(** The round keys stored by the two hardware implementations are those of the standard. *)
Theorem C51_round_keys key r : (r < 11)%nat ->
  nth_error (aesni_round_keys key) r = Some (round_key (le16 key) r) /\
  nth_error (arm_round_keys key) r = Some (round_key (le16 key) r).
Proof.
  intros H. rewrite aesni_keys, arm_keys, le16_bytes.
  assert (E : nth_error (seq 0 11) r = Some r) by (rewrite nth_error_nth' with (d := 0%nat) by (rewrite seq_length; lia); now rewrite seq_nth).
  split; now apply map_nth_error.
Qed.
Print Assumptions C51_round_keys.
Example C51_round_keys_case : nth_error (aesni_round_keys (of_bytes (zseq 0 16))) 1 =
  Some [214; 170; 116; 253; 210; 175; 114; 250; 218; 166; 120; 241; 214; 171; 118; 254].
Proof. vm_compute. reflexivity. Qed.

(** Two counters never give the same block: the table a seed stands for contains no block twice. *)
Local Opaque cipher.
Theorem C51_blocks_distinct key c c' : 0 <= c < 2 ^ 128 -> 0 <= c' < 2 ^ 128 -> aes_block key c = aes_block key c' -> c = c'.
Proof.
  intros Hc Hc' E. unfold aes_block in E. rewrite !le16_bytes in E.
  apply cipher_inj in E; [|apply to_bytes_bytes..].
  rewrite <- (of_to_bytes 16 c), <- (of_to_bytes 16 c') by assumption. now rewrite E.
Qed.
Print Assumptions C51_blocks_distinct.
Local Transparent cipher.
Example C51_blocks_distinct_case : aes_block 5 0 <> aes_block 5 1 /\ aes_block 5 (2 ^ 128 - 1) <> aes_block 5 0.
Proof. vm_compute. split; discriminate. Qed.

(** Hence the stream of a generator of a given seed is the same on every platform, and is the AES table of C01: the
    theorems on generators apply with this block cipher. *)
Local Opaque cipher.
Theorem C51_generator_stream key p start bound g k :
  ti_wf start -> ti_wf bound -> from_block_cipher (aes_block key) start bound = Ret g ->
  reach p (Z.min (pos bound) (pos start + Z.of_nat k)) ->
  exists g', gen_take p g k = Ret (map (fun q => if q <? pos bound then Some (nth (Z.to_nat (q mod 16)) (cipher (le16 key) (le16 (q / 16))) 0) else None)
                                       (zseq (pos start) k), g').
Proof.
  intros Hs Hb E Hr. destruct (C01_stream_is_aes_table Z (aes_block key) p start bound g k (aes_block_wf key) Hs Hb E Hr) as (g' & Et).
  exists g'. rewrite Et. do 2 f_equal. unfold stream. apply map_ext. intros q. destruct (q <? pos bound); [|reflexivity].
  unfold table_byte. pose proof (aes_block_wf key (q / 16)) as L. change (cipher (le16 key) (le16 (q / 16))) with (aes_block key (q / 16)).
  generalize dependent (aes_block key (q / 16)). intros b L. apply nth_error_nth'. rewrite L. clear - q. lia.
Qed.
Print Assumptions C51_generator_stream.
Local Transparent cipher.
Example C51_generator_case : (let! g := random_generator_new (aes_block 0) in let! (bytes, _) := gen_take Debug g 3 in Ret bytes) =
  Ret [Some 233; Some 75; Some 212].
Proof. vm_compute. reflexivity. Qed.
