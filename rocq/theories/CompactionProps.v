(** Properties C01-C04 and C07: the compacted value stream. *)
From Verif Require Import Base CompactionModel CompactionSpec FloatModel
  VarIntProofs CompactionProofs CompactionProofs2 FloatProofs.

(** C01. Every sequence of values the encoder accepts is written, and reading
    the bytes back, whatever follows them, gives the sequence, the number of
    bytes written, and leaves exactly what follows. *)
Theorem C01_stream_roundtrip : forall ks rest, wf_kvals ks ->
  exists bytes, encode ks = Ok bytes /\ wf_bytes bytes /\
    decode (bytes ++ rest) = Ok (map plain ks, zlen bytes, rest).
Proof. exact encode_decode. Qed.
Print Assumptions C01_stream_roundtrip.

(** C01. The only values the encoder does not accept are oversized short
    strings and undefined indices; these make it panic. *)
Theorem C01_encode_panics_iff : forall ks,
  Forall (fun k => wf_kval k \/ oversized k = true) ks ->
  (encode ks = Panic <-> exists k, In k ks /\ oversized k = true).
Proof. exact encode_panic_iff. Qed.
Print Assumptions C01_encode_panics_iff.

Definition C01_sample : list kval :=
  [KNull; KBit true; KBool false; KByte (-3); KStr16 [104; 105]; KInt (-70000);
   KFloat 1065353216; KStr256 (repeat 97 20); KDouble 4609434218613702656;
   KDecimal (-12345678901234567890123) 7; KBigStr (repeat 98 300); KBinary [0; 255];
   KBinaryArc [1; 2; 3]; KBinary8 [18446744073709551615]; KBinary4 [7]; KBinary2 [65535; 0];
   KUndefined 7].

Example C01_sample_wf : wf_kvals C01_sample.
Proof.
  split; [|reflexivity].
  repeat (constructor; [cbn; unfold i64_range, i128_range, wf_byte, rust_string, wf_bytes;
    repeat split; try lia; try reflexivity;
    repeat (constructor; try (unfold wf_byte; lia))|]); constructor.
Qed.

Example C01_sample_bytes :
  match encode C01_sample with
  | Ok b => decode (b ++ [1; 2; 3]) = Ok (map plain C01_sample, zlen b, [1; 2; 3])
  | _ => False
  end.
Proof. vm_compute. reflexivity. Qed.

Example C01_oversized_sample : encode [KStr16 (repeat 97 16)] = Panic.
Proof. reflexivity. Qed.

(** C02. If two encodings, each followed by anything, are the same bytes, then
    they encode the same values (a shared binary counting as a plain one), they
    are equal, and what follows is equal: no encoding is a proper prefix of
    another one. *)
Theorem C02_prefix_free : forall ks1 ks2 b1 b2 r1 r2,
  wf_kvals ks1 -> wf_kvals ks2 -> encode ks1 = Ok b1 -> encode ks2 = Ok b2 ->
  b1 ++ r1 = b2 ++ r2 ->
  map plain ks1 = map plain ks2 /\ b1 = b2 /\ r1 = r2.
Proof. exact encode_prefix_free. Qed.
Print Assumptions C02_prefix_free.

(** C02. Encodings written back to back are read back one after another. *)
Theorem C02_back_to_back : forall kss bs rest,
  Forall2 (fun ks b => wf_kvals ks /\ encode ks = Ok b) kss bs ->
  decode_many (length kss) (concat bs ++ rest) = Ok (map (map plain) kss, rest).
Proof. exact decode_many_concat. Qed.
Print Assumptions C02_back_to_back.

Example C02_sample :
  exists b1 b2, encode [KInt 300] = Ok b1 /\ encode [KBit true; KNull] = Ok b2 /\
    decode_many 2 (b1 ++ b2 ++ [9]) = Ok ([[KInt 300]; [KBit true; KNull]], [9]).
Proof. eexists. eexists. split; [reflexivity|]. split; [reflexivity|]. vm_compute. reflexivity. Qed.

(** C03. Scalars survive compaction. *)
Theorem C03_int_lossless : forall v, i64_range v ->
  as_i64 (comp_int v) = Some v /\ wf_kval (comp_int v).
Proof. exact (fun v H => conj (comp_int_as_i64 v) (comp_int_wf v H)). Qed.
Print Assumptions C03_int_lossless.

Theorem C03_double_lossless : forall bits, 0 <= bits < 2 ^ 64 ->
  as_f64 (comp_double bits) = Some bits /\ wf_kval (comp_double bits).
Proof. exact (fun b H => conj (comp_double_lossless b H) (comp_double_wf b H)). Qed.
Print Assumptions C03_double_lossless.

Theorem C03_float_lossless : forall bits, 0 <= bits < 2 ^ 32 ->
  as_f32 (comp_float bits) = Some bits /\ wf_kval (comp_float bits).
Proof. exact (fun b H => conj (comp_float_lossless b H) (comp_float_wf b H)). Qed.
Print Assumptions C03_float_lossless.

Theorem C03_str_lossless : forall s, rust_string (2 ^ 63) s ->
  as_string (comp_str s) = Some s /\ wf_kval (comp_str s).
Proof. exact (fun s H => conj (comp_str_lossless s) (comp_str_wf s H)). Qed.
Print Assumptions C03_str_lossless.

(** -0.0, infinity, a NaN payload, 2^63 (outside i64), 0.1 and 2^64 *)
Example C03_samples :
  map comp_double [2 ^ 63; 9218868437227405312; 9221120237041090561; 4890909195324358656;
                   4591870180066957722; 4895412794951729152]
  = [KDouble (2 ^ 63); KFloat 2139095040; KDouble 9221120237041090561;
     KInt 9223372036854775807; KDouble 4591870180066957722; KFloat 1602224128].
Proof. vm_compute. reflexivity. Qed.

(** C04. Variable length integers: at most 8 (16) bytes, no shorter non-empty
    byte list stands for the integer, and decoding gives it back. *)
Theorem C04_varint64 : forall v, i64_range v ->
  let b := vi_encode 8 v in
  1 <= zlen b <= 8 /\ wf_bytes b /\ vi_decode 64 b = Ok v /\
  (forall b', wf_bytes b' -> b' <> [] -> vi_decode 64 b' = Ok v -> (length b <= length b')%nat).
Proof.
  exact (fun v H => conj (vi64_length v H) (conj (vi64_wf v H) (conj (vi64_roundtrip v H)
    (fun b' => vi_minimal 7 64 v b' eq_refl (proj1 (i64_range_256 v) H))))).
Qed.
Print Assumptions C04_varint64.

Theorem C04_varint128 : forall v, i128_range v ->
  let b := vi_encode 16 v in
  1 <= zlen b <= 16 /\ wf_bytes b /\ vi_decode 128 b = Ok v /\
  (forall b', wf_bytes b' -> b' <> [] -> vi_decode 128 b' = Ok v -> (length b <= length b')%nat).
Proof.
  exact (fun v H => conj (vi128_length v H) (conj (vi128_wf v H) (conj (vi128_roundtrip v H)
    (fun b' => vi_minimal 15 128 v b' eq_refl (proj1 (i128_range_256 v) H))))).
Qed.
Print Assumptions C04_varint128.

(** C04. A length written in front of a block is read back, whatever follows. *)
Theorem C04_length_prefix : forall n rest pos, 0 <= n < 2 ^ 63 ->
  vi_read (vi_write n ++ rest, pos) = Ok (n, (rest, pos + zlen (vi_write n))).
Proof. exact length_prefix. Qed.
Print Assumptions C04_length_prefix.

Example C04_samples :
  map (vi_encode 8) [0; 127; 128; -1; -128; -129; 9223372036854775807; -9223372036854775808]
  = [[0]; [127]; [128; 0]; [128]; [255]; [128; 128];
     [255; 255; 255; 255; 255; 255; 255; 127]; [255; 255; 255; 255; 255; 255; 255; 255]].
Proof. vm_compute. reflexivity. Qed.

(** C07. The claim "decoding never panics" is false: a length byte of 9 is
    enough, and so is a negative tag length. *)
Theorem C07_malformed_refuted :
  (exists input, wf_bytes input /\ decode input = Panic) /\
  decode (9 :: repeat 0 9) = Panic /\ decode [1; 0; 1; 255] = Panic.
Proof. exact malformed_panics. Qed.
Print Assumptions C07_malformed_refuted.

(** C07. Exactly these inputs panic: one of the two leading length-prefixed
    integers has more than 8 bytes, or the second (the tag length) is negative.
    Every other byte string is decoded or rejected with an error. *)
Theorem C07_malformed_partial : forall input, wf_bytes input ->
  (decode input = Panic <->
   exists b1 r1, input = zlen b1 :: b1 ++ r1 /\
     (8 < zlen b1 \/
      exists b2 r2, r1 = zlen b2 :: b2 ++ r2 /\
        (8 < zlen b2 \/ (b2 <> [] /\ 128 <= last b2 0)))).
Proof. exact decode_panic_iff. Qed.
Print Assumptions C07_malformed_partial.

Example C07_sample_err : decode [1; 5; 1; 1; 0] = Err /\ decode [] = Err.
Proof. split; reflexivity. Qed.
