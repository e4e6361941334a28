(** C36, C38, C39: type codes, the schema log of the sync sender, digests. *)
From Verif Require Import PMlog.

(** C36. Each decoder accepts exactly the codes the encoder emits, and inverts it; the codes are those
    of the format. *)
Theorem C36_data_types : forall b d, dtype_of_code b = Some d <-> b = dtype_code d.
Proof. exact dtype_code_iff. Qed.
Print Assumptions C36_data_types.
Theorem C36_encodings : forall b e, encoding_of_code b = Some e <-> b = encoding_code e.
Proof. exact encoding_code_iff. Qed.
Print Assumptions C36_encodings.
Theorem C36_compressions : forall b c, compression_of_code b = Some c <-> b = compression_code c.
Proof. exact compression_code_iff. Qed.
Print Assumptions C36_compressions.
Theorem C36_format_codes : (forall d, dtype_code d = format_type d) /\ (forall e, encoding_code e = format_encoding e) /\
  (forall c, compression_code c = format_compression c).
Proof. repeat split; intros []; reflexivity. Qed.
Print Assumptions C36_format_codes.
Example C36_case : dtype_of_code 3 = Some FLOAT /\ encoding_of_code 4 = Some TS2DIFF /\ encoding_of_code 1 = None /\
  compression_of_code 255 = None.
Proof. auto. Qed.

(** C38. *)
Theorem C38_mlog : forall sg s, bytes sg -> Forall (fun dg => bytes (fst dg) /\ Forall (fun ms => bytes (fst ms)) (snd dg)) s ->
  zlen (write_mlog sg s) < 2 ^ 31 -> mlog_read (write_mlog sg s) = Some (expected_plans sg s).
Proof. exact mlog_roundtrip. Qed.
Print Assumptions C38_mlog.
(** The checksum is the CRC-32 of IEEE 802.3, for every payload. *)
Theorem C38_crc : forall l, bytes l -> crc32 l = crc_spec l.
Proof. exact crc_eq. Qed.
Print Assumptions C38_crc.
Example C38_case :
  let s := [([100; 49], [([115], mkMS INT32 PLAIN UNCOMPRESSED); ([116], mkMS INT64 TS2DIFF SNAPPY)])] in
  zlen (write_mlog [103] s) < 2 ^ 31 /\
  mlog_read (write_mlog [103] s) = Some [SetStorageGroup [103];
    CreateTimeseries [103; 46; 100; 49; 46; 115] 1 0 0 (-1) [0; 0; 0; 0];
    CreateTimeseries [103; 46; 100; 49; 46; 116] 2 4 1 (-1) [0; 0; 0; 0]] /\
  (* the check value of CRC-32: "123456789" *)
  crc_spec [49; 50; 51; 52; 53; 54; 55; 56; 57] = 0xCBF43926.
Proof. vm_compute. auto. Qed.

(** C39. [sha] is any hash. *)
Theorem C39_digest_numeral : forall sha l, bytes (sha l) -> calculate_digest sha l = hex_numeral (be_val (sha l)).
Proof. exact (fun sha l => digest_numeral (sha l)). Qed.
Print Assumptions C39_digest_numeral.
Theorem C39_digest_injective : forall sha a b, bytes (sha a) -> bytes (sha b) -> length (sha a) = length (sha b) ->
  calculate_digest sha a = calculate_digest sha b -> sha a = sha b.
Proof. exact (fun sha a b => digest_inj (sha a) (sha b)). Qed.
Print Assumptions C39_digest_injective.
(** 0x00 0x0a 0xff is "aff" *)
Example C39_case : calculate_digest (fun l => l) [0; 10; 255] = [97; 102; 102] /\ hex_numeral (be_val [0; 10; 255]) = [97; 102; 102] /\
  calculate_digest (fun l => l) [10; 255; 0] <> calculate_digest (fun l => l) [0; 10; 255].
Proof. vm_compute. repeat split. discriminate. Qed.
