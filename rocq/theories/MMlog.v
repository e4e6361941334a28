(** sync/mlog.rs and the metadata-log part of sync/sync_sender.rs *)
From Verif Require Export MSchema.

(** [crc32fast::hash] (dependency): the CRC-32 of IEEE 802.3, one bit at a time. sync/mlog.rs:34. *)
Fixpoint crc_bits (n : nat) (c : Z) : Z :=
  match n with
  | O => c
  | S n' => crc_bits n' (if Z.odd c then Z.lxor (Z.shiftr c 1) 0xEDB88320 else Z.shiftr c 1)
  end.
(** [crc32fast::hash] at sync/mlog.rs:34 *)
Definition crc32 (l : list byte) : Z :=
  Z.lxor (fold_left (fun c b => crc_bits 8 (Z.lxor c b)) l 0xFFFFFFFF) 0xFFFFFFFF.

(** [write_create_plan] sync/mlog.rs:49-112 *)
Definition write_create_plan (path : str) (t : dtype) (e : encoding) (c : compression) : wprog :=
  WThen (WAll [4])
  (WThen (WAll (be_bytes 4 (wrapS 32 (zlen path))))
  (WThen (WAll path)
  (WThen (WAll [dtype_code t])
  (WThen (WAll [encoding_code e])
  (WThen (WAll [compression_code c])
  (WThen (WAll (be_bytes 8 (-1)))
  (WThen (WAll [0]) (WThen (WAll [0]) (WThen (WAll [0]) (WThen (WAll [0])
  (WThen (WAll (be_bytes 8 0)) WNil))))))))))).

(** [write_set_storage_group_plan] sync/mlog.rs:120-133 *)
Definition write_set_storage_group_plan (path : str) : wprog :=
  WThen (WAll [3])
  (WThen (WAll (be_bytes 4 (wrapS 32 (zlen path))))
  (WThen (WAll path)
  (WThen (WAll (be_bytes 8 0)) WNil))).

(** [MLog] sync/mlog.rs:8-10 is its buffer; [create_plan] 38-46 and [set_storage_group_plan] 115-117
    append to it (writing to a [Vec] never fails). *)
Definition mlog_create_plan (path : str) (t : dtype) (e : encoding) (c : compression) (m : list byte) :=
  m ++ wbytes (write_create_plan path t e c).
(** [set_storage_group_plan] sync/mlog.rs:115-117 *)
Definition mlog_set_storage_group_plan (path : str) (m : list byte) :=
  m ++ wbytes (write_set_storage_group_plan path).

(** Record written by [MLog::flush], sync/mlog.rs:20-25 *)
Definition mlog_record (m : list byte) : wprog :=
  WThen (WAll (be_bytes 4 (wrapS 32 (zlen m))))
  (WThen (WAll m)
  (WThen (WAll (be_bytes 8 (crc32 m))) WNil)).
(** [MLog::flush] sync/mlog.rs:19-30: the buffer is only cleared on success; [true] is [Ok(0)]. *)
Definition mlog_flush (m : list byte) (out : sink) : list byte * sink * bool :=
  match wexec (mlog_record m) out with
  | (out', true) => ([], out', true)
  | (out', false) => (m, out', false)
  end.

(** Path of a series, sync/sync_sender.rs:204 *)
Definition mlog_path (sg d m : str) : str := sg ++ [46] ++ d ++ [46] ++ m.

(** Loops of [write_mlog], sync/sync_sender.rs:202-212: one plan per series in iteration order *)
Definition mlog_plans (sg : str) (s : schema) (m0 : list byte) : list byte :=
  fold_left (fun m dg =>
    fold_left (fun m ms =>
      mlog_create_plan (mlog_path sg (fst dg) (fst ms)) (ms_type (snd ms)) (ms_enc (snd ms)) (ms_comp (snd ms)) m)
      (snd dg) m) s m0.

(** [write_mlog] sync/sync_sender.rs:193-216 *)
Definition write_mlog (sg : str) (s : schema) : list byte :=
  let m := mlog_set_storage_group_plan sg [] in
  let '(m, out, _) := mlog_flush m (sink_new healthy) in
  let m := mlog_plans sg s m in
  let '(_, out, _) := mlog_flush m out in
  sk_data out.

(** [hex::encode] (dependency): two lower-case digits per byte, sync/sync_sender.rs:184 *)
Definition hex_digit (n : Z) : byte := if n <? 10 then 48 + n else 87 + n.
(** sync/sync_sender.rs:184 *)
Definition hex_encode (l : list byte) : str :=
  flat_map (fun b => [hex_digit (b / 16); hex_digit (b mod 16)]) l.
(** [trim_start_matches('0')] (std), sync/sync_sender.rs:187 *)
Fixpoint trim_zeros (s : str) : str :=
  match s with
  | 48 :: s' => trim_zeros s'
  | _ => s
  end.
(** [calculate_digest] sync/sync_sender.rs:181-190; [sha] stands for [sha2::Sha256::digest]. *)
Definition calculate_digest (sha : list byte -> list byte) (l : list byte) : str :=
  trim_zeros (hex_encode (sha l)).
