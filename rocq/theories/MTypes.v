(** Enumerations: values, data types, encodings, compressions, errors. *)
From Verif Require Export MVarint.
From Coq Require Import String.

(** [IoTDBValue] writer/mod.rs:124-129. DOUBLE and FLOAT carry the IEEE bit pattern. *)
Inductive value := VDouble (bits : Z) | VFloat (bits : Z) | VInt (v : Z) | VLong (v : Z).

(** [TSDataType] writer/mod.rs:187-191 *)
Inductive dtype := INT32 | INT64 | FLOAT.
(** [TSDataType::serialize] writer/mod.rs:194-200 *)
Definition dtype_code (d : dtype) : byte := match d with INT32 => 1 | INT64 => 2 | FLOAT => 3 end.
(** [TryFrom<u8> for TSDataType] writer/mod.rs:206-213 *)
Definition dtype_of_code (b : byte) : option dtype :=
  match b with 1 => Some INT32 | 2 => Some INT64 | 3 => Some FLOAT | _ => None end.
(** derived [PartialEq] of [TSDataType] writer/mod.rs:186 *)
Definition dtype_eqb (a b : dtype) : bool :=
  match a, b with INT32, INT32 | INT64, INT64 | FLOAT, FLOAT => true | _, _ => false end.

(** [TSEncoding] writer/encoding/mod.rs:12-15 *)
Inductive encoding := PLAIN | TS2DIFF.
(** [TSEncoding::serialize] writer/encoding/mod.rs:30-35 *)
Definition encoding_code (e : encoding) : byte := match e with PLAIN => 0 | TS2DIFF => 4 end.
(** [TryFrom<u8> for TSEncoding] writer/encoding/mod.rs:20-26 *)
Definition encoding_of_code (b : byte) : option encoding :=
  match b with 0 => Some PLAIN | 4 => Some TS2DIFF | _ => None end.

(** [CompressionType] writer/compression.rs:5-8 *)
Inductive compression := UNCOMPRESSED | SNAPPY.
(** [CompressionType::serialize] writer/compression.rs:23-28 *)
Definition compression_code (c : compression) : byte := match c with UNCOMPRESSED => 0 | SNAPPY => 1 end.
(** [TryFrom<u8> for CompressionType] writer/compression.rs:13-19 *)
Definition compression_of_code (b : byte) : option compression :=
  match b with 0 => Some UNCOMPRESSED | 1 => Some SNAPPY | _ => None end.

(** [TsFileError] writer/errors.rs:5-14 (the [std::io::Error] inside [IoError] is dropped). *)
Inductive tserror :=
  | EError (source : option string)
  | EIo
  | EWrite
  | EOutOfOrderData
  | EIllegalState (source : option string)
  | ECompression
  | EWrongType
  | EEncoding.

(** [MeasurementSchema] writer/mod.rs:217-221 *)
Record mschema := mkMS { ms_type : dtype; ms_enc : encoding; ms_comp : compression }.

(** [Schema] / [MeasurementGroup] writer/mod.rs:262-275: hash maps as association lists; the list
    order is the iteration order. *)
Definition mgroup := list (str * mschema).
(** [Schema] writer/mod.rs:273-275 *)
Definition schema := list (str * mgroup).
