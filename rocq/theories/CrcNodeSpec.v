(** Vocabulary for stating what the JavaScript-visible CRC functions return. *)
From Verif Require Import Base CrcSpec CrcModel.

(** [crc32(data, init)] returns [r], wherever the buffer is. *)
Definition crc32_returns (f : crc_fun) (data : list byte) (init : option (list byte)) (r : list byte) : Prop :=
  forall src m, bytes_at m src data -> node_crc32 f src (zlen data) init m = JReturns r.

(** The CRC-32 of [data] as a 4-byte buffer. *)
Definition crc_of (data : list byte) : list byte := be32 (crc32_spec 0 data).

(** Buffers holding a CRC value. *)
Definition crc_buf (b : list byte) : Prop := length b = 4%nat.

(** Bytewise exclusive or. *)
Definition xor_buf (a b : list byte) : list byte :=
  map (fun p => u8 (Z.lxor (bz (fst p)) (bz (snd p)))) (combine a b).
