(** C82: how far into the destination encodeTo, encodeIncr, decodeTo and decodeIncr write, and that what
    they write depends on the source and the destination only. *)
From Verif Require Import Base BaseLemmas EncModel EncSpec EncNode EncNodeSpec EncPad DecSpec DecModel DecNode DecNodeSpec JsEncoder JsBuilds DecNeonModel
  HeapModel HeapEx ReachProofs.
Open Scope Z_scope.

(** [encodeTo] writes the text and changes at most 32 bytes behind it. *)
Theorem c82_encodeTo_reach : forall no256 e data args L col src dest dcap m, an_encoder e -> data <> [] -> args_give args L col ->
  in_range L col data -> bytes_at m src data -> apart src (zlen data) dest dcap -> max_size no256 (zlen data) L <= dcap ->
  exists m', node_encode_to_in no256 e src (zlen data) dest dcap args m = Returns (Ok (to_int32 (zlen (yenc L true col data)), m')) /\
    bytes_at m' dest (yenc L true col data) /\
    (forall q, ~ (dest <= q < dest + zlen (yenc L true col data) + 32) -> m' q = m q).
Proof. exact reach_encodeTo. Qed.
Print Assumptions c82_encodeTo_reach.

(** [encodeIncr] with a destination: likewise (if that is large enough, see C14). *)
Theorem c82_encodeIncr_reach : forall A no256 e data args L col src dest dcap h m, an_encoder e -> data <> [] -> args_give args L col ->
  in_range L col data -> bytes_at m src data -> apart src (zlen data) dest dcap ->
  max_size no256 (zlen data) L <= dcap -> max_size no256 (zlen data) 128 <= dcap ->
  exists m', h_encode_incr A no256 e src (zlen data) (Some (dest, dcap)) args h m =
      HReturns (Ok ((to_int32 (zlen (yenc L false col data)), None, ret_col L false col data), h, m')) /\
    bytes_at m' dest (yenc L false col data) /\
    (forall q, ~ (dest <= q < dest + zlen (yenc L false col data) + 32) -> m' q = m q).
Proof. exact reach_encodeIncr. Qed.
Print Assumptions c82_encodeIncr_reach.

(** [decodeTo] changes at most as many bytes as the source has, also in place. *)
Theorem c82_decodeTo_reach : forall D data (isRaw : bool) src dest dcap m, a_decoder D -> bytes_at m src data -> data <> [] ->
  zlen data <= dcap -> dec_layout src (zlen data) dest ->
  exists m' o, node_decode_to D src (zlen data) dest dcap isRaw m = Returns (Ok (to_int32 (zlen o), m')) /\ bytes_at m' dest o /\
    (if isRaw
     then o = decode_text (unstuff true data) \/
          ends_with [EQS; CR; LF] data /\ exists c, decode_text (unstuff true data) = o ++ [c]
     else o = decode_text data) /\
    (forall q, ~ (dest <= q < dest + zlen data) -> m' q = m q).
Proof. exact reach_decodeTo. Qed.
Print Assumptions c82_decodeTo_reach.

(** [decodeIncr] with a destination: likewise.  Missing: [n_line ne = false] of the NEON code (C62). *)
Theorem c82_decodeIncr_reach_partial : forall A D data s src dest dcap h m o s' e rst, a_decoder D -> (forall ne, D = neon_decoders ne -> n_line ne = true) ->
  bytes_at m src data -> zlen data <= dcap -> dec_layout src (zlen data) dest -> run_end s data = (o, s', e, rst) ->
  exists m', h_decode_incr A D src (zlen data) s (Some (dest, dcap)) h m =
      HReturns (Ok ((to_int32 (zlen data - zlen rst), to_int32 (zlen o), None, e, s'), h, m')) /\ bytes_at m' dest o /\
    (forall q, ~ (dest <= q < dest + zlen data) -> m' q = m q).
Proof. exact reach_decodeIncr. Qed.
Print Assumptions c82_decodeIncr_reach_partial.

(** Whatever the arguments, the sizes and the overlap of the buffers: unless [encodeTo] runs into undefined
    behaviour, its result and the whole destination afterwards depend only on the source and the
    destination before. *)
Theorem c82_encodeTo_only : forall no256 e src len dest dcap args m m' n m1, an_encoder e ->
  (forall q, src <= q < src + len \/ dest <= q < dest + dcap -> m q = m' q) ->
  node_encode_to_in no256 e src len dest dcap args m = Returns (Ok (n, m1)) ->
  exists m1', node_encode_to_in no256 e src len dest dcap args m' = Returns (Ok (n, m1')) /\
    (forall q, dest <= q < dest + dcap -> m1 q = m1' q) /\ (forall q, ~ (dest <= q < dest + dcap) -> m1' q = m' q).
Proof. exact only_encodeTo. Qed.
Print Assumptions c82_encodeTo_only.

Theorem c82_encodeIncr_only : forall A no256 e src len dest dcap args h m m' r h1 m1, an_encoder e ->
  (forall q, src <= q < src + len \/ dest <= q < dest + dcap -> m q = m' q) ->
  h_encode_incr A no256 e src len (Some (dest, dcap)) args h m = HReturns (Ok (r, h1, m1)) ->
  exists m1', h_encode_incr A no256 e src len (Some (dest, dcap)) args h m' = HReturns (Ok (r, h1, m1')) /\
    (forall q, dest <= q < dest + dcap -> m1 q = m1' q) /\ (forall q, ~ (dest <= q < dest + dcap) -> m1' q = m' q).
Proof. exact only_encodeIncr. Qed.
Print Assumptions c82_encodeIncr_only.

Theorem c82_decodeTo_only : forall D isRaw src len dest dcap m m' n m1, a_decoder D ->
  (forall q, src <= q < src + len \/ dest <= q < dest + dcap -> m q = m' q) ->
  node_decode_to D src len dest dcap isRaw m = Returns (Ok (n, m1)) ->
  exists m1', node_decode_to D src len dest dcap isRaw m' = Returns (Ok (n, m1')) /\
    (forall q, dest <= q < dest + dcap -> m1 q = m1' q) /\ (forall q, ~ (dest <= q < dest + dcap) -> m1' q = m' q).
Proof. exact only_decodeTo. Qed.
Print Assumptions c82_decodeTo_only.

(** The NEON code also looks at up to 15 bytes behind the source. *)
Theorem c82_decodeIncr_only : forall A D src len s dest dcap h m m' r h1 m1, a_decoder D ->
  (forall q, src <= q < src + len \/ dest <= q < dest + dcap -> m q = m' q) ->
  (forall ne, D = neon_decoders ne -> forall q, src + len <= q < src + len + 15 -> m q = m' q) ->
  h_decode_incr A D src len s (Some (dest, dcap)) h m = HReturns (Ok (r, h1, m1)) ->
  exists m1', h_decode_incr A D src len s (Some (dest, dcap)) h m' = HReturns (Ok (r, h1, m1')) /\
    (forall q, dest <= q < dest + dcap -> m1 q = m1' q) /\ (forall q, ~ (dest <= q < dest + dcap) -> m1' q = m' q).
Proof. exact only_decodeIncr. Qed.
Print Assumptions c82_decodeIncr_only.

(** ** Examples *)

Definition rdata : list byte := [x41; x42; x13; x0d; x0a; x3d; x7d].
Definition rm : mem := mem_of 100 rdata.

Example c82_hyps_ex : bytes_at rm 100 rdata /\ rdata <> [] /\ args_give [2] 2 0 /\ in_range 2 0 rdata /\
  apart 100 (zlen rdata) 200 200 /\ max_size false (zlen rdata) 2 <= 200 /\ max_size false (zlen rdata) 128 <= 200 /\
  dec_layout 100 (zlen rdata) 99 /\ (exists o s' e rst, run_end S_CRLF rdata = (o, s', e, rst) /\ o <> []).
Proof.
  split; [apply bytes_at_mem_of|]. split; [discriminate|]. split; [reflexivity|]. split; [unfold in_range, INT_MAX; cbn; lia|].
  split; [unfold apart; cbn; lia|]. split; [vm_compute; discriminate|]. split; [vm_compute; discriminate|].
  split; [left; lia|]. do 4 eexists. split; [vm_compute; reflexivity|discriminate].
Qed.

(** Decoding in place, one byte further down, with 5 bytes more room: the bytes from 99 + 7 on stay. *)
Example c82_decodeTo_ex : match node_decode_to scalar 100 7 99 12 false rm with
  | Returns (Ok (n, m')) => n = 4 /\ read_n m' 99 4 = [x17; x18; xe9; x13] /\ m' 106 = rm 106 /\ rm 106 = x7d
  | _ => False end.
Proof. vm_compute. auto. Qed.
(** The byte 0x13 becomes '='; lines of 2 characters; the byte behind the text stays. *)
Example c82_encodeTo_ex : match node_encode_to_in false do_encode_generic 100 7 200 200 [2] rm with
  | Returns (Ok (n, m')) => n = zlen (yenc 2 true 0 rdata) /\ read_n m' 200 (Z.to_nat n) = yenc 2 true 0 rdata /\ m' (200 + n) = rm (200 + n)
  | _ => False end.
Proof. vm_compute. auto. Qed.
(** Memory that differs elsewhere, and the results the same. *)
Example c82_only_ex : let m' := upd rm 50 xff in
  (forall q, 100 <= q < 100 + 7 \/ 200 <= q < 200 + 200 -> rm q = m' q) /\ rm 50 <> m' 50 /\
  (exists n m1, node_encode_to_in false do_encode_generic 100 7 200 200 [2] rm = Returns (Ok (n, m1))) /\
  (exists r h m1, h_decode_incr bump scalar 100 7 S_CRLF (Some (200, 200)) [] rm = HReturns (Ok (r, h, m1))) /\
  (exists r h m1, h_encode_incr bump false do_encode_generic 100 7 (Some (200, 200)) [2] [] rm = HReturns (Ok (r, h, m1))).
Proof.
  cbv zeta. split; [intros q Hq; unfold upd; destruct (q =? 50) eqn:E; [lia|reflexivity]|]. split; [vm_compute; discriminate|].
  split; [|split]; repeat eexists; vm_compute; reflexivity.
Qed.
