(** Vocabulary for stating what the JavaScript-visible decoder returns, for every
    placement of the buffers in memory. *)
From Verif Require Import Base DecSpec EncNode EncNodeSpec DecNode.

(** [decode(data, isRaw)] returns [o], wherever the buffers are. *)
Definition decode_returns (D : decoders) (data : list byte) (isRaw : bool) (o : list byte) : Prop :=
  forall malloc src m,
    bytes_at m src data -> fresh_malloc malloc src (zlen data) ->
    node_decode D malloc src (zlen data) isRaw m = Ok o.

(** Source and destination of an in-place or out-of-place decode: the destination
    starts at or before the source, or behind the end of the source. *)
Definition dec_layout (src len dest : Z) : Prop := dest <= src \/ src + len <= dest.

(** [decodeTo(data, dest, isRaw)] writes [o] and returns its length (as a 32-bit
    integer), and touches nothing outside the destination. *)
Definition decodeTo_returns (D : decoders) (data : list byte) (isRaw : bool) (o : list byte) : Prop :=
  forall src dest dcap m,
    bytes_at m src data -> zlen data <= dcap -> dec_layout src (zlen data) dest ->
    exists m', node_decode_to D src (zlen data) dest dcap isRaw m = Returns (Ok (to_int32 (zlen o), m')) /\
               bytes_at m' dest o /\
               (forall q, ~ (dest <= q < dest + dcap) -> m' q = m q).

(** [decodeChunk(data, undefined, prev)] without an output buffer returns [r]. *)
Definition decodeChunk_returns (D : decoders) (data prev : list byte) (r : chunk_result) : Prop :=
  forall malloc src m,
    bytes_at m src data -> fresh_malloc malloc src (zlen data) ->
    exists m', js_decodeChunk D malloc src (zlen data) JUndef (JStr prev) m = Returns (Ok (r, m')).

(** A stream fed to decodeChunk piece by piece, each returned state passed to the
    next call, until the end is reported: total output, total number of bytes
    read, end indication, last state. *)
Inductive chunk_chain (D : decoders) : list byte -> list (list byte) -> list byte -> Z -> bool -> list byte -> Prop :=
| cchain_nil prev : chunk_chain D prev [] [] 0 false prev
| cchain_go prev d ds r os n e st :
    decodeChunk_returns D d prev r -> c_ended r = false ->
    chunk_chain D (c_state r) ds os n e st ->
    chunk_chain D prev (d :: ds) (c_output r ++ os) (c_read r + n) e st
| cchain_end prev d ds r :
    decodeChunk_returns D d prev r -> c_ended r = true ->
    chunk_chain D prev (d :: ds) (c_output r) (c_read r) true (c_state r).

(** The state strings decodeChunk returns while not ended. *)
Definition is_state (prev : list byte) : Prop := exists s, prev = state_text s.
