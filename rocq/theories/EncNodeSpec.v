(** Vocabulary for stating what the JavaScript-visible encoder returns, for every
    placement of the buffers in memory. *)
From Verif Require Import Base EncSpec EncNode.

(** Two address ranges do not overlap. *)
Definition apart (a n b k : Z) : Prop := a + n <= b \/ b + k <= a.

(** [malloc] returns memory that does not overlap the source buffer. *)
Definition fresh_malloc (malloc : Z -> Z) (src len : Z) : Prop :=
  forall n, 0 <= n -> apart src len (malloc n) n.

(** [encode(data, args)] returns the buffer [o], wherever the buffers are. *)
Definition encode_returns (e : encoder) (data : list byte) (args : list Z) (o : list byte) : Prop :=
  forall malloc src m,
    bytes_at m src data -> fresh_malloc malloc src (zlen data) ->
    node_encode e malloc src (zlen data) args m = Returns (Ok o).

(** [encodeTo(data, dest, args)] with a destination of [dcap] bytes returns the
    length of [o] (as a 32-bit integer) and leaves [o] at the start of the destination. *)
Definition encodeTo_returns (e : encoder) (data : list byte) (dcap : Z) (args : list Z) (o : list byte) : Prop :=
  forall src dest m,
    bytes_at m src data -> apart src (zlen data) dest dcap ->
    exists m', node_encode_to e src (zlen data) dest dcap args m = Returns (Ok (to_int32 (zlen o), m')) /\
               bytes_at m' dest o.

(** [encodeIncr(data, args)] returns output [o] and column [col]. *)
Definition encodeIncr_returns (e : encoder) (data : list byte) (args : list Z) (o : list byte) (col : Z) : Prop :=
  forall malloc src m,
    bytes_at m src data -> fresh_malloc malloc src (zlen data) ->
    node_encode_incr e malloc src (zlen data) None args m = Returns (Ok (to_int32 (zlen o), o, col)).

(** A message fed chunk by chunk, each returned column passed to the next call. *)
Inductive incr_chain (e : encoder) (L : Z) : Z -> list (list byte) -> list byte -> Prop :=
| chain_nil col : incr_chain e L col [] []
| chain_cons col d ds o col' os :
    encodeIncr_returns e d [L; col] o col' ->
    incr_chain e L col' ds os ->
    incr_chain e L col (d :: ds) (o ++ os).

(** The arguments a caller may pass: line size [L] and column [col] result. *)
Definition args_give (args : list Z) (L col : Z) : Prop := enc_args args = Some (L, col).

(** Buffer lengths Node.js can produce, and line sizes for which the C [int]
    column counter cannot overflow. *)
Definition in_range (L col : Z) (data : list byte) : Prop :=
  zlen data < 2 ^ 53 /\ (L <= INT_MAX - 6 \/ col + 2 * zlen data <= INT_MAX).
