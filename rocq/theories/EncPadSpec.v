(** What encode, encodeTo and encodeIncr return in builds with or without
    YENC_DISABLE_AVX256 ([no256]), wherever the buffers are.  See [EncNodeSpec] for the default build. *)
From Verif Require Import Base EncSpec EncNode EncNodeSpec.

Definition encode_returns_in (no256 : bool) (e : encoder) (data : list byte) (args : list Z) (o : list byte) : Prop :=
  forall malloc src m,
    bytes_at m src data -> fresh_malloc malloc src (zlen data) ->
    node_encode_in no256 e malloc src (zlen data) args m = Returns (Ok o).

Definition encodeTo_returns_in (no256 : bool) (e : encoder) (data : list byte) (dcap : Z) (args : list Z) (o : list byte) : Prop :=
  forall src dest m,
    bytes_at m src data -> apart src (zlen data) dest dcap ->
    exists m', node_encode_to_in no256 e src (zlen data) dest dcap args m = Returns (Ok (to_int32 (zlen o), m')) /\
               bytes_at m' dest o.

Definition encodeIncr_returns_in (no256 : bool) (e : encoder) (data : list byte) (args : list Z) (o : list byte) (col : Z) : Prop :=
  forall malloc src m,
    bytes_at m src data -> fresh_malloc malloc src (zlen data) ->
    node_encode_incr_in no256 e malloc src (zlen data) None args m = Returns (Ok (to_int32 (zlen o), o, col)).
