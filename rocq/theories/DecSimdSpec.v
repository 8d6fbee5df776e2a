(** What the SIMD front-end of the decoders expects of a kernel. *)
From Verif Require Import Base EncSpec DecSpec DecModel DecSimdModel.

(** The text [l] starts with an end-of-data marker. *)
Definition marker_at (l : list byte) : Prop :=
  starts_with [CR; LF; EQS; YY] l \/ starts_with [CR; LF; DOT; EQS; YY] l \/ starts_with [CR; LF; DOT; CR; LF] l.

(** No marker starts inside the first [n] characters of [l]. *)
Definition no_marker_in (n : Z) (l : list byte) : Prop :=
  forall a b, l = a ++ b -> zlen a < n -> ~ marker_at b.

(** The flag for a dot to be removed at the start of the text [l], which follows
    text that leaves the decoder in state [s]: 1 if it is the first character, 2
    if it is the second. *)
Definition dot_next (s : dstate) (l : list byte) : Z :=
  match s, l with
  | S_CRLF, c :: _ => if beq c DOT then 1 else 0
  | S_CR, c :: d :: _ => if beq c LF && beq d DOT then 2 else 0
  | _, _ => 0
  end.

Definition esc_flag (s : dstate) : Z := match s with S_EQ => 1 | _ => 0 end.

(** Number of characters behind its input a kernel may look at. *)
Definition lookahead (isRaw searchEnd : bool) : Z :=
  if searchEnd then 4 else if isRaw then 2 else 0.

(** The states in which the front-end calls a kernel on the text [l]. *)
Definition entry_state (isRaw : bool) (s : dstate) (l : list byte) : Prop :=
  s = S_NONE \/ s = S_EQ \/ (isRaw = true /\ dot_next s l <> 0).

(** A kernel, called on [d] followed by [look], decodes a prefix [d1] of [d] (all
    of it unless it searches for the end), no marker starting in [d1]; it writes
    only as many bytes of the destination as it consumes. *)
Definition kernel_ok (isRaw searchEnd : bool) (width : Z) (K : kernel) : Prop :=
  forall B src dest d look s m,
    bytes_at m src (d ++ look) ->
    0 < zlen d -> zlen d mod width = 0 -> src mod width = 0 ->
    lookahead isRaw searchEnd <= zlen look ->
    rlo B <= src -> src + zlen d + zlen look <= rhi B ->
    wlo B <= dest -> dest + zlen d <= whi B ->
    dest <= src \/ src + zlen d + zlen look <= dest ->
    entry_state isRaw s (d ++ look) ->
    exists d1 d2 o s1 m',
      d = d1 ++ d2 /\ (searchEnd = false -> d2 = []) /\
      (if isRaw then run_raw s d1 else run_plain s d1) = (o, s1) /\
      (searchEnd = true -> no_marker_in (zlen d1) (d ++ look)) /\
      K B (src + zlen d) (zlen d) dest (esc_flag s) (dot_next s (d ++ look)) m =
        Ok ((zlen d1, dest + zlen o, esc_flag s1, dot_next s1 (d2 ++ look)), m') /\
      bytes_at m' dest o /\
      (forall q, ~ (dest <= q < dest + zlen d1) -> m' q = m q).

(** The same only for entry states [s] and texts [d] of which [P] holds. *)
Definition kernel_ok_on (P : dstate -> list byte -> Prop) (isRaw searchEnd : bool) (width : Z) (K : kernel) : Prop :=
  forall B src dest d look s m, P s d ->
    bytes_at m src (d ++ look) ->
    0 < zlen d -> zlen d mod width = 0 -> src mod width = 0 ->
    lookahead isRaw searchEnd <= zlen look ->
    rlo B <= src -> src + zlen d + zlen look <= rhi B ->
    wlo B <= dest -> dest + zlen d <= whi B ->
    dest <= src \/ src + zlen d + zlen look <= dest ->
    entry_state isRaw s (d ++ look) ->
    exists d1 d2 o s1 m',
      d = d1 ++ d2 /\ (searchEnd = false -> d2 = []) /\
      (if isRaw then run_raw s d1 else run_plain s d1) = (o, s1) /\
      (searchEnd = true -> no_marker_in (zlen d1) (d ++ look)) /\
      K B (src + zlen d) (zlen d) dest (esc_flag s) (dot_next s (d ++ look)) m =
        Ok ((zlen d1, dest + zlen o, esc_flag s1, dot_next s1 (d2 ++ look)), m') /\
      bytes_at m' dest o /\
      (forall q, ~ (dest <= q < dest + zlen d1) -> m' q = m q).

(** In the text [l], no '=' is followed by a character an encoder never writes there. *)
Definition valid_escapes (l : list byte) : Prop :=
  forall a c b, l = a ++ EQS :: c :: b -> c <> EQS /\ c <> CR /\ c <> LF.

Definition marker_in (n : Z) (l : list byte) : Prop :=
  exists a b, l = a ++ b /\ zlen a < n /\ marker_at b.

(** A kernel that leaves characters to the scalar code only from a block on in which
    a marker starts. *)
Definition stops_at_marker (isRaw searchEnd : bool) (width : Z) (K : kernel) : Prop :=
  forall B src dest d look s m,
    bytes_at m src (d ++ look) ->
    0 < zlen d -> zlen d mod width = 0 -> src mod width = 0 ->
    lookahead isRaw searchEnd <= zlen look ->
    rlo B <= src -> src + zlen d + zlen look <= rhi B ->
    wlo B <= dest -> dest + zlen d <= whi B ->
    dest <= src \/ src + zlen d + zlen look <= dest ->
    entry_state isRaw s (d ++ look) ->
    exists n p e x m',
      K B (src + zlen d) (zlen d) dest (esc_flag s) (dot_next s (d ++ look)) m = Ok ((n, p, e, x), m') /\
      (n = zlen d \/ marker_in width (skipn (Z.to_nat n) (d ++ look))).
