(** C85: what the front-end of the SIMD decoders recognises at the start of a chunk does not depend on the
    byte order of the host. *)
From Verif Require Import Base BaseLemmas DecSpec DecModel DecNode DecProofs DecSimdModel DecNeonModel EndianModel DecEndianModel DecEndianProofs.
Open Scope Z_scope.

(** On little-endian hosts it is the decoder of all other properties. *)
Theorem c85_little : forall K isRaw searchEnd width B src dest len state m,
  o_decode_simd Little K isRaw searchEnd width B src dest len state m = do_decode_simd K isRaw searchEnd width B src dest len state m.
Proof. intros. apply decode_same. intros. apply is24_little. Qed.
Print Assumptions c85_little.

(** On big-endian hosts too, for every kernel, if the end is not searched for, or if the source is aligned
    and it is not the case that the last character was CR and the next are LF, '=' and 'y'.
    Missing: that case (the mask 0xffffff removes the LF from a big-endian word, not the fourth byte);
    for sources that are not aligned see below. *)
Theorem c85_big_partial : forall K isRaw searchEnd width B src dest len state m,
  searchEnd = false \/
  (Z.land src (width - 1) = 0 /\ ~ (state = Some S_CR /\ m src = x0a /\ m (src + 1) = x3d /\ m (src + 2) = x79)) ->
  o_decode_simd Big K isRaw searchEnd width B src dest len state m = do_decode_simd K isRaw searchEnd width B src dest len state m.
Proof.
  intros K r e w B src dest len st m [->|[Ha N]]; [apply decode_same; discriminate|].
  apply decode_aligned_same; [exact Ha|]. intros E _. apply is24_no. intros (E0 & E1 & E2). apply N. auto.
Qed.
Print Assumptions c85_big_partial.

(** Wherever the source is: the same if LF, '=' and 'y' are not at the first aligned address.  The hypotheses
    on B are that the source is readable and the destination writable, and that no output overtakes the
    input. *)
Theorem c85_big_anywhere_partial : forall K B n src dest data s m, 1 <= n ->
  rlo B <= src -> src + zlen data <= rhi B -> wlo B <= dest -> dest + zlen data <= whi B -> (dest <= src \/ src + zlen data <= dest) ->
  bytes_at m src data ->
  ~ (exists t u, data = t ++ [x0a; x3d; x79] ++ u /\ zlen t < 2 ^ n /\ (src + zlen t) mod 2 ^ n = 0) ->
  o_decode_simd Big K true true (2 ^ n) B src dest (zlen data) (Some s) m = do_decode_simd K true true (2 ^ n) B src dest (zlen data) (Some s) m.
Proof. intros. apply decode_anywhere; auto. constructor; auto. Qed.
Print Assumptions c85_big_anywhere_partial.

(** In that case the kernel is called as if nothing had been found, though the control line starts here. *)
Theorem c85_big_each_refuted : forall isRaw B src m t, rlo B <= src -> src + 4 <= rhi B -> bytes_at m src ([x0a; x3d; x79] ++ t) ->
  o_switch Big isRaw true B src S_CR m = Ok (inr 0, m) /\
  run_end S_CR ([x0a; x3d; x79] ++ t) = ([], S_NONE, E_CONTROL, t).
Proof.
  intros r B src m t H1 H2 (E0 & E1 & E2 & _). split; [|reflexivity].
  apply switch_missed; auto. replace (src + 2) with (src + 1 + 1) by lia. exact E2.
Qed.
Print Assumptions c85_big_each_refuted.

(** With the kernel of the NEON decoder for ARMv8, taken as on little-endian hosts: the control line is
    decoded as data, and decoding goes on to the end. *)
Definition db : bufs := {| rlo := 0; rhi := 140; wlo := 200; whi := 400 |}.
Definition dn : neond := {| n_a64 := true; n_gcc := true; n_line := true |}.
Definition dtext : list byte := [x0a; x3d; x79; x65; x6e; x64] ++ repeat x2a 134.
Definition drun (o : order) : out (dend * Z * Z * option dstate * list byte) :=
  match o_decode_simd o (do_decode_neon dn true true) true true 64 db 0 200 140 (Some S_CR) (mem_of 0 dtext) with
  | Ok ((e, s, d, st), m) => Ok (e, s, d, st, read_n m 200 (Z.to_nat (d - 200)))
  | UB => UB | NoFuel => NoFuel
  end.
Theorem c85_big_refuted :
  drun Little = Ok (E_CONTROL, 3, 200, Some S_NONE, []) /\
  drun Big = Ok (E_NONE, 140, 338, Some S_NONE, [x0f; x3b; x44; x3a] ++ repeat x00 134).
Proof. split; vm_compute; reflexivity. Qed.
Print Assumptions c85_big_refuted.

(** ** Examples *)
Example c85_missed_ex : rlo db <= 0 /\ 0 + 4 <= rhi db /\ bytes_at (mem_of 0 dtext) 0 ([x0a; x3d; x79] ++ skipn 3 dtext).
Proof. split; [cbn; lia|]. split; [cbn; lia|]. apply (bytes_at_mem_of 0 dtext). Qed.
(** After CR LF, and after CR with a stuffed dot, control lines are found on both. *)
Example c85_found_ex : forall o,
  o_switch o true true db 0 S_CRLF (mem_of 0 [x3d; x79; x65; x6e]) = Ok (inl (E_CONTROL, 2, S_NONE), mem_of 0 [x3d; x79; x65; x6e]) /\
  o_switch o true true db 0 S_CR (mem_of 0 [x0a; x2e; x3d; x79]) = Ok (inl (E_CONTROL, 4, S_NONE), mem_of 0 [x0a; x2e; x3d; x79]).
Proof. intros []; split; reflexivity. Qed.
Example c85_partial_ex : Z.land 128 (64 - 1) = 0 /\ ~ (Some S_CRLF = Some S_CR /\ x0a = x0a /\ x3d = x3d /\ x79 = x79).
Proof. split; [reflexivity|]. intros [E _]. discriminate E. Qed.
(** The three bytes may be in the text, at other places. *)
Example c85_anywhere_ex : let data := repeat x2a 10 ++ [x0d; x0a; x3d; x79] ++ repeat x2a 116 in
  5 + zlen data <= 140 /\ ~ (exists t u, data = t ++ [x0a; x3d; x79] ++ u /\ zlen t < 2 ^ 6 /\ (5 + zlen t) mod 2 ^ 6 = 0).
Proof.
  cbv zeta. split; [vm_compute; discriminate|]. intros (t & u & E & L & M).
  assert (Z : zlen t = 59). { pose proof (zlen_nonneg t). pose proof (Z.div_mod (5 + zlen t) (2 ^ 6) ltac:(lia)). lia. }
  assert (K : nth_error (t ++ [x0a; x3d; x79] ++ u) 59 = Some x0a).
  { rewrite nth_error_app2 by (unfold zlen in Z; lia). replace (59 - length t)%nat with 0%nat by (unfold zlen in Z; lia). reflexivity. }
  rewrite <- E in K. discriminate K.
Qed.
