(** Properties of the RVV decoder for vectors of any length and any text: where it reads
    and writes, and whether it comes to an end. *)
From Verif Require Import Base BaseLemmas EncSpec EncNode EncNodeSpec DecSpec DecModel DecProofs DecNode DecNodeSpec PropsDecLemmas
  DecSimdModel DecSimdMain DecVec DecRvvModel DecRvvMain DecRvvEndless DecSafe DecRvvSafe PropsSimd PropsSimdRvv.

(** C17 for every length and every content of the elements left open: unless it runs for
    ever, the decoder stays within its buffers, also where it decodes wrongly (C61). *)
Theorem c17_rvv_memory_safe : forall rv raw searchEnd, (searchEnd = true -> raw = true) ->
  forall src dest len state m, 0 <= len -> (searchEnd = true -> state <> None) -> dec_layout src len dest ->
  let run := do_decode_simd (do_decode_rvv rv raw searchEnd) raw searchEnd (Z.of_nat (dvl rv))
    {| rlo := src; rhi := src + len; wlo := dest; whi := dest + len |} src dest len state m in
  run = NoFuel \/ exists e' src' dest' state' m',
    run = Ok ((e', src', dest', state'), m') /\
    src <= src' <= src + len /\ dest <= dest' <= dest + (src' - src) /\
    (forall q, ~ (dest <= q < dest + len) -> m' q = m q).
Proof.
  intros rv r e Hre src dest len state m Hl Hs Hd run. pose proof (rvv_safe rv r e Hre src dest len state m Hl Hs Hd) as X.
  unfold may in X. fold run in X. destruct run as [[[[[e' s'] d'] st] m']| |]; [|contradiction X|left; reflexivity].
  right. exists e', s', d', st, m'. split; [reflexivity|exact X].
Qed.
Print Assumptions c17_rvv_memory_safe.

(** 512 bits, decoded wrongly; in place. *)
Example c17_rvv_safe_ex : let text := repeat x2a 70 ++ [EQS; EQS] ++ repeat x2a 228 in
  dec_layout 0 300 0 /\ zlen (decode_text text) = 299 /\ exists m', do_decode_simd (do_decode_rvv (rvd_ex 2) false false) false false 128
  {| rlo := 0; rhi := 300; wlo := 0; whi := 300 |} 0 0 300 None (mem_of 0 text) = Ok ((E_NONE, 300, 298, None), m').
Proof. split; [unfold dec_layout; lia|]. split; [reflexivity|]. eexists. vm_compute. reflexivity. Qed.

(** C68: with vectors of 2048 bits and more there is a text for which the decoder does not
    come to an end, whatever number of rounds of the loop over carries is allowed and
    whatever the elements left open hold; it has to start one character before an address
    that is a multiple of the vector length. *)
Theorem c68_rvv_ends_refuted : forall k, (4 <= k)%nat -> exists data, forall rv malloc src m,
  d_log rv = k -> src mod Z.of_nat (dvl rv) = Z.of_nat (dvl rv) - 1 ->
  bytes_at m src data -> fresh_malloc malloc src (zlen data) ->
  node_decode (rvv_decoders rv) malloc src (zlen data) false m = NoFuel.
Proof.
  intros k Hk. exists (hang_text k). intros rv malloc src m <- Ha Hm Hf.
  assert (L : 0 < zlen (hang_text (d_log rv))) by (unfold zlen, hang_text; rewrite app_length, repeat_length; lia).
  unfold node_decode. replace (_ =? 0) with false by lia. cbv zeta. unfold decode, bind. rewrite rvv_simd. cbn [dec_plain simd].
  rewrite decoder_endless; [reflexivity|exact Hk|exact Ha|exact Hm|].
  specialize (Hf (zlen (hang_text (d_log rv))) ltac:(lia)). unfold apart in Hf. constructor; cbn [rlo rhi wlo whi]; lia.
Qed.
Print Assumptions c68_rvv_ends_refuted.

(** 2048 bits: the scalar decoder gives 991 characters for the text. *)
Example c68_refuted_ex : let m := mem_of 511 (hang_text 4) in
  bytes_at m 511 (hang_text 4) /\ 511 mod Z.of_nat (dvl (rvd_ex 4)) = Z.of_nat (dvl (rvd_ex 4)) - 1 /\
  fresh_malloc (fun _ => 5000) 511 (zlen (hang_text 4)) /\
  node_decode (rvv_decoders (rvd_ex 4)) (fun _ => 5000) 511 (zlen (hang_text 4)) false m = NoFuel /\
  exists o, node_decode scalar (fun _ => 5000) 511 (zlen (hang_text 4)) false m = Ok o /\ zlen o = 991.
Proof.
  split; [apply bytes_at_mem_of|]. split; [reflexivity|]. split; [intros n Hn; left; vm_compute; discriminate|].
  split; [vm_compute; reflexivity|]. eexists. split; vm_compute; reflexivity.
Qed.

(** It does come to an end with vectors of up to 256 bits, and with 512 and 1024 bits if the
    carries that are never written happen to be zeros.  Missing: other contents of these. *)
Theorem c68_rvv_ends_partial : forall rv raw searchEnd, (searchEnd = true -> raw = true) ->
  (d_log rv <= 1)%nat \/ ((d_log rv <= 3)%nat /\ forall i, d_carry rv i = false) ->
  forall src dest len state m, 0 <= len -> (searchEnd = true -> state <> None) -> dec_layout src len dest ->
  exists x m', do_decode_simd (do_decode_rvv rv raw searchEnd) raw searchEnd (Z.of_nat (dvl rv))
    {| rlo := src; rhi := src + len; wlo := dest; whi := dest + len |} src dest len state m = Ok (x, m').
Proof.
  intros rv r e Hre Hk src dest len state m Hl Hs Hd. pose proof (rvv_safe rv r e Hre src dest len state m Hl Hs Hd) as X.
  unfold may in X. destruct (do_decode_simd _ _ _ _ _ _ _ _ _ m) as [[x m']| |]; [exists x, m'; reflexivity|contradiction X|].
  destruct Hk as [Hk|[Hk Hc]]; [destruct (tiny_ends rv Hk X)|destruct (short_ends rv Hk Hc X)].
Qed.
Print Assumptions c68_rvv_ends_partial.

(** The condition on the carries is needed: with one of them set it does not. *)
Example c68_ends_ex :
  let rv c := {| d_log := 2; d_tail := fun _ => xff; d_pad := fun _ _ => false; d_odd := fun _ => 0%N; d_carry := fun _ => c; d_rounds := 1000 |} in
  let run c := do_decode_simd (do_decode_rvv (rv c) false false) false false 128
    {| rlo := 7; rhi := 307; wlo := 7; whi := 307 |} 7 7 300 None (mem_of 7 (repeat x2a 170 ++ [EQS; EQS] ++ repeat x2a 128)) in
  run true = NoFuel /\ exists m', run false = Ok ((E_NONE, 307, 306, None), m').
Proof. split; [vm_compute; reflexivity|]. eexists. vm_compute. reflexivity. Qed.
