(** C83, C84: the text of the portable encoder and the value of the portable CRC do not depend on the byte
    order of the host. *)
From Verif Require Import Base BaseLemmas EncModel EncSpec EncNode EncNodeSpec DecSpec CrcSpec CrcModel CrcNodeSpec CrcNodeProofs
  EndianModel EndianSpec EndianProofs EndianExact EndianDecode CrcEndianModel CrcEndianProofs.
Open Scope Z_scope.

(** On little-endian hosts the text is right. *)
Theorem c83_little : forall B L fin col src dest data m,
  rlo B = src -> rhi B = src + zlen data -> wlo B = dest -> (rhi B <= wlo B \/ whi B <= rlo B) ->
  data <> [] -> bytes_at m src data -> 1 <= L <= INT_MAX -> 0 <= col < L -> in_range L col data ->
  dest + zlen (yenc L fin col data) + 32 <= whi B ->
  exists m', o_encode_generic Little B L col src dest (zlen data) fin m = Ok ((zlen (yenc L fin col data), ret_col L fin col data), m') /\
    bytes_at m' dest (yenc L fin col data).
Proof. exact little_text. Qed.
Print Assumptions c83_little.

(** On big-endian hosts it has the right length, and the column is right, but line feeds may have become
    vertical tabs: (uint32_t)(c+42) in UINT32_PACK is not cut to 8 bits, so its bit 8 gets into the line
    feed.  Missing: the text is right only if no character of the data (at the start of a line) is one
    whose sum with 42 is 256 or more and which is not escaped. *)
Theorem c83_big_partial : forall B L fin col src dest data m,
  rlo B = src -> rhi B = src + zlen data -> wlo B = dest -> (rhi B <= wlo B \/ whi B <= rlo B) ->
  data <> [] -> bytes_at m src data -> 1 <= L <= INT_MAX -> 0 <= col < L -> in_range L col data ->
  dest + zlen (yenc L fin col data) + 32 <= whi B ->
  exists m' t, o_encode_generic Big B L col src dest (zlen data) fin m = Ok ((zlen (yenc L fin col data), ret_col L fin col data), m') /\
    bytes_at m' dest t /\ Forall2 (fun x y => x = y \/ (x = x0a /\ y = x0b)) (yenc L fin col data) t /\
    ((forall c, In c data -> ~ first_plain c) -> t = yenc L fin col data).
Proof. exact big_text. Qed.
Print Assumptions c83_big_partial.

(** What it is instead, exactly: each line feed that is followed by a byte below 42 is a vertical tab. *)
Theorem c83_big_exact : forall B L fin col src dest data m,
  rlo B = src -> rhi B = src + zlen data -> wlo B = dest -> (rhi B <= wlo B \/ whi B <= rlo B) ->
  data <> [] -> bytes_at m src data -> 1 <= L <= INT_MAX -> 0 <= col < L -> in_range L col data ->
  dest + zlen (yenc L fin col data) + 32 <= whi B ->
  exists m', o_encode_generic Big B L col src dest (zlen data) fin m = Ok ((zlen (yenc L fin col data), ret_col L fin col data), m') /\
    bytes_at m' dest (with_vt (yenc L fin col data)).
Proof. exact big_exact. Qed.
Print Assumptions c83_big_exact.

(** Decoding that gives one byte more for each of these line feeds, so the file is right only if there are none. *)
Theorem c83_big_decodes : forall B L fin col src dest data m,
  rlo B = src -> rhi B = src + zlen data -> wlo B = dest -> (rhi B <= wlo B \/ whi B <= rlo B) ->
  data <> [] -> bytes_at m src data -> 1 <= L <= INT_MAX -> 0 <= col < L -> in_range L col data ->
  dest + zlen (yenc L fin col data) + 32 <= whi B ->
  exists m' t, o_encode_generic Big B L col src dest (zlen data) fin m = Ok ((zlen t, ret_col L fin col data), m') /\
    bytes_at m' dest t /\ zlen (decode_text t) = zlen data + lost_lf (yenc L fin col data) /\
    (decode_text t = data <-> lost_lf (yenc L fin col data) = 0).
Proof. exact big_decodes. Qed.
Print Assumptions c83_big_decodes.

(** Each of these characters breaks the line break in front of it. *)
Definition eB (n : Z) : bufs := {| rlo := 100; rhi := 100 + n; wlo := 200; whi := 300 |}.
Theorem c83_big_each_refuted : forall c, first_plain c ->
  exists m', o_encode_generic Big (eB 3) 2 0 100 200 3 true (mem_of 100 [x41; x42; c]) = Ok ((zlen (yenc 2 true 0 [x41; x42; c]), 1), m') /\
    read_n m' 200 5 = [x6b; x6c; x0d; x0b; u8 (bz c + 42)] /\ yenc 2 true 0 [x41; x42; c] = [x6b; x6c; x0d; x0a; u8 (bz c + 42)].
Proof.
  intros c H. apply wraps_spec in H. destruct c; try discriminate H; eexists; (split; [vm_compute; reflexivity|]; split; vm_compute; reflexivity).
Qed.
Print Assumptions c83_big_each_refuted.

(** Then decoding gives another file: one byte more. *)
Theorem c83_big_refuted : exists data m m' t, bytes_at m 100 data /\
  o_encode_generic Big (eB (zlen data)) 8 0 100 200 (zlen data) true m = Ok ((zlen t, 3), m') /\ bytes_at m' 200 t /\
  t <> yenc 8 true 0 data /\ decode_text (yenc 8 true 0 data) = data /\
  decode_text t <> data /\ zlen (decode_text t) = zlen data + 1.
Proof.
  set (d := [x00; x01; x02; x03; x04; x05; x06; x07; xff; xfe; xfd]).
  exists d, (mem_of 100 d). eexists. exists [x2a; x2b; x2c; x2d; x2e; x2f; x30; x31; x0d; x0b; x29; x28; x27].
  split; [apply bytes_at_mem_of|]. split; [vm_compute; reflexivity|].
  split; [vm_compute; repeat split|]. split; [vm_compute; discriminate|]. split; [vm_compute; reflexivity|].
  split; [vm_compute; discriminate|vm_compute; reflexivity].
Qed.
Print Assumptions c83_big_refuted.

(** C84: the value is CRC-32 on both, also continuing from another. *)
Theorem c84_crc32 : forall o data, crc32_returns (o_crc32_generic o generate_crc32_slice_table) data None (be32 (crc32_spec 0 data)).
Proof. intro o. exact (js_crc _ (o_crc_ok o)). Qed.
Print Assumptions c84_crc32.
Theorem c84_crc32_continues : forall o data c, word c ->
  crc32_returns (o_crc32_generic o generate_crc32_slice_table) data (Some (be32 c)) (be32 (crc32_spec c data)).
Proof. intros. apply (js_crc_init _ (o_crc_ok o)); auto. Qed.
Print Assumptions c84_crc32_continues.

(** ** Examples *)

(** Long enough for the loop over words, from an odd address. *)
Example c84_ex : let data := map u8 (map Z.of_nat (seq 0 40)) in
  forall o, node_crc32 (o_crc32_generic o generate_crc32_slice_table) 101 40 None (mem_of 101 data) = JReturns (be32 (crc32_spec 0 data)).
Proof. cbv zeta. intros []; vm_compute; reflexivity. Qed.
Example c84_continues_ex : word 0xCBF43926%N.
Proof. vm_compute. reflexivity. Qed.

(** The hypotheses, with a character that is escaped at the start of a line and none of the others. *)
Example c83_hyps_ex : let data := [x41; x42; x43; xd6; x04] in
  data <> [] /\ bytes_at (mem_of 100 data) 100 data /\ in_range 3 0 data /\ 200 + zlen (yenc 3 true 0 data) + 32 <= whi (eB 5) /\
  (forall c, In c data -> ~ first_plain c).
Proof.
  cbv zeta. split; [discriminate|]. split; [apply bytes_at_mem_of|]. split; [unfold in_range, INT_MAX; cbn; lia|]. split; [vm_compute; discriminate|].
  intros c Hc [F N]. cbn in Hc, N. destruct Hc as [<-|[<-|[<-|[<-|[<-|[]]]]]]; cbn in F, N; lia.
Qed.
Example c83_big_ex : let data := [x41; x42; x43; xd6; x04] in
  match o_encode_generic Big (eB 5) 3 0 100 200 5 true (mem_of 100 data) with
  | Ok ((n, c), m') => n = 8 /\ c = 2 /\ read_n m' 200 8 = [x6b; x6c; x6d; x0d; x0a; x3d; x40; x2e]
  | _ => False end.
Proof. vm_compute. auto. Qed.
Example c83_first_plain_ex : first_plain xff /\ first_plain xd7 /\ ~ first_plain xd6 /\ ~ first_plain x2e.
Proof. unfold first_plain. cbn. lia. Qed.

(** Three line breaks: in front of 0xff (encoded as 0x29), of 0x00 (0x2a) and of 0xd6 (escaped). *)
Example c83_with_vt_ex : let t := yenc 1 true 0 [x41; xff; x00; xd6] in
  t = [x6b; x0d; x0a; x29; x0d; x0a; x2a; x0d; x0a; x3d; x40] /\
  with_vt t = [x6b; x0d; x0b; x29; x0d; x0a; x2a; x0d; x0a; x3d; x40].
Proof. vm_compute. auto. Qed.
Example c83_big_exact_ex : let data := [x41; xff; x00; xd6] in in_range 1 0 data /\ 200 + zlen (yenc 1 true 0 data) + 32 <= whi (eB 4) /\
  match o_encode_generic Big (eB 4) 1 0 100 200 4 true (mem_of 100 data) with
  | Ok ((n, _), m') => n = 11 /\ read_n m' 200 11 = with_vt (yenc 1 true 0 data)
  | _ => False end.
Proof. cbv zeta. split; [unfold in_range, INT_MAX; cbn; lia|]. split; [vm_compute; discriminate|]. vm_compute. auto. Qed.
(** One of the three line feeds is lost. *)
Example c83_big_decodes_ex : let t := yenc 1 true 0 [x41; xff; x00; xd6] in
  lost_lf t = 1 /\ decode_text (with_vt t) = [x41; xe1; xff; x00; xd6] /\ lost_lf (yenc 1 true 0 [x41; x00; xd6]) = 0.
Proof. vm_compute. auto. Qed.
