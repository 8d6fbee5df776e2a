(** Properties of the RVV decoder for vectors of any length: what it decodes right, and
    for which lengths it decodes everything right. *)
From Verif Require Import Base BaseLemmas EncModel EncSpec EncNode EncNodeSpec EncNodeProofs DecSpec DecModel DecNode DecNodeSpec DecNodeProofs PropsDecLemmas
  DecSimdModel DecSimdSpec DecSimdMain DecKernel DecValid DecRvvModel DecRvvMain DecRvvValid DecRvvExact PropsSimd PropsSimdRvv.

(** C67: for every length and every content of the elements left open the contract,
    for texts in which no '=' precedes '=', CR or LF.  An encoder writes no others. *)
Theorem c67_rvv_valid_text : forall rv isRaw searchEnd, (searchEnd = true -> isRaw = true) ->
  kernel_ok_on (fun s d => valid_escapes (state_text s ++ d)) isRaw searchEnd (2 ^ rv_log rv) (do_decode_rvv rv isRaw searchEnd).
Proof. exact rvv_valid_kernel. Qed.
Print Assumptions c67_rvv_valid_text.

(** 512 and 2048 bits. *)
Example c67_valid_ex :
  let text := [x2a; CR; LF; DOT] ++ repeat x2b 123 ++ [EQS; x6a; CR; LF; DOT; DOT; x2a] ++ repeat x2a 896 ++ [CR; LF] in
  let run k := match do_decode_rvv (rvd_ex k) true true {| rlo := 0; rhi := 1030; wlo := 1030; whi := 2060 |} 512 512 1030 0 0 (mem_of 0 text) with
               | Ok (r, m) => Some (r, read_n m 1152 5) | _ => None end in
  run 2%nat = Some ((512, 1535, 0, 0), [x01; x01; x00; x04; x00]) /\ run 4%nat = run 2%nat /\ valid_escapes text.
Proof. split; [|split; [|apply vb_spec]]; vm_compute; reflexivity. Qed.

(** C61: all texts are decoded right exactly for vectors of up to 256 bits: with longer ones
    every way of filling the elements left open makes some text decode wrongly. *)
Theorem c61_rvv_exact : forall rv,
  (forall isRaw searchEnd, (searchEnd = true -> isRaw = true) ->
    kernel_ok isRaw searchEnd (Z.of_nat (dvl rv)) (do_decode_rvv rv isRaw searchEnd)) <-> (d_log rv <= 1)%nat.
Proof.
  intro rv. split.
  - intro H. destruct (Nat.le_gt_cases (d_log rv) 1) as [L|L]; [exact L|]. exfalso.
    apply (rvv_wrong rv L). apply H. discriminate.
  - intros L r e H. rewrite dvl_pow. apply c61_rvv_kernels_partial; assumption.
Qed.
Print Assumptions c61_rvv_exact.

(** Three texts of 128 characters; which of them decode right depends on the elements
    left open, but it is never all of them. *)
Example c61_exact_ex :
  let rv g := {| d_log := 2; d_tail := fun _ => xff; d_pad := fun _ _ => false; d_odd := fun _ => g; d_carry := fun _ => false; d_rounds := 1000 |} in
  let good g t := match do_decode_rvv (rv g) false false {| rlo := 0; rhi := 128; wlo := 128; whi := 256 |} 128 128 128 0 0 (mem_of 0 t) with
                  | Ok ((_, p, _, _), _) => p - 128 =? zlen (fst (run_plain S_NONE t)) | _ => false end in
  let t a := repeat x2a 64 ++ a ++ repeat x2a 60 in
  let all g := map (fun a => good g (t a)) [[EQS; EQS; x2a; x2a]; [x2a; EQS; EQS; x2a]; [EQS; EQS; EQS; x2a]] in
  all 0%N = [true; false; true] /\ all (2 ^ 64 - 1)%N = [false; true; true] /\ all 1%N = [false; false; false] /\ all 2%N = [true; true; false].
Proof. vm_compute. repeat split; reflexivity. Qed.

(** C22 and C23 for every length, on these texts; here the raw decoder has no exception. *)
Theorem c67_rvv_decode_valid : forall rv data isRaw, valid_escapes data -> exists o,
  decode_returns scalar data isRaw o /\ decodeTo_returns scalar data isRaw o /\
  decode_returns (rvv_decoders rv) data isRaw o /\ decodeTo_returns (rvv_decoders rv) data isRaw o.
Proof.
  intros rv data isRaw Hv. exists (reference isRaw data).
  split; [apply (decode_spec scalar scalar_meets)|]. split; [apply (decodeTo_spec scalar scalar_meets)|].
  split; [apply returns_guarded, decode_spec, rvv_guarded|apply returnsTo_guarded, decodeTo_spec, rvv_guarded]; exact Hv.
Qed.
Print Assumptions c67_rvv_decode_valid.

Example c67_decode_ex : let text := repeat x2b 170 ++ [EQS; x6a; CR; LF; DOT; DOT] ++ repeat x2a 124 in
  valid_escapes text /\ node_decode (rvv_decoders (rvd_ex 2)) (fun _ => 1000) 7 300 true (mem_of 7 text) = Ok (repeat x01 170 ++ [x00; x04] ++ repeat x00 124).
Proof. split; [apply vb_spec|]; vm_compute; reflexivity. Qed.

(** C24 likewise. *)
Theorem c67_rvv_chunk_valid : forall rv data prev, is_state prev -> valid_escapes (prev ++ data) ->
  exists r, decodeChunk_returns scalar data prev r /\ decodeChunk_returns (rvv_decoders rv) data prev r.
Proof.
  intros rv data prev [s ->] Hv. exists (chunk_of data (run_end s data)). split; [apply (decodeChunk_spec scalar scalar_meets)|].
  apply chunk_guarded; [exists s; reflexivity|exact Hv|apply decodeChunk_spec, rvv_guarded].
Qed.
Print Assumptions c67_rvv_chunk_valid.

Example c67_chunk_ex : valid_escapes ([CR; LF; EQS] ++ (x6a :: repeat x2a 250 ++ [CR; LF; DOT; CR; LF])) /\ exists r m',
  js_decodeChunk (rvv_decoders (rvd_ex 2)) (fun _ => 1000) 3 256 JUndef (JStr [CR; LF; EQS])
    (mem_of 3 (x6a :: repeat x2a 250 ++ [CR; LF; DOT; CR; LF])) = Returns (Ok (r, m')) /\
  c_output r = repeat x00 251 /\ c_read r = 256 /\ c_ended r = true.
Proof. split; [apply vb_spec; vm_compute; reflexivity|]. eexists _, _. split; [vm_compute; reflexivity|]. repeat split. Qed.

(** C01, C02 and C03 with this decoder: whatever is encoded is decoded again, with
    stuffed dots or without, in one piece or in many. *)
Theorem c67_rvv_roundtrip_plain : forall rv data args L col,
  data <> [] -> args_give args L col -> in_range L col data ->
  exists o, encode_returns do_encode_generic data args o /\ decode_returns (rvv_decoders rv) o false data.
Proof. exact rvv_roundtrip_plain. Qed.
Print Assumptions c67_rvv_roundtrip_plain.

Theorem c67_rvv_roundtrip_raw : forall rv data args L,
  data <> [] -> args_give args L 0 -> in_range L 0 data ->
  exists o, encode_returns do_encode_generic data args o /\
    decode_returns (rvv_decoders rv) o true data /\ decode_returns (rvv_decoders rv) (stuff true o) true data.
Proof. exact rvv_roundtrip_raw. Qed.
Print Assumptions c67_rvv_roundtrip_raw.

Theorem c67_rvv_roundtrip_chunks : forall rv data args L chunks,
  data <> [] -> args_give args L 0 -> in_range L 0 data -> Forall small chunks ->
  forall o, encode_returns do_encode_generic data args o -> concat chunks = o ->
  exists st, chunk_chain (rvv_decoders rv) [CR; LF] chunks data (zlen o) false st.
Proof. intro rv. exact (chunks_valid _ (rvv_guarded rv)). Qed.
Print Assumptions c67_rvv_roundtrip_chunks.

Example c67_roundtrip_ex : exists o, encode_returns do_encode_generic (repeat x13 300) [128] o /\
  decode_returns (rvv_decoders (rvd_ex 3)) o true (repeat x13 300) /\ decode_returns (rvv_decoders (rvd_ex 3)) (stuff true o) true (repeat x13 300).
Proof. apply (c67_rvv_roundtrip_raw _ _ _ 128); [discriminate|reflexivity|]. split; vm_compute; [reflexivity|left; discriminate]. Qed.
