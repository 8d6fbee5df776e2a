(** The module does the same whichever implementations it is put together from. *)
From Verif Require Import Base BaseLemmas EncNode EncModel EncSpec EncNodeSpec DecSpec DecNode DecSseModel CrcSpec CrcModel CrcNodeSpec
  JsBase JsModel JsSpec JsBuilds JsSame PropsJsLemmas.
From Coq Require Strings.String.
Import String.StringSyntax.
Open Scope Z_scope.

(** C60: any two builds, with Buffers anywhere, return the same for every Buffer:
    encode, decode, crc32, crc32_combine, the articles of a post, and from_post.
    Missing, because false: with dot-unstuffing, texts ending in "=\r\n" (C23). *)
Theorem c60_same_for_all_builds_partial : forall Y Y', a_build Y -> a_build Y' ->
  (forall data L, line_ok L data -> exists o, y_encode Y data [L] = Val o /\ y_encode Y' data [L] = Val o) /\
  (forall text isRaw, (isRaw = true -> ~ ends_with [EQS; CR; LF] text) ->
     exists o, y_decode Y text isRaw = Val o /\ y_decode Y' text isRaw = Val o) /\
  (forall data, zlen data < 2 ^ 63 -> exists c, y_crc32 Y data = Val c /\ y_crc32 Y' data = Val c /\
     forall a, exists r,
       y_crc32_combine Y (be32 (crc32_spec 0 a)) c (zlen data) = Val r /\
       y_crc32_combine Y' (be32 (crc32_spec 0 a)) c (zlen data) = Val r) /\
  (forall filename size parts line_size ds os E, 0 <= size -> 1 < parts ->
     Forall (fun d => line_ok (if line_size =? 0 then 128 else line_size) d /\ zlen d < 2 ^ 63) ds ->
     feeds Y (multi_post filename size parts line_size) ds os E ->
     feeds Y' (multi_post filename size parts line_size) ds os E) /\
  (forall filename line_size data o E, line_ok (if line_size =? 0 then 128 else line_size) data -> zlen data < 2 ^ 63 ->
     call_encode Y (multi_post filename (zlen data) 1 line_size) data = (Val o, E) ->
     call_encode Y' (multi_post filename (zlen data) 1 line_size) data = (Val o, E)) /\
  (forall A data isRaw, zlen data < 2 ^ 63 ->
     (isRaw = true -> ~ occurs ([EQS; CR; LF; CR; LF] ++ Bf "=yend ") data) ->
     exists r, from_post Y A data isRaw = Val r /\ from_post Y' A data isRaw = Val r).
Proof.
  intros Y Y' B B'. pose proof (build_works Y B) as W. pose proof (build_works Y' B') as W'. repeat apply conj.
  - intros data L HL. eexists. split; apply w_encode; assumption.
  - intros text [|] H; eexists; split; try (apply w_decode; assumption); apply w_decode_raw; auto.
  - intros data Hd. eexists. split; [apply w_crc; assumption|]. split; [apply w_crc; assumption|]. intro a.
    eexists. split; apply w_combine; assumption.
  - intros filename size parts line_size ds os E Hs Hp. apply multi_same; assumption.
  - intros filename line_size data o E. apply single_same; assumption.
  - intros A data isRaw Hz Hr. destruct (from_post_total Y A data isRaw W Hz) as [r H]. exists r. split; [exact H|].
    rewrite <- H. symmetry. apply builds_same; assumption.
Qed.
Print Assumptions c60_same_for_all_builds_partial.

Lemma Y0_build : a_build Y0.
Proof. split; [exact Y0_placed|apply enc_generic|apply dec_scalar|apply crc_generic|apply shift_generic]. Qed.
Lemma Y1_build : a_build Y1.
Proof. split; [exact Y1_placed|apply enc_avx2|apply dec_avx2|apply crc_clmul256; lia|apply shift_clmul]. Qed.

Definition c60_post (text : list byte) : list byte :=
  Bf "=ybegin line=128 size=128 name=a" ++ [CR; LF] ++ text ++ [CR; LF] ++ Bf "=yend size=128" ++ [CR; LF].

Example c60_ex : a_build Y0 /\ a_build Y1 /\
  let data := c60_post (Bf ".." ++ repeat x2a 127) in
  match from_post Y1 int_numbers data true with
  | Val (inr p) => p_data p = Some ([x04] ++ repeat x00 127) /\ p_warnings p = []
  | _ => False
  end /\ from_post Y0 int_numbers data true = from_post Y1 int_numbers data true.
Proof. split; [exact Y0_build|]. split; [exact Y1_build|]. vm_compute. repeat split. Qed.

(** A text ending in "=\r\n": one byte less with the vector decoder. *)
Theorem c60_same_for_all_builds_refuted : exists Y Y' data p p', a_build Y /\ a_build Y' /\
  from_post Y int_numbers data true = Val (inr p) /\ from_post Y' int_numbers data true = Val (inr p') /\
  p_warnings p = [] /\ p_warnings p' = [J "data_size_mismatch"] /\
  p_data p = Some (repeat x00 127 ++ [xa3]) /\ p_data p' = Some (repeat x00 127).
Proof.
  exists Y0, Y1, (c60_post (repeat x2a 127 ++ [EQS; CR; LF])).
  eexists _, _. split; [exact Y0_build|]. split; [exact Y1_build|]. 
  split; [vm_compute; reflexivity|]. split; [vm_compute; reflexivity|]. repeat split.
Qed.
Print Assumptions c60_same_for_all_builds_refuted.
