(** The room for vector stores in builds with and without YENC_DISABLE_AVX256. *)
From Verif Require Import Base BaseLemmas EncSpec EncModel EncNode EncNodeSpec EncNodeProofs EncSseModel EncSseProofs EncPadSpec EncPad JsBuilds.
Open Scope Z_scope.

(** C76: whether 64 bytes are allocated beyond the longest text (the default) or 32 (with
    YENC_DISABLE_AVX256), no encoder writes outside the buffer - that would be [UB] - and the text is the
    specified one. *)
Theorem c76_encode_room : forall no256 e data args L col, an_encoder e ->
  data <> [] -> args_give args L col -> in_range L col data ->
  encode_returns_in no256 e data args (yenc L true col data).
Proof. intros no256 e data args L col E. apply encode_in_spec, an_encoder_meets, E. Qed.
Print Assumptions c76_encode_room.

Theorem c76_encodeTo_room : forall (no256 : bool) e data args L col dcap, an_encoder e ->
  data <> [] -> args_give args L col -> in_range L col data ->
  2 * zlen data + 2 * (2 * zlen data / L) + 2 + (if no256 then 32 else 64) <= dcap ->
  encodeTo_returns_in no256 e data dcap args (yenc L true col data).
Proof.
  intros no256 e data args L col dcap E Hd Ha Hr Hc. apply (encodeTo_in_spec no256 e (an_encoder_meets e E) data args L col); try assumption.
  destruct (enc_args_range _ _ _ Ha) as [HL _]. pose proof (zlen_nonneg data). destruct Hr as [Hn _].
  pose proof (max_size_eq no256 (zlen data) L ltac:(lia) ltac:(lia)) as X. rewrite EncSize.YENC_MAX_SIZE_eq in X by lia. destruct no256; lia.
Qed.
Print Assumptions c76_encodeTo_room.

Theorem c76_encodeIncr_room : forall no256 e data args L col, an_encoder e ->
  data <> [] -> args_give args L col -> in_range L col data ->
  encodeIncr_returns_in no256 e data args (yenc L false col data) (ret_col L false col data).
Proof. intros no256 e data args L col E. apply encodeIncr_in_spec, an_encoder_meets, E. Qed.
Print Assumptions c76_encodeIncr_room.

(** 192 characters all of which are escaped take 388 bytes; the buffer has 424 of them. *)
Example c76_ex : in_range 128 0 (repeat xd6 192) /\ args_give [] 128 0 /\ zlen (yenc 128 true 0 (repeat xd6 192)) = 388 /\ max_size true 192 128 = 424 /\
  exists o, node_encode_in true (do_encode_simd (do_encode_sse (enc_ssse3 0))) (fun _ => 1000) 0 192 [] (mem_of 0 (repeat xd6 192)) = Returns (Ok o).
Proof.
  split; [split; vm_compute; [reflexivity|left; discriminate]|]. split; [reflexivity|]. split; [vm_compute; reflexivity|]. split; [vm_compute; reflexivity|].
  eexists. vm_compute. reflexivity.
Qed.
