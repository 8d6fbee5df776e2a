(** The native build is one of the builds of JsBuilds.v. *)
From Verif Require Import Base BaseLemmas EncNode EncModel EncSseModel EncAvxModel DecNode DecSimdModel DecSseModel DecAvxModel DecEvexModel JsBuilds NativeModel NativeSpec.
Open Scope Z_scope.

Lemma native_enc_ok M bsr0 : sound M -> enc_ok (native_enc_sse M bsr0).
Proof.
  intros [H1 H2 H3 H4 H5 H6 H7]. split; cbn [native_enc_sse e_level e_has_popcnt e_has_lzcnt e_tune]; unfold native_isa, native_level;
    destruct (m_vbmi2 M), (m_avx512bw M), (m_avx2 M), (m_sse41 M), (m_ssse3 M), (m_popcnt M), (m_lzcnt M);
    cbn; intro H; try discriminate H; try reflexivity; try (exfalso; lia); try (specialize (H4 eq_refl); discriminate); try (specialize (H3 eq_refl); discriminate);
    try (specialize (H5 eq_refl); discriminate); try (specialize (H6 eq_refl); discriminate).
  all: split; [reflexivity|]; intro Hin; apply (H7 eq_refl); destruct Hin as [?|[?|[?|[]]]]; cbn; tauto.
Qed.

Lemma native_an_encoder M bsr0 : sound M -> an_encoder (native_encoder M bsr0).
Proof.
  intro H. unfold native_encoder. destruct (m_avx2 M && negb (m_no256 M)); [apply enc_avx2|]. apply enc_sse. apply native_enc_ok. exact H.
Qed.

Lemma native_a_decoder M : sound M -> a_decoder (native_decoders M).
Proof.
  intros [H1 H2 H3 H4 H5 H6 H7]. unfold native_decoders. destruct (m_avx2 M && negb (m_no256 M)); [apply dec_avx2|].
  destruct (0x507 <=? native_isa M) eqn:E; [|apply dec_sse]. apply dec_evex. intros _. cbn [native_dec_evex e_base native_dec_sse fast_match].
  assert (Hb : m_avx512bw M = true).
  { unfold native_isa, native_level in E. destruct (m_vbmi2 M) eqn:Ev; [apply H4; reflexivity|].
    destruct (m_avx512bw M); [reflexivity|]. destruct (m_avx2 M), (m_sse41 M), (m_ssse3 M), (m_popcnt M), (m_lzcnt M); cbn in E; discriminate E. }
  rewrite H1 by auto. replace (0x200 <=? native_isa M) with true by lia. specialize (H7 Hb).
  destruct (m_tune M); cbn in H7 |- *; try reflexivity; tauto.
Qed.

Lemma native_levels M : sound M ->
  (0x200 <= native_isa M <-> m_ssse3 M = true) /\ (0x300 <= native_isa M <-> m_sse41 M = true) /\
  (0x403 <= native_isa M <-> m_avx2 M = true) /\ (0x507 <= native_isa M <-> m_avx512bw M = true) /\
  (0x603 <= native_isa M <-> m_vbmi2 M = true) /\
  (Z.testbit (native_isa M) 0 = true <-> m_popcnt M = true) /\
  (Z.testbit (native_isa M) 1 = true <-> m_lzcnt M = true /\ m_popcnt M = true).
Proof.
  intros [H1 H2 H3 H4 H5 H6 _]. unfold native_isa, native_level.
  destruct (m_vbmi2 M), (m_avx512bw M), (m_avx2 M), (m_sse41 M), (m_ssse3 M), (m_popcnt M), (m_lzcnt M);
    try (specialize (H1 eq_refl); discriminate); try (specialize (H2 eq_refl); discriminate); try (specialize (H3 eq_refl); discriminate);
    try (specialize (H4 eq_refl); discriminate); try (specialize (H5 eq_refl); discriminate); try (specialize (H6 eq_refl); discriminate);
    cbn; repeat split; intros; try discriminate; try lia; intuition discriminate.
Qed.

(** One of the three decoders of the native build, as a kernel behind the front-end. *)
Definition native_kernel (M : macros) (r e : bool) : decoder :=
  if m_avx2 M && negb (m_no256 M) then do_decode_simd (do_decode_avx2 (native_dec_avx M) r e) r e 64
  else if 0x507 <=? native_isa M then do_decode_simd (do_decode_evex (native_dec_evex M) r e) r e 32
  else do_decode_simd (do_decode_sse (native_dec_sse M) r e) r e 32.

Lemma native_mode M r e : (e = true -> r = true) ->
  (if e then dec_end (native_decoders M) else if r then dec_raw (native_decoders M) else dec_plain (native_decoders M)) = native_kernel M r e.
Proof.
  intro H. unfold native_decoders, native_kernel, avx_decoders, evex_decoders, sse_decoders.
  destruct e; [rewrite (H eq_refl)|destruct r]; destruct (m_avx2 M && negb (m_no256 M)); try reflexivity; destruct (0x507 <=? native_isa M); reflexivity.
Qed.
