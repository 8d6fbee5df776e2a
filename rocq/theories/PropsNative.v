(** Properties of the native build. *)
From Verif Require Import Base BaseLemmas IsaModel EncNode EncModel EncSpec EncNodeSpec EncNodeProofs EncPadSpec EncPad EncSseModel EncAvxModel DecSpec DecNode DecNodeSpec DecNodeProofs PropsDecLemmas PropsSimdLemmas
  JsBase JsModel JsSpec JsBuilds PropsJsLemmas DecModel DecSimdModel PropsSimd PropsSimdAvx PropsSimdEvex NativeModel NativeSpec NativeProofs.
Open Scope Z_scope.

(** C69: with macros that belong together, the encoder of the native build returns the
    text of the specification.  Missing: other combinations of macros; see below. *)
Theorem c69_native_encode_partial : forall M bsr0 data args L col,
  sound M -> data <> [] -> args_give args L col -> in_range L col data ->
  encode_returns_in (m_no256 M) (native_encoder M bsr0) data args (yenc L true col data).
Proof. intros. apply encode_in_spec; try assumption. apply an_encoder_meets, native_an_encoder. assumption. Qed.
Print Assumptions c69_native_encode_partial.

(** The decoders of the native build return what the portable ones do.  Missing as above,
    and texts ending in "=\r\n" (C23). *)
Theorem c69_native_decode_partial : forall M text,
  sound M ->
  decode_returns (native_decoders M) text false (decode_text text) /\
  (~ ends_with [EQS; CR; LF] text -> exists o, decode_returns scalar text true o /\ decode_returns (native_decoders M) text true o).
Proof.
  intros M text H. pose proof (native_a_decoder M H) as D. split; [apply a_decoder_plain; exact D|].
  intro Ht. exists (reference true text). split; [exact (decode_spec scalar scalar_meets text true)|apply a_decoder_raw; assumption].
Qed.
Print Assumptions c69_native_decode_partial.

(** A module with them, any of the CRCs and Buffers anywhere is one of those that C60
    and the properties of the JavaScript functions speak of. *)
Theorem c69_native_module_partial : forall M bsr0 Y, sound M -> placed Y ->
  y_enc Y = native_encoder M bsr0 -> y_dec Y = native_decoders M -> a_crc (y_crc Y) -> a_shift (y_shift Y) ->
  a_build Y /\ works Y.
Proof.
  intros M bsr0 Y H Hp He Hd Hc Hs. assert (B : a_build Y).
  { split; try assumption; [rewrite He; apply native_an_encoder|rewrite Hd; apply native_a_decoder]; assumption. }
  split; [exact B|apply build_works; exact B].
Qed.
Print Assumptions c69_native_module_partial.

(** The native build uses an instruction set exactly if the compiler is told that it is
    there: use_isa, the template argument of all kernels, is at a level or has a feature
    (ISA_FEATURE_POPCNT is bit 0, ISA_FEATURE_LZCNT bit 1) exactly with the macro.  LZCNT
    is used only together with POPCNT. *)
Theorem c69_native_level : forall M bsr0, sound M ->
  let use_isa := e_level (native_enc_sse M bsr0) in
  a_level (native_enc_avx M) = use_isa /\
  (ISA_LEVEL_SSSE3 <= use_isa <-> m_ssse3 M = true) /\ (ISA_LEVEL_SSE41 <= use_isa <-> m_sse41 M = true) /\
  (ISA_LEVEL_AVX2 <= use_isa <-> m_avx2 M = true) /\ (ISA_LEVEL_AVX3 <= use_isa <-> m_avx512bw M = true) /\
  (ISA_LEVEL_VBMI2 <= use_isa <-> m_vbmi2 M = true) /\
  (Z.testbit use_isa 0 = true <-> m_popcnt M = true) /\
  (Z.testbit use_isa 1 = true <-> m_lzcnt M = true /\ m_popcnt M = true).
Proof. intros M bsr0 H. split; [reflexivity|exact (native_levels M H)]. Qed.
Print Assumptions c69_native_level.

(** Macros: an Atom, a Nehalem, an AMD Jaguar, a Haswell, a Skylake server and an Ice Lake,
    the last three also with YENC_DISABLE_AVX256. *)
Definition old (ssse3 sse41 popcnt lzcnt : bool) (t : tune) : macros :=
  {| m_ssse3 := ssse3; m_sse41 := sse41; m_avx2 := false; m_avx512bw := false; m_vbmi2 := false; m_popcnt := popcnt; m_lzcnt := lzcnt; m_tune := t;
     m_zen1 := false; m_icl := false; m_gnuc := true; m_amd64 := true; m_no256 := false |}.
Definition new (avx512 vbmi2 popcnt lzcnt : bool) (t : tune) (no256 : bool) : macros :=
  {| m_ssse3 := true; m_sse41 := true; m_avx2 := true; m_avx512bw := avx512; m_vbmi2 := vbmi2; m_popcnt := popcnt; m_lzcnt := lzcnt; m_tune := t;
     m_zen1 := false; m_icl := vbmi2; m_gnuc := true; m_amd64 := true; m_no256 := no256 |}.

Example c69_ex :
  let data := map (fun k => u8 (Z.of_nat k * 37)) (seq 0 200) in
  let run M := match native_encoder M 7 {| rlo := 0; rhi := 200; wlo := 1000; whi := 1300 |} 50 3 0 1000 200 true (mem_of 0 data) with
               | Ok ((n, _), m) => Some (read_n m 1000 (Z.to_nat n)) | _ => None end in
  let text := repeat x2b 170 ++ [EQS; EQS; CR; LF; DOT; DOT] ++ repeat x2a 24 in
  forall M, In M [old true false false false T_atom; old true true true false T_none; old true true true true T_btver2;
                  new false false true true T_none false; new true false true true T_none false; new true true true true T_none false;
                  new false false true true T_none true; new true false true true T_none true; new true true true true T_none true] ->
  sound M /\ run M = Some (yenc 50 true 3 data) /\
  node_decode (native_decoders M) (fun _ => 1000) 7 200 true (mem_of 7 text) = Ok (repeat x01 170 ++ [xd3; x04] ++ repeat x00 24).
Proof.
  cbv zeta. intros M H. repeat (destruct H as [<-|H]; [split; [split; cbn; try discriminate; try reflexivity; intros; intuition discriminate|vm_compute; split; reflexivity]|]). destruct H.
Qed.

(** C17 for the native build, whatever the macros are: the decoders read within the
    source and write within a destination of the same length. *)
Theorem c69_native_memory_safe : forall M raw searchEnd, (searchEnd = true -> raw = true) ->
  forall src dest data state m, (if searchEnd then state <> None else state = None) ->
  bytes_at m src data -> dec_layout src (zlen data) dest ->
  exists e' src' dest' state' m',
    (if searchEnd then dec_end (native_decoders M) else if raw then dec_raw (native_decoders M) else dec_plain (native_decoders M))
      {| rlo := src; rhi := src + zlen data; wlo := dest; whi := dest + zlen data |}
      src dest (zlen data) state m = Ok ((e', src', dest', state'), m') /\
    src <= src' <= src + zlen data /\ dest <= dest' <= dest + (src' - src) /\
    (forall q, ~ (dest <= q < dest + zlen data) -> m' q = m q).
Proof.
  intros M r e Hre src dest data state m Hs Hm Hd. rewrite native_mode by exact Hre. unfold native_kernel.
  destruct (m_avx2 M && negb (m_no256 M)); [|destruct (0x507 <=? native_isa M)].
  - apply c17_avx2_memory_safe; assumption.
  - apply c17_evex_memory_safe; [assumption|unfold zlen; lia| |assumption]. intros ->. exact Hs.
  - apply c17_sse_memory_safe; assumption.
Qed.
Print Assumptions c69_native_memory_safe.

(** AVX512 code tuned for an AMD Bobcat, which decodes wrongly (see below). *)
Example c69_safe_ex : let M := new true true true true T_btver2 true in
  dec_layout 7 150 7 /\ exists m', dec_end (native_decoders M)
  {| rlo := 7; rhi := 157; wlo := 7; whi := 157 |} 7 7 150 (Some S_EQ) (mem_of 7 (repeat x2a 150)) = Ok ((E_NONE, 157, 157, Some S_NONE), m').
Proof. split; [unfold dec_layout; lia|]. eexists. vm_compute. reflexivity. Qed.

(** False in general.  1: AVX2 without LZCNT, as on a virtual machine that hides it, and
    256-bit vectors switched off: use_isa promises LZCNT, the tables are laid out for it,
    and the index into them is computed without it.  A CR is written unescaped. *)
Theorem c69_native_encode_refuted : exists M bsr0 data malloc src m o,
  m_avx2 M = true /\ m_popcnt M = true /\ m_lzcnt M = false /\ m_tune M = T_none /\
  bytes_at m src data /\ fresh_malloc malloc src (zlen data) /\ in_range 128 0 data /\
  node_encode_in (m_no256 M) (native_encoder M bsr0) malloc src (zlen data) [] m = Returns (Ok o) /\
  o <> yenc 128 true 0 data /\ nth 9 o x00 = CR /\ nth 9 (yenc 128 true 0 data) x00 = EQS.
Proof.
  exists (new false false true false T_none true), 0, (concat (repeat (repeat x00 9 ++ [xe3] ++ repeat x00 22) 6)), (fun _ => 1000), 0,
    (mem_of 0 (concat (repeat (repeat x00 9 ++ [xe3] ++ repeat x00 22) 6))).
  eexists. do 4 (split; [reflexivity|]). split; [exact (bytes_at_mem_of 0 _)|]. split; [intros k Hk; left; vm_compute; discriminate|].
  split; [split; [vm_compute; congruence|left; vm_compute; congruence]|]. split; [vm_compute; reflexivity|]. split; [vm_compute; discriminate|]. split; reflexivity.
Qed.
Print Assumptions c69_native_encode_refuted.

(** 2: AVX2 without POPCNT, likewise: the number of bytes written is read from a variable
    never set. *)
Theorem c69_native_popcnt_refuted : exists M bsr0 data malloc src m,
  m_avx2 M = true /\ m_popcnt M = false /\ m_lzcnt M = true /\ m_tune M = T_none /\
  bytes_at m src data /\ fresh_malloc malloc src (zlen data) /\ in_range 128 0 data /\
  node_encode_in (m_no256 M) (native_encoder M bsr0) malloc src (zlen data) [] m = Returns UB.
Proof.
  exists (new false false false true T_none true), 0, (repeat x00 200), (fun _ => 1000), 0, (mem_of 0 (repeat x00 200)).
  do 4 (split; [reflexivity|]). split; [exact (bytes_at_mem_of 0 _)|]. split; [intros k Hk; left; vm_compute; discriminate|].
  split; [split; [vm_compute; congruence|left; vm_compute; congruence]|]. vm_compute. reflexivity.
Qed.
Print Assumptions c69_native_popcnt_refuted.

(** 3: AVX512 code of 128 bits tuned for an Atom: the mask knows of the TAB at the start of
    the line, the vector of comparisons that it is escaped with does not. *)
Theorem c69_native_tune_refuted : exists M bsr0 data malloc src m o,
  m_avx512bw M = true /\ m_popcnt M = true /\ m_lzcnt M = true /\ m_tune M = T_atom /\
  bytes_at m src data /\ fresh_malloc malloc src (zlen data) /\ in_range 64 0 data /\
  node_encode_in (m_no256 M) (native_encoder M bsr0) malloc src (zlen data) [64] m = Returns (Ok o) /\
  o <> yenc 64 true 0 data.
Proof.
  exists (new true false true true T_atom true), 0, (repeat xdf 200), (fun _ => 1000), 0, (mem_of 0 (repeat xdf 200)).
  eexists. do 4 (split; [reflexivity|]). split; [exact (bytes_at_mem_of 0 _)|]. split; [intros k Hk; left; vm_compute; discriminate|].
  split; [split; [vm_compute; congruence|left; vm_compute; congruence]|]. split; [vm_compute; reflexivity|]. vm_compute; discriminate.
Qed.
Print Assumptions c69_native_tune_refuted.

(** 4: the same for the decoder, tuned for AMD's Jaguar: a stuffed dot remains (C63). *)
Theorem c69_native_decode_refuted : exists M data malloc src m o,
  m_avx512bw M = true /\ m_popcnt M = true /\ m_lzcnt M = true /\ m_tune M = T_btver2 /\
  bytes_at m src data /\ fresh_malloc malloc src (zlen data) /\ ~ ends_with [EQS; CR; LF] data /\
  node_decode (native_decoders M) malloc src (zlen data) true m = Ok o /\
  exists o', decode_returns scalar data true o' /\ o <> o'.
Proof.
  assert (G : forall text, decode_returns scalar text true (reference true text)) by (intro; exact (decode_spec scalar scalar_meets text true)).
  exists (new true true true true T_btver2 true), (repeat x2a 30 ++ [CR; LF; DOT; DOT] ++ repeat x2a 166), (fun _ => 1000), 0,
    (mem_of 0 (repeat x2a 30 ++ [CR; LF; DOT; DOT] ++ repeat x2a 166)).
  eexists. do 4 (split; [reflexivity|]). split; [exact (bytes_at_mem_of 0 _)|]. split; [intros k Hk; left; vm_compute; discriminate|].
  split.
  { intros [a H]. apply (f_equal (@rev byte)) in H. rewrite (rev_app_distr a) in H. vm_compute in H. discriminate H. }
  split; [vm_compute; reflexivity|]. eexists. split; [apply G|]. vm_compute. discriminate.
Qed.
Print Assumptions c69_native_decode_refuted.
