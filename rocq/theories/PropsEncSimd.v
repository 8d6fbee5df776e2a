(** Properties of the vector encoders. *)
From Verif Require Import Base EncModel EncSpec EncEnd EncNode EncNodeSpec EncNodeProofs PropsEncLemmas EncSize EncSseModel EncSseProofs EncAvxModel EncAvxProofs
  EncRvvModel EncRvvProofs EncNeonModel EncNeonProofs.

(** C11, x86: with the 128-bit kernel at any level from SSE2 to VBMI2, tuned for any
    processor, encode() returns the text of the specification, as with the portable
    encoder. *)
Theorem c11_sse_encode : forall isa data args L col,
  enc_ok isa -> data <> [] -> args_give args L col -> in_range L col data ->
  encode_returns (do_encode_simd (do_encode_sse isa)) data args (yenc L true col data) /\
  encode_returns do_encode_generic data args (yenc L true col data).
Proof. intros isa data args L col Hok Hd Ha Hr. split; apply encode_spec; auto using generic_meets, simd_meets, sse_good. Qed.
Print Assumptions c11_sse_encode.

(** C11, x86: the same for the encoder itself, which is also called piecewise: the
    vector kernel's result agrees in bytes, count and column. *)
Theorem c11_sse_same : forall isa B L col src dest data fin m,
  enc_ok isa -> rlo B = src -> rhi B = src + zlen data -> wlo B = dest ->
  (rhi B <= wlo B \/ whi B <= rlo B) ->
  data <> [] -> bytes_at m src data ->
  1 <= L <= INT_MAX -> 0 <= col < L -> in_range L col data ->
  dest + zlen (yenc L fin col data) + 32 <= whi B ->
  exists n c m1 m2,
    do_encode_generic B L col src dest (zlen data) fin m = Ok ((n, c), m1) /\
    do_encode_simd (do_encode_sse isa) B L col src dest (zlen data) fin m = Ok ((n, c), m2) /\
    read_n m1 dest (Z.to_nat n) = read_n m2 dest (Z.to_nat n).
Proof.
  intros isa B L col src dest data fin m Hok H1 H2 H3 H4 H5 H6 H7 H8 H9 H10.
  apply simd_same; auto. intro. apply sse_good with (fin := fin); auto; lia.
Qed.
Print Assumptions c11_sse_same.

(** The hypotheses can be met by data long enough for several blocks and lines, with
    escapes in all of them; the kernel handles all but the end of it. *)
Example c11_sse_ex :
  let data := map (fun k => u8 (Z.of_nat k * 37)) (seq 0 200) in
  let B := {| rlo := 0; rhi := 200; wlo := 1000; whi := 1300 |} in
  in_range 50 3 data /\ 1000 + zlen (yenc 50 true 3 data) + 32 <= whi B /\
  forall isa, In isa [enc_sse2 0; enc_ssse3 7; enc_avx (-5); enc_vbmi2_128 0] -> enc_ok isa /\
  match do_encode_sse isa B 50 3 200 1000 200 (mem_of 0 data) with
  | Ok ((c, p, n), m) => 0 < n < 70 /\ read_n m 1000 (Z.to_nat (p - 1000)) = firstn (Z.to_nat (p - 1000)) (yenc 50 true 3 data)
  | _ => False
  end.
Proof.
  split; [split; [vm_compute; congruence|left; vm_compute; congruence]|]. split; [vm_compute; congruence|].
  intros isa [<-|[<-|[<-|[<-|[]]]]]; (split; [|vm_compute; repeat split]);
    (split; cbn; try discriminate; intros; repeat split; auto; try lia; intros [?|[?|[?|[]]]]; discriminate).
Qed.

(** C58: when no character of a block is escaped, the SSSE3 and AVX kernels compute
    BSR32(0), which compilers and processors leave open; whatever it is, the kernel
    does the same. *)
Theorem c58_bsr_of_zero_unused : forall isa z B L col srcEnd dest len m,
  do_encode_sse (with_bsr0 isa z) B L col srcEnd dest len m = do_encode_sse isa B L col srcEnd dest len m.
Proof. exact kernel_bsr0. Qed.
Print Assumptions c58_bsr_of_zero_unused.

(** Both the index and the mask depend on it before the correction of line 524 of encoder_sse_base.h. *)
Example c58_ex : maskmix_mask 3 0 <> maskmix_mask (-1) 0 /\ with_bsr0 (enc_ssse3 3) (-1) = enc_ssse3 (-1).
Proof. split; [vm_compute; discriminate|reflexivity]. Qed.

(** C11, x86: with the 256-bit kernel (AVX2, AVX512 or VBMI2), encode() returns the text of the
    specification, as with the portable encoder. *)
Theorem c11_avx2_encode : forall isa data args L col,
  data <> [] -> args_give args L col -> in_range L col data ->
  encode_returns (do_encode_simd (do_encode_avx2 isa)) data args (yenc L true col data) /\
  encode_returns do_encode_generic data args (yenc L true col data).
Proof. intros isa data args L col Hd Ha Hr. split; apply encode_spec; auto using generic_meets, simd_meets, avx_good. Qed.
Print Assumptions c11_avx2_encode.

(** C11, x86: the same for the encoder itself.  The buffer of the source is exactly the
    data: the load of the byte before a block stays within it. *)
Theorem c11_avx2_same : forall isa B L col src dest data fin m,
  rlo B = src -> rhi B = src + zlen data -> wlo B = dest ->
  (rhi B <= wlo B \/ whi B <= rlo B) ->
  data <> [] -> bytes_at m src data ->
  1 <= L <= INT_MAX -> 0 <= col < L -> in_range L col data ->
  dest + zlen (yenc L fin col data) + 32 <= whi B ->
  exists n c m1 m2,
    do_encode_generic B L col src dest (zlen data) fin m = Ok ((n, c), m1) /\
    do_encode_simd (do_encode_avx2 isa) B L col src dest (zlen data) fin m = Ok ((n, c), m2) /\
    read_n m1 dest (Z.to_nat n) = read_n m2 dest (Z.to_nat n).
Proof.
  intros isa B L col src dest data fin m H1 H2 H3 H4 H5 H6 H7 H8 H9 H10.
  apply simd_same; auto. intro. apply avx_good with (fin := fin); auto; lia.
Qed.
Print Assumptions c11_avx2_same.

(** The hypotheses can be met by data long enough for several blocks and lines; the first
    has many escapes in each block, the second few. *)
Example c11_avx2_ex :
  let B := {| rlo := 0; rhi := 400; wlo := 1000; whi := 1600 |} in
  forall data, In data [map (fun k => u8 (Z.of_nat k * 37)) (seq 0 400); map (fun k => u8 (Z.of_nat k * 3)) (seq 0 400)] ->
  in_range 70 3 data /\ 1000 + zlen (yenc 70 true 3 data) + 32 <= whi B /\
  forall isa, In isa [enc_avx2; enc_vbmi2] ->
  match do_encode_avx2 isa B 70 3 400 1000 400 (mem_of 0 data) with
  | Ok ((c, p, n), m) => 0 < n < 140 /\ read_n m 1000 (Z.to_nat (p - 1000)) = firstn (Z.to_nat (p - 1000)) (yenc 70 true 3 data)
  | _ => False
  end.
Proof.
  intros B data [<-|[<-|[]]].
  all: split; [split; [vm_compute; congruence|left; vm_compute; congruence]|]; (split; [vm_compute; congruence|]).
  all: intros isa [<-|[<-|[]]]; vm_compute; repeat split.
Qed.

(** C11, RISC-V: with the RVV kernel, encode() returns the text of the specification,
    as with the portable encoder, for every vector length the architecture allows (128 to
    65536 bits) and whatever the elements are that vcompress leaves open. *)
Theorem c11_rvv_encode : forall rv data args L col,
  (r_units rv < 512)%nat ->
  data <> [] -> args_give args L col -> in_range L col data ->
  encode_returns (do_encode_simd (do_encode_rvv rv)) data args (yenc L true col data) /\
  encode_returns do_encode_generic data args (yenc L true col data).
Proof. intros rv data args L col Hv Hd Ha Hr. split; apply encode_spec; auto using generic_meets, simd_meets, rvv_good. Qed.
Print Assumptions c11_rvv_encode.

(** C11, RISC-V: the same for the encoder itself. *)
Theorem c11_rvv_same : forall rv B L col src dest data fin m,
  (r_units rv < 512)%nat ->
  rlo B = src -> rhi B = src + zlen data -> wlo B = dest ->
  (rhi B <= wlo B \/ whi B <= rlo B) ->
  data <> [] -> bytes_at m src data ->
  1 <= L <= INT_MAX -> 0 <= col < L -> in_range L col data ->
  dest + zlen (yenc L fin col data) + 32 <= whi B ->
  exists n c m1 m2,
    do_encode_generic B L col src dest (zlen data) fin m = Ok ((n, c), m1) /\
    do_encode_simd (do_encode_rvv rv) B L col src dest (zlen data) fin m = Ok ((n, c), m2) /\
    read_n m1 dest (Z.to_nat n) = read_n m2 dest (Z.to_nat n).
Proof.
  intros rv B L col src dest data fin m Hv H1 H2 H3 H4 H5 H6 H7 H8 H9 H10.
  apply simd_same; auto. intro. apply rvv_good with (fin := fin); auto; lia.
Qed.
Print Assumptions c11_rvv_same.

(** The hypotheses can be met with several blocks and lines, at two vector lengths. *)
Example c11_rvv_ex :
  let B := {| rlo := 0; rhi := 400; wlo := 1000; whi := 1600 |} in
  forall data, In data [map (fun k => u8 (Z.of_nat k * 37)) (seq 0 400); map (fun k => u8 (Z.of_nat k * 3)) (seq 0 400)] ->
  in_range 130 3 data /\ 1000 + zlen (yenc 130 true 3 data) + 32 <= whi B /\
  forall rv, In rv [{| r_units := 0; r_tail := fun _ => x00 |}; {| r_units := 1; r_tail := fun _ => xff |}] ->
  (r_units rv < 512)%nat /\
  match do_encode_rvv rv B 130 3 400 1000 400 (mem_of 0 data) with
  | Ok ((c, p, n), m) => 0 < n < 140 /\ read_n m 1000 (Z.to_nat (p - 1000)) = firstn (Z.to_nat (p - 1000)) (yenc 130 true 3 data)
  | _ => False
  end.
Proof.
  intros B data [<-|[<-|[]]].
  all: split; [split; [vm_compute; congruence|left; vm_compute; congruence]|]; (split; [vm_compute; congruence|]).
  all: intros rv [<-|[<-|[]]]; (split; [cbn; lia|vm_compute; repeat split]).
Qed.

(** C11, ARM: with the NEON kernel of ARMv7 or AArch64 ([v8]), encode() returns the text
    of the specification, as with the portable encoder. *)
Theorem c11_neon_encode : forall v8 data args L col,
  data <> [] -> args_give args L col -> in_range L col data ->
  encode_returns (do_encode_simd (do_encode_neon v8)) data args (yenc L true col data) /\
  encode_returns do_encode_generic data args (yenc L true col data).
Proof. intros v8 data args L col Hd Ha Hr. split; apply encode_spec; auto using generic_meets, simd_meets, neon_good. Qed.
Print Assumptions c11_neon_encode.

(** C11, ARM: the same for the encoder itself. *)
Theorem c11_neon_same : forall v8 B L col src dest data fin m,
  rlo B = src -> rhi B = src + zlen data -> wlo B = dest ->
  (rhi B <= wlo B \/ whi B <= rlo B) ->
  data <> [] -> bytes_at m src data ->
  1 <= L <= INT_MAX -> 0 <= col < L -> in_range L col data ->
  dest + zlen (yenc L fin col data) + 32 <= whi B ->
  exists n c m1 m2,
    do_encode_generic B L col src dest (zlen data) fin m = Ok ((n, c), m1) /\
    do_encode_simd (do_encode_neon v8) B L col src dest (zlen data) fin m = Ok ((n, c), m2) /\
    read_n m1 dest (Z.to_nat n) = read_n m2 dest (Z.to_nat n).
Proof.
  intros v8 B L col src dest data fin m H1 H2 H3 H4 H5 H6 H7 H8 H9 H10.
  apply simd_same; auto. intro. apply neon_good with (fin := fin); auto; lia.
Qed.
Print Assumptions c11_neon_same.

(** The hypotheses can be met with several blocks and lines, in which the kernel does
    most of the work. *)
Example c11_neon_ex :
  let B := {| rlo := 0; rhi := 400; wlo := 1000; whi := 1600 |} in
  forall data, In data [map (fun k => u8 (Z.of_nat k * 37)) (seq 0 400); map (fun k => u8 (Z.of_nat k * 3)) (seq 0 400)] ->
  in_range 70 3 data /\ 1000 + zlen (yenc 70 true 3 data) + 32 <= whi B /\
  forall v8, In v8 [true; false] ->
  match do_encode_neon v8 B 70 3 400 1000 400 (mem_of 0 data) with
  | Ok ((c, p, n), m) => 0 < n < 70 /\ read_n m 1000 (Z.to_nat (p - 1000)) = firstn (Z.to_nat (p - 1000)) (yenc 70 true 3 data)
  | _ => False
  end.
Proof.
  intros B data [<-|[<-|[]]].
  all: split; [split; [vm_compute; congruence|left; vm_compute; congruence]|]; (split; [vm_compute; congruence|]).
  all: intros v8 [<-|[<-|[]]]; vm_compute; repeat split.
Qed.
