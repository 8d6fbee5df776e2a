(** What an encoder does depends only on its buffers: with a larger destination it does the same,
    unless it ran into undefined behaviour, and it changes nothing outside the destination. *)
From Verif Require Import Base BaseLemmas EncModel DecVec EncSseModel EncAvxModel EncLoopModel EncRvvModel EncNeonModel JsBuilds.
Open Scope Z_scope.

Definition within (B B' : bufs) : Prop := rlo B' = rlo B /\ rhi B' = rhi B /\ wlo B' = wlo B /\ whi B <= whi B'.
Definition agree (B : bufs) (m m' : mem) : Prop := forall a, can_read B a = true -> m a = m' a.

Definition rel {A} (B : bufs) (x x' : M A) : Prop := forall m m', agree B m m' ->
  match x m with
  | UB => True
  | NoFuel => x' m' = NoFuel
  | Ok (a, m1) => exists m1', x' m' = Ok (a, m1') /\ agree B m1 m1' /\ forall z, can_write B z = false -> m1' z = m' z
  end.

Section Rel.
Context (B B' : bufs) (W : within B B').

Lemma w_write a : can_write B a = true -> can_write B' a = true.
Proof. destruct W as (_ & _ & A & C). unfold can_write. rewrite A. lia. Qed.
Lemma w_read a : can_read B a = true -> can_read B' a = true.
Proof. destruct W as (D & E & A & C). unfold can_read. rewrite A, D, E. lia. Qed.

Lemma rel_ret {A} (a : A) : rel B (ret a) (ret a).
Proof. intros m m' H. cbn. exists m'. auto. Qed.
Lemma rel_ub {A} (x : M A) : rel B ub x.
Proof. intros m m' H. exact I. Qed.
Lemma rel_nofuel {A} : rel B (@nofuel A) nofuel.
Proof. intros m m' H. reflexivity. Qed.
Lemma rel_bind {A C} (x x' : M A) (k k' : A -> M C) : rel B x x' -> (forall a, rel B (k a) (k' a)) -> rel B (bind x k) (bind x' k').
Proof.
  intros X K m m' H. unfold bind. specialize (X m m' H). destruct (x m) as [[a m1]| |]; [|exact I|rewrite X; reflexivity].
  destruct X as (m1' & E & G & F). rewrite E. specialize (K a m1 m1' G). destruct (k a m1) as [[c m2]| |]; [|exact I|exact K].
  destruct K as (m2' & E2 & G2 & F2). exists m2'. split; [exact E2|]. split; [exact G2|]. intros z Hz. rewrite F2 by exact Hz. apply F, Hz.
Qed.
Lemma rel_load a : rel B (load B a) (load B' a).
Proof.
  intros m m' H. unfold load. destruct (can_read B a) eqn:E; [|exact I]. rewrite (w_read a E). exists m'. rewrite (H a E). auto.
Qed.
Lemma rel_store a b : rel B (store B a b) (store B' a b).
Proof.
  intros m m' H. unfold store. destruct (can_write B a) eqn:E; [|exact I]. rewrite (w_write a E). eexists. split; [reflexivity|]. split.
  - intros z Hz. unfold upd. destruct (z =? a); [reflexivity|apply H, Hz].
  - intros z Hz. unfold upd. destruct (z =? a) eqn:F; [|reflexivity]. apply Z.eqb_eq in F. subst. congruence.
Qed.
Lemma rel_chk z : rel B (chk_int z) (chk_int z).
Proof. intros m m' H. unfold chk_int. destruct (in_int z); [exists m'; auto|exact I]. Qed.
End Rel.

Ltac loc W :=
  cbv beta zeta;
  lazymatch goal with
  | |- rel _ (bind _ _) (bind _ _) => apply rel_bind; [loc W|intro; loc W]
  | |- rel _ (ret _) _ => apply rel_ret
  | |- rel _ ub _ => apply rel_ub
  | |- rel _ (given _) _ => unfold given; loc W
  | |- rel _ (EncSseModel.shl32 _ _) _ => unfold EncSseModel.shl32; loc W
  | |- rel _ (EncSseModel.shr32 _ _) _ => unfold EncSseModel.shr32; loc W
  | |- rel _ (shl64 _ _) _ => unfold shl64; loc W
  | |- rel _ (shr64 _ _) _ => unfold shr64; loc W
  | |- rel _ (shl_int _ _) _ => unfold shl_int; loc W
  | |- rel _ nofuel _ => apply rel_nofuel
  | |- rel _ (load _ _) _ => apply rel_load, W
  | |- rel _ (store _ _ _) _ => apply rel_store, W
  | |- rel _ (chk_int _) _ => apply rel_chk
  | |- rel _ (if ?b then _ else _) _ => destruct b; loc W
  | |- rel _ (match ?x with _ => _ end) _ => destruct x; loc W
  | |- _ => eauto
  end.

Section Encoders.
Context (B B' : bufs) (W : within B B').

Lemma l_load_n n : forall a, rel B (load_n B a n) (load_n B' a n).
Proof. induction n; intro a; cbn [load_n]; loc W. Qed.
Lemma l_store_n v : forall a, rel B (store_n B a v) (store_n B' a v).
Proof. induction v; intro b; cbn [store_n]; loc W. Qed.
Hint Resolve l_load_n l_store_n : core.

Lemma l_store16 p w : rel B (store16 B p w) (store16 B' p w).
Proof. unfold store16. loc W. Qed.
Lemma l_store32 p w : rel B (store32 B p w) (store32 B' p w).
Proof. unfold store32. loc W. Qed.
Hint Resolve l_store16 l_store32 : core.
Lemma l_first es i p : rel B (enc_first B es i p) (enc_first B' es i p).
Proof. unfold enc_first. loc W. Qed.
Lemma l_thing es i n p : rel B (do_thing B es i n p) (do_thing B' es i n p).
Proof. unfold do_thing. loc W. Qed.
Hint Resolve l_first l_thing : core.
Lemma l_block8 es i p : rel B (enc_block8 B es i p) (enc_block8 B' es i p).
Proof. unfold enc_block8. loc W. Qed.
Hint Resolve l_block8 : core.
Lemma l_unrolled f es L : forall i p col sp, rel B (enc_unrolled f B es L i p col sp) (enc_unrolled f B' es L i p col sp).
Proof. induction f; intros; cbn [enc_unrolled]; loc W. Qed.
Lemma l_rest f es L : forall i p col, rel B (enc_rest f B es L i p col) (enc_rest f B' es L i p col).
Proof. induction f; intros; cbn [enc_rest]; loc W. Qed.
Lemma l_last es L i p col : rel B (enc_last B es L i p col) (enc_last B' es L i p col).
Proof. unfold enc_last. loc W. Qed.
Lemma l_eol c p : rel B (enc_eol B c p) (enc_eol B' c p).
Proof. unfold enc_eol. loc W. Qed.
Hint Resolve l_unrolled l_rest l_last l_eol : core.
Lemma l_lines f es L : forall i p col, rel B (enc_lines f B es L i p col) (enc_lines f B' es L i p col).
Proof. induction f; intros; cbn [enc_lines]; loc W. Qed.
Lemma l_end d p col : rel B (enc_end B d p col) (enc_end B' d p col).
Proof. unfold enc_end. loc W. Qed.
Hint Resolve l_lines l_end : core.
Lemma l_generic L col src dest len d : rel B (do_encode_generic B L col src dest len d) (do_encode_generic B' L col src dest len d).
Proof. unfold do_encode_generic. loc W. Qed.
Lemma l_tail f es L : forall i p col, rel B (enc_simd_tail f B es L i p col) (enc_simd_tail f B' es L i p col).
Proof. induction f; intros; cbn [enc_simd_tail]; loc W. Qed.
Hint Resolve l_generic l_tail : core.

Lemma l_simd (k : enc_kernel) L col src dest len d :
  (forall L col es dest len, rel B (k B L col es dest len) (k B' L col es dest len)) ->
  rel B (do_encode_simd k B L col src dest len d) (do_encode_simd k B' L col src dest len d).
Proof. intro K. unfold do_encode_simd. loc W. Qed.

Lemma l_last_char c p : rel B (last_char B c p) (last_char B' c p).
Proof. unfold last_char. loc W. Qed.
Hint Resolve l_last_char : core.
Lemma l_start L es i p col : rel B (enc_start B L es i p col) (enc_start B' L es i p col).
Proof. unfold enc_start. loc W. Qed.
Lemma l_blocks f blk1 blk2 w L es : (forall b i p c, rel B (blk1 b i p c) (blk2 b i p c)) ->
  forall first i p col, rel B (enc_blocks f blk1 w B L es first i p col) (enc_blocks f blk2 w B' L es first i p col).
Proof. intro K. induction f; intros; cbn [enc_blocks]; loc W. Qed.
Hint Resolve l_start : core.

(** SSE2 to VBMI2, 128 bits. *)
Lemma l_expand isa data a b c p : rel B (expand_store_vector isa B data a b c p) (expand_store_vector isa B' data a b c p).
Proof. unfold expand_store_vector. loc W. Qed.
Hint Resolve l_expand : core.
Lemma l_sse_store isa p a b c d x y o : rel B (sse_slow_store isa B p a b c d x y o) (sse_slow_store isa B' p a b c d x y o).
Proof. unfold sse_slow_store. loc W. Qed.
Hint Resolve l_sse_store : core.
Lemma l_sse_slow isa i p col a b c d x y o : rel B (sse_slow isa B i p col a b c d x y o) (sse_slow isa B' i p col a b c d x y o).
Proof. unfold sse_slow, sse_slow_eol, sse_eq_mask. loc W. Qed.
Lemma l_sse_noesc i p col a b : rel B (sse_noesc B i p col a b) (sse_noesc B' i p col a b).
Proof. unfold sse_noesc. loc W. Qed.
Lemma l_sse_text isa es i a b c d x y o : rel B (sse_one_text isa B es i a b c d x y o) (sse_one_text isa B' es i a b c d x y o).
Proof. unfold sse_one_text. loc W. Qed.
Hint Resolve l_sse_slow l_sse_noesc l_sse_text : core.
Lemma l_sse_one isa es i p col a b c d x y o : rel B (sse_one isa B es i p col a b c d x y o) (sse_one isa B' es i p col a b c d x y o).
Proof. unfold sse_one. loc W. Qed.
Hint Resolve l_sse_one : core.
Lemma l_sse_block isa es first i p col : rel B (sse_block isa B es first i p col) (sse_block isa B' es first i p col).
Proof. unfold sse_block, mm_loadu. loc W. Qed.
Lemma l_sse isa L col es dest len : rel B (do_encode_sse isa B L col es dest len) (do_encode_sse isa B' L col es dest len).
Proof. unfold do_encode_sse. loc W. apply l_blocks. intros. apply l_sse_block. Qed.

(** AVX2 to VBMI2, 256 bits. *)
Lemma l_avx_slow isa i p col a b c d x y : rel B (avx_slow isa B i p col a b c d x y) (avx_slow isa B' i p col a b c d x y).
Proof. unfold avx_slow, avx_slow_eol, avx_eq_mask. loc W. Qed.
Lemma l_avx_half isa es j p d c m : rel B (avx_fast_half isa B es j p d c m) (avx_fast_half isa B' es j p d c m).
Proof. unfold avx_fast_half, y_loadu. loc W. Qed.
Hint Resolve l_avx_slow l_avx_half : core.
Lemma l_avx_fast isa es i p col a b c d x y : rel B (avx_fast isa B es i p col a b c d x y) (avx_fast isa B' es i p col a b c d x y).
Proof. unfold avx_fast. loc W. Qed.
Hint Resolve l_avx_fast : core.
Lemma l_avx_block isa es first i p col : rel B (avx_block isa B es first i p col) (avx_block isa B' es first i p col).
Proof. unfold avx_block, y_loadu. loc W. Qed.
Lemma l_avx_pre isa L es i p col : rel B (avx_pre isa B L es i p col) (avx_pre isa B' L es i p col).
Proof. unfold avx_pre. loc W. Qed.
Hint Resolve l_avx_pre : core.
Lemma l_avx isa L col es dest len : rel B (do_encode_avx2 isa B L col es dest len) (do_encode_avx2 isa B' L col es dest len).
Proof. unfold do_encode_avx2. loc W. apply l_blocks. intros. apply l_avx_block. Qed.

(** RVV and NEON. *)
Lemma l_begin L es eol eol' : (forall i p, rel B (eol i p) (eol' i p)) -> forall i p col, rel B (enc_begin B L es eol i p col) (enc_begin B' L es eol' i p col).
Proof. intros K i p col. unfold enc_begin. loc W. Qed.
Lemma l_loop f blk1 blk2 eol eol' w : (forall i p, rel B (eol i p) (eol' i p)) -> (forall i p c, rel B (blk1 i p c) (blk2 i p c)) ->
  forall i p col, rel B (enc_loop f blk1 eol w i p col) (enc_loop f blk2 eol' w i p col).
Proof. intros K1 K2. induction f; intros; cbn [enc_loop]; loc W. Qed.
Lemma l_masked m : forall v a, rel B (store_masked B a m v) (store_masked B' a m v).
Proof. induction m; intros [|x v] z; cbn [store_masked]; loc W. Qed.
Hint Resolve l_masked : core.
Lemma l_rvv_eol L es i p : rel B (rvv_eol B L es i p) (rvv_eol B' L es i p).
Proof. unfold rvv_eol. loc W. Qed.
Lemma l_rvv_slow rv i p col c d : rel B (rvv_slow rv B i p col c d) (rvv_slow rv B' i p col c d).
Proof. unfold rvv_slow. loc W. Qed.
Lemma l_rvv_fast rv i p col c d : rel B (rvv_fast rv B i p col c d) (rvv_fast rv B' i p col c d).
Proof. unfold rvv_fast. loc W. Qed.
Hint Resolve l_rvv_eol l_rvv_slow l_rvv_fast : core.
Lemma l_rvv_block rv es i p col : rel B (rvv_block rv B es i p col) (rvv_block rv B' es i p col).
Proof. unfold rvv_block. loc W. Qed.
Lemma l_rvv rv L col es dest len : rel B (do_encode_rvv rv B L col es dest len) (do_encode_rvv rv B' L col es dest len).
Proof. unfold do_encode_rvv. loc W; [apply l_begin|apply l_loop]; auto. intros. apply l_rvv_block. Qed.

Lemma l_neon_slow v8 i p col a b m g : rel B (neon_slow v8 B i p col a b m g) (neon_slow v8 B' i p col a b m g).
Proof. unfold neon_slow, neon_slow_eol. loc W. Qed.
Lemma l_neon_fast v8 i p col a b c d m : rel B (neon_fast v8 B i p col a b c d m) (neon_fast v8 B' i p col a b c d m).
Proof. unfold neon_fast. loc W. Qed.
Hint Resolve l_neon_slow l_neon_fast : core.
Lemma l_neon_block v8 es i p col : rel B (neon_block v8 B es i p col) (neon_block v8 B' es i p col).
Proof. unfold neon_block. loc W. Qed.
Lemma l_eol_slow v8 L p a b m g : rel B (eol_slow v8 B L p a b m g) (eol_slow v8 B' L p a b m g).
Proof. unfold eol_slow. loc W. Qed.
Lemma l_eol_fast v8 L p a b c d m : rel B (eol_fast v8 B L p a b c d m) (eol_fast v8 B' L p a b c d m).
Proof. unfold eol_fast. loc W. Qed.
Hint Resolve l_eol_slow l_eol_fast : core.
Lemma l_neon_eol v8 L es i p : rel B (neon_eol v8 B L es i p) (neon_eol v8 B' L es i p).
Proof. unfold neon_eol. loc W. Qed.
Hint Resolve l_neon_eol l_neon_block : core.
Lemma l_neon v8 L col es dest len : rel B (do_encode_neon v8 B L col es dest len) (do_encode_neon v8 B' L col es dest len).
Proof. unfold do_encode_neon. loc W; [apply l_begin|apply l_loop]; auto. Qed.

Lemma an_encoder_local e L col src dest len d : an_encoder e -> rel B (e B L col src dest len d) (e B' L col src dest len d).
Proof. intros []; [apply l_generic|apply l_simd; intros; apply l_sse|apply l_simd; intros; apply l_avx|apply l_simd; intros; apply l_rvv|apply l_simd; intros; apply l_neon]. Qed.

End Encoders.
