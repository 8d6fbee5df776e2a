(** Proofs about memory ownership. *)
From Verif Require Import Base BaseLemmas EncSpec EncNode EncNodeSpec EncNodeProofs EncPad EncSize EncLocal DecSpec DecModel DecProofs DecText DecNode
  DecNodeSpec DecNodeProofs PropsDecLemmas PropsSimdLemmas DecSimdModel DecSimdSpec DecSimdProofs DecSimdMain DecSseModel DecSseMain DecAvxModel DecAvxMain DecEvexModel DecEvexProofs DecRvvModel DecRvvMain DecNeonModel DecNeonMain DecKernel JsEncoder JsBuilds DecLocal HeapModel HeapSpec.
From Coq Require Import Permutation ZifyBool ZifyNat ZifyN.
Open Scope Z_scope.
Ltac Zify.zify_post_hook ::= Z.div_mod_to_equations.

Lemma release_out p h : ~ In p (map fst h) -> release p h = h.
Proof.
  induction h as [|[q k] h IH]; intro H; [reflexivity|]. cbn [map fst In] in H.
  cbn [release filter fst]. destruct (q =? p) eqn:E; [exfalso; apply H; left; lia|]. cbn [negb]. f_equal. apply IH. tauto.
Qed.
Lemma release_own p k h : ~ In p (map fst h) -> release p ((p, k) :: h) = h.
Proof. intro H. cbn [release filter fst]. rewrite Z.eqb_refl. apply release_out, H. Qed.
Lemma size_own p k h : block_size p ((p, k) :: h) = k.
Proof. unfold block_size. cbn. rewrite Z.eqb_refl. reflexivity. Qed.
Lemma free_own p k h n : ~ In p (map fst h) -> free_buffer ((p, k) :: h) {| b_data := Some p; b_len := n |} = Ok h.
Proof. intro H. unfold free_buffer. cbn [b_data existsb fst]. rewrite Z.eqb_refl. cbn [orb]. rewrite release_own; auto. Qed.

Lemma copied_bytes m p q o : bytes_at m p o -> bytes_at (copied m p q (zlen o)) q o.
Proof.
  enough (G : forall d, 0 <= d -> forall N, d + zlen o <= N -> bytes_at m (p + d) o -> bytes_at (copied m p q N) (q + d) o).
  { intro H. rewrite <- (Z.add_0_r q) at 2. apply (G 0); [lia|lia|]. rewrite Z.add_0_r. exact H. }
  induction o as [|c o IH]; intros d Hd N HN H; [exact I|]. rewrite zlen_cons in HN. pose proof (zlen_nonneg o).
  destruct H as [H1 H2]. split.
  - unfold copied. assert (((q <=? q + d) && (q + d <? q + N))%bool = true) as -> by lia. rewrite <- H1. f_equal. lia.
  - rewrite <- Z.add_assoc in *. apply IH; auto; lia.
Qed.

Lemma realloc_hands A h p N m m1 o : no_failure A -> (o = [] -> frees_zero A) -> distinct h -> fits h p N -> zlen o <= N -> bytes_at m1 p o -> untouched h m m1 ->
  exists r h2 m2, c_realloc A ((p, N) :: h) m1 (Some p) (zlen o) = (r, h2, m2) /\
    hands_over h h2 m m2 {| b_data := r; b_len := zlen o |} o /\ (o <> [] -> r <> None).
Proof.
  intros G G0 Hh [F1 F2] Hn Hb U. assert (Hd : distinct ((p, N) :: h)) by (split; [split|]; auto). pose proof (zlen_nonneg o). unfold c_realloc.
  assert (forall q, a_realloc A ((p, N) :: h) p (zlen o) = Moved q -> fits h q (zlen o) ->
    exists r h2 m2, match a_realloc A ((p, N) :: h) p (zlen o) with
    | Moved q => (Some q, (q, zlen o) :: release p ((p, N) :: h), copied m1 p q (Z.min (zlen o) (block_size p ((p, N) :: h))))
    | Null true => (None, release p ((p, N) :: h), m1) | Null false => (None, (p, N) :: h, m1) end = (r, h2, m2) /\
    hands_over h h2 m m2 {| b_data := r; b_len := zlen o |} o /\ (o <> [] -> r <> None)) as K.
  { intros q -> Fq. rewrite release_own, size_own, Z.min_l by auto. do 3 eexists. split; [reflexivity|]. split; [|discriminate].
    split; [|split].
    - split; [reflexivity|]. cbn [b_data]. split; [reflexivity|]. split; [exact Fq|]. apply copied_bytes, Hb.
    - intros a k x Hi Hx. destruct Fq as [_ Fq]. specialize (Fq a k Hi). unfold apart in Fq. unfold copied.
      destruct ((q <=? x) && (x <? q + zlen o))%bool eqn:E; [lia|]. apply (U a k); auto.
    - apply free_own. apply Fq. }
  destruct (Z.eq_dec (zlen o) 0) as [E|E].
  - assert (o = []) as E0 by (destruct o as [|c o]; [reflexivity|rewrite zlen_cons in E; pose proof (zlen_nonneg o); lia]).
    destruct (G0 E0 ((p, N) :: h) p N Hd ltac:(left; reflexivity)) as [R|(q & R & Fq)].
    + rewrite E in *. rewrite R, release_own by auto.
      subst o.
      do 3 eexists. split; [reflexivity|]. split; [|congruence]. split; [|split; [exact U|reflexivity]].
      split; [reflexivity|]. cbn [b_data]. auto.
    + apply (K q); rewrite E; auto. rewrite release_own in Fq by auto. exact Fq.
  - destruct (realloc_good A G ((p, N) :: h) p N (zlen o) Hd ltac:(left; reflexivity) ltac:(lia)) as (q & R & Fq).
    rewrite release_own in Fq by auto. apply (K q); auto.
Qed.

Lemma lives_fits h a n p N : lives h a n -> fits h p N -> p + N <= a \/ a + n <= p.
Proof. intros (q & k & Hi & H1 & H2) [_ F]. specialize (F q k Hi). unfold apart in F. lia. Qed.
Lemma outside_untouched h p N m m1 : fits h p N -> (forall x, ~ (p <= x < p + N) -> m1 x = m x) -> untouched h m m1.
Proof. intros [_ F] H q k x Hi Hx. specialize (F q k Hi). unfold apart in F. apply H. lia. Qed.

(** ** The encoders *)

Lemma enc_runs e no256 L fin col src dest data m : an_encoder e -> data <> [] -> bytes_at m src data -> 1 <= L <= INT_MAX -> 0 <= col < L ->
  in_range L col data -> (dest + max_size no256 (zlen data) L <= src \/ src + zlen data <= dest) ->
  exists m1, e (over src (zlen data) (Some dest) (max_size no256 (zlen data) L)) L col src dest (zlen data) fin m =
    Ok ((zlen (yenc L fin col data), ret_col L fin col data), m1) /\ bytes_at m1 dest (yenc L fin col data) /\
    (forall x, ~ (dest <= x < dest + max_size no256 (zlen data) L) -> m1 x = m x).
Proof.
  intros He Hd Hm HL Hc Hr Ha. pose proof (max_size_room no256 L fin col data ltac:(lia) Hc (proj1 Hr)).
  set (B := over src (zlen data) (Some dest) (max_size no256 (zlen data) L)).
  destruct (an_encoder_meets e He B L fin col src dest data m) as (m1 & R & Q); try reflexivity; auto.
  - cbn. lia.
  - cbn. lia.
  - exists m1. split; [exact R|]. split; [exact Q|]. intros x Hx.
    pose proof (an_encoder_local B B (conj eq_refl (conj eq_refl (conj eq_refl (Z.le_refl _)))) e L col src dest (zlen data) fin He m m
      (fun _ _ => eq_refl)) as W. rewrite R in W. destruct W as (m2 & E & _ & W). injection E as <-. apply W.
    unfold can_write. cbn. lia.
Qed.

Lemma enc_hands A no256 e L fin col src data h m : no_failure A -> distinct h -> an_encoder e -> lives h src (zlen data) -> data <> [] -> bytes_at m src data ->
  1 <= L <= INT_MAX -> 0 <= col < L -> in_range L col data ->
  exists p m1 r h2 m2, c_malloc A h (max_size no256 (zlen data) L) = (Some p, (p, max_size no256 (zlen data) L) :: h) /\
    e (over src (zlen data) (Some p) (max_size no256 (zlen data) L)) L col src p (zlen data) fin m =
      Ok ((zlen (yenc L fin col data), ret_col L fin col data), m1) /\
    c_realloc A ((p, max_size no256 (zlen data) L) :: h) m1 (Some p) (zlen (yenc L fin col data)) = (r, h2, m2) /\
    hands_over h h2 m m2 {| b_data := r; b_len := zlen (yenc L fin col data) |} (yenc L fin col data) /\ r <> None.
Proof.
  intros G Hh He Hl Hd Hm HL Hc Hr. pose proof (max_size_room no256 L fin col data ltac:(lia) Hc (proj1 Hr)) as HR. pose proof (zlen_nonneg (yenc L fin col data)).
  destruct (malloc_good A G h (max_size no256 (zlen data) L) Hh ltac:(lia)) as (p & Ep & Fp).
  destruct (enc_runs e no256 L fin col src p data m He Hd Hm HL Hc Hr) as (m1 & R & Q & O).
  { destruct (lives_fits _ _ _ _ _ Hl Fp); lia. }
  assert (Hne : yenc L fin col data <> []).
  { intro E. pose proof (yenc_min L fin col data ltac:(lia) Hc Hd) as X. rewrite E in X. change (zlen (@nil byte)) with 0 in X.
    assert (0 < zlen data) by (destruct data as [|c t]; [congruence|rewrite zlen_cons; pose proof (zlen_nonneg t); lia]).
    assert (0 <= (col + zlen data - 1) / L) by (apply Z.div_pos; lia). lia. }
  destruct (realloc_hands A h p _ m m1 (yenc L fin col data) G ltac:(congruence) Hh Fp ltac:(lia) Q (outside_untouched _ _ _ _ _ Fp O)) as (r & h2 & m2 & Er & HH & Hn).
  exists p, m1, r, h2, m2. unfold c_malloc. rewrite Ep. auto 6.
Qed.

Lemma encode_hands A no256 e src data args L col h m : no_failure A -> distinct h -> an_encoder e -> lives h src (zlen data) -> bytes_at m src data ->
  data <> [] -> args_give args L col -> in_range L col data ->
  exists b h' m', h_encode A no256 e src (zlen data) args h m = HReturns (Ok (b, h', m')) /\
    hands_over h h' m m' b (yenc L true col data) /\ b_data b <> None.
Proof.
  intros G Hh He Hl Hm Hd Ha Hr. destruct (enc_args_range _ _ _ Ha) as [HL Hc].
  destruct (enc_hands A no256 e L true col src data h m G Hh He Hl Hd Hm HL Hc Hr) as (p & m1 & r & h2 & m2 & E1 & E2 & E3 & E4 & E5).
  unfold h_encode. rewrite data_zlen0 by auto. unfold args_give in Ha. rewrite Ha. cbv zeta. rewrite E1. cbn [addr]. rewrite E2, E3.
  do 3 eexists. split; [reflexivity|]. split; [exact E4|exact E5].
Qed.

Lemma encode_incr_hands A no256 e src data args L col h m : no_failure A -> distinct h -> an_encoder e -> lives h src (zlen data) -> bytes_at m src data ->
  data <> [] -> args_give args L col -> in_range L col data ->
  exists b h' m', h_encode_incr A no256 e src (zlen data) None args h m =
      HReturns (Ok ((to_int32 (zlen (yenc L false col data)), Some b, ret_col L false col data), h', m')) /\
    hands_over h h' m m' b (yenc L false col data) /\ b_data b <> None.
Proof.
  intros G Hh He Hl Hm Hd Ha Hr. destruct (enc_args_range _ _ _ Ha) as [HL Hc].
  destruct (enc_hands A no256 e L false col src data h m G Hh He Hl Hd Hm HL Hc Hr) as (p & m1 & r & h2 & m2 & E1 & E2 & E3 & E4 & E5).
  unfold h_encode_incr. rewrite data_zlen0 by auto. unfold args_give in Ha. rewrite Ha. cbv zeta. rewrite E1. cbn [addr]. rewrite E2, E3.
  do 3 eexists. split; [reflexivity|]. split; [exact E4|exact E5].
Qed.

(** ** The decoders *)

Lemma a_decoder_cases D : a_decoder D -> D = scalar \/ exists n Kp Kr Ke, D = simd (2 ^ n) Kp Kr Ke /\ 1 <= n /\
  kernel_ok false false (2 ^ n) Kp /\ kernel_ok true false (2 ^ n) Kr /\ ((forall ne, D = neon_decoders ne -> n_line ne = true) -> kernel_ok true true (2 ^ n) Ke).
Proof.
  intros [|isa|isa|rv L|ne|isa F]; [left; reflexivity|right..].
  - exists 5. do 3 eexists. split; [reflexivity|]. split; [lia|]. split; [|split]; intros; apply sse_kernel_ok; congruence.
  - exists 6. do 3 eexists. split; [reflexivity|]. split; [lia|]. split; [|split]; intros; apply avx_kernel_ok; congruence.
  - exists (rv_log rv). do 3 eexists. split; [apply rvv_simd|]. split; [apply rv_log_1|]. rewrite <- dvl_pow.
    split; [|split]; intros; eapply kernel_x_ok, rvd_kernel_ok; auto; congruence.
  - exists (n_log ne). do 3 eexists. split; [apply neon_simd|]. split; [apply n_log_1|]. rewrite <- nw_pow.
    split; [|split]; intros; apply neon_kernel_ok; intros; try discriminate; auto.
  - exists 5. do 3 eexists. split; [reflexivity|]. split; [lia|]. split; [|split]; intros; apply evex_kernel_ok; auto; congruence.
Qed.

Lemma dec_runs_plain D : a_decoder D -> runs_none (dec_plain D) decode_text.
Proof. intro H. destruct (a_decoder_cases D H) as [->|(n & Kp & Kr & Ke & -> & Hn & H1 & H2 & H3)]; [apply scalar_plain|apply simd_plain; auto]. Qed.
Lemma dec_runs_end D : a_decoder D -> (forall ne, D = neon_decoders ne -> n_line ne = true) -> runs_end (dec_end D).
Proof. intros H HN. destruct (a_decoder_cases D H) as [->|(n & Kp & Kr & Ke & -> & Hn & H1 & H2 & H3)]; [apply scalar_end|apply simd_end; auto]. Qed.

Definition cut (data o : list byte) : Prop :=
  o = decode_text (unstuff true data) \/
  ends_with [EQS; CR; LF] data /\ exists c, decode_text (unstuff true data) = o ++ [c].

Lemma short_split n src data : short_case n src data -> exists o c, decode_text (unstuff true data) = o ++ [c].
Proof.
  intros (_ & _ & p & -> & H). rewrite <- run_raw_text, run_raw_app, H. cbn [run_raw]. unfold prep. cbn.
  match goal with |- context [?a ++ [?c]] => exists a, c; reflexivity | _ => idtac end.
Qed.

Lemma dec_runs_raw D B src dest data m : a_decoder D -> dgeom B src (zlen data) dest -> bytes_at m src data ->
  exists m' src' o, dec_raw D B src dest (zlen data) None m = Ok ((E_NONE, src', dest + zlen o, None), m') /\
    bytes_at m' dest o /\ (forall q, ~ (wlo B <= q < whi B) -> m' q = m q) /\ cut data o.
Proof.
  intros H Hg Hm. destruct (a_decoder_cases D H) as [->|(n & Kp & Kr & Ke & -> & Hn & H1 & H2 & H3)].
  { destruct (scalar_raw B src dest data m Hg Hm) as (m' & s' & R & Q & F). do 3 eexists. split; [exact R|]. split; [exact Q|].
    split; [exact F|left; reflexivity]. }
  destruct (simd_raw n Kr Hn H2 B src dest data m Hg Hm) as (m' & s' & u & R & Q & F & [->| ->] & U).
  - rewrite Z.sub_0_r in R. do 3 eexists. split; [exact R|]. split; [exact Q|]. split; [exact F|left; reflexivity].
  - apply proj1 in U. specialize (U eq_refl). destruct (short_split n src data U) as (o & c & E). exists m', s', o.
    rewrite E in R, Q. rewrite zlen_app in R. change (zlen [c]) with 1 in R. replace (dest + (zlen o + 1) - 1) with (dest + zlen o) in R by lia.
    split; [exact R|]. apply bytes_at_app in Q. split; [apply Q|]. split; [exact F|]. right. split; [|exists c; exact E].
    eapply short_ends; eauto.
Qed.

Lemma data_pos (data : list byte) : data <> [] -> 0 < zlen data.
Proof. destruct data as [|c t]; [congruence|]. intros _. rewrite zlen_cons. pose proof (zlen_nonneg t). lia. Qed.

Lemma dec_place A h src (data : list byte) : no_failure A -> distinct h -> lives h src (zlen data) -> data <> [] ->
  exists p, c_malloc A h (zlen data) = (Some p, (p, zlen data) :: h) /\ fits h p (zlen data) /\
    dgeom (over src (zlen data) (Some p) (zlen data)) src (zlen data) p.
Proof.
  intros G Hh Hl Hd. destruct (malloc_good A G h (zlen data) Hh (data_pos data Hd)) as (p & Ep & Fp). exists p. unfold c_malloc. rewrite Ep.
  split; [reflexivity|]. split; [exact Fp|]. pose proof (lives_fits _ _ _ _ _ Hl Fp). pose proof (data_pos data Hd).
  constructor; cbn; lia.
Qed.

Lemma decode_hands A D src data isRaw h m : no_failure A -> (isRaw = true \/ decode_text data = [] -> frees_zero A) -> distinct h -> a_decoder D -> lives h src (zlen data) -> bytes_at m src data -> data <> [] ->
  exists b h' m' o, h_decode A D src (zlen data) isRaw h m = HReturns (Ok (b, h', m')) /\ hands_over h h' m m' b o /\
    (if isRaw then cut data o else o = decode_text data) /\ (o <> [] -> b_data b <> None).
Proof.
  intros G G0 Hh HD Hl Hm Hd. destruct (dec_place A h src data G Hh Hl Hd) as (p & E1 & Fp & Hg).
  unfold h_decode. rewrite data_zlen0, E1 by auto. cbn [addr]. set (B := over src (zlen data) (Some p) (zlen data)) in *.
  assert (K : exists m1 o, decode D isRaw B src p (zlen data) None m = Ok (zlen o, m1) /\ bytes_at m1 p o /\ zlen o <= zlen data /\
    (forall q, ~ (p <= q < p + zlen data) -> m1 q = m q) /\ (if isRaw then cut data o else o = decode_text data)).
  { unfold decode. destruct isRaw.
    - destruct (dec_runs_raw D B src p data m HD Hg Hm) as (m1 & s1 & o & R & Q & F & C). exists m1, o.
      erewrite bind_ok by exact R. cbn. replace (p + zlen o - p) with (zlen o) by lia. split; [reflexivity|]. split; [exact Q|].
      split; [|split; [exact F|exact C]]. pose proof (raw_text_len data). destruct C as [->|(_ & c & E)]; [lia|].
      rewrite E, zlen_app in *. change (zlen [c]) with 1 in *. lia.
    - destruct (dec_runs_plain D HD B src p data m Hg Hm) as (m1 & s1 & R & Q & F). exists m1, (decode_text data).
      erewrite bind_ok by exact R. cbn. replace (p + zlen (decode_text data) - p) with (zlen (decode_text data)) by lia.
      split; [reflexivity|]. split; [exact Q|]. split; [apply decode_text_len|]. split; [exact F|reflexivity]. }
  destruct K as (m1 & o & R & Q & Ho & F & C).
  assert (HZ : o = [] -> frees_zero A) by (intro; apply G0; destruct isRaw; [auto|right; congruence]).
  destruct (realloc_hands A h p _ m m1 o G HZ Hh Fp Ho Q (outside_untouched _ _ _ _ _ Fp F)) as (r & h2 & m2 & Er & HH & HN).
  rewrite R, Er. do 4 eexists. split; [reflexivity|]. split; [exact HH|]. split; [exact C|exact HN].
Qed.

Lemma decode_incr_hands A D src data s h m o s' e rst : no_failure A -> (o = [] -> frees_zero A) -> distinct h -> a_decoder D -> (forall ne, D = neon_decoders ne -> n_line ne = true) ->
  lives h src (zlen data) -> bytes_at m src data -> data <> [] -> run_end s data = (o, s', e, rst) ->
  exists b h' m', h_decode_incr A D src (zlen data) s None h m =
      HReturns (Ok ((to_int32 (zlen data - zlen rst), to_int32 (zlen o), Some b, e, s'), h', m')) /\ hands_over h h' m m' b o /\ (o <> [] -> b_data b <> None).
Proof.
  intros G G0 Hh HD HN Hl Hm Hd HR. destruct (dec_place A h src data G Hh Hl Hd) as (p & E1 & Fp & Hg).
  unfold h_decode_incr. rewrite E1. cbn [addr]. set (B := over src (zlen data) (Some p) (zlen data)) in *.
  destruct (dec_runs_end D HD HN B src p data m s Hg Hm) as (m1 & o1 & s1 & e1 & r1 & HR1 & R & Q & F). rewrite HR1 in HR. injection HR as -> -> -> ->.
  rename G0 into HZ. assert (Ho : zlen o <= zlen data). { pose proof (run_end_len _ _ _ _ _ _ HR1). pose proof (rst_len _ _ _ _ _ _ HR1). lia. }
  destruct (realloc_hands A h p _ m m1 o G HZ Hh Fp Ho Q (outside_untouched _ _ _ _ _ Fp F)) as (r & h2 & m2 & Er & HH & HB).
  rewrite R. cbv zeta. replace (p + zlen o - p) with (zlen o) by lia. rewrite Er. replace (src + zlen data - zlen rst - src) with (zlen data - zlen rst) by lia.
  do 3 eexists. split; [reflexivity|]. split; [exact HH|exact HB].
Qed.

(** ** Any order of finalisation *)

Lemma release_app p a b : release p (a ++ b) = release p a ++ release p b.
Proof. unfold release. apply filter_app. Qed.
Lemma blocks_app a b : blocks (a ++ b) = blocks a ++ blocks b.
Proof. apply flat_map_app. Qed.
Lemma release_perm p h h' : Permutation h h' -> Permutation (release p h) (release p h').
Proof.
  unfold release. induction 1; cbn; auto.
  - destruct (negb (fst x =? p)); auto.
  - destruct (negb (fst x =? p)), (negb (fst y =? p)); auto using perm_swap.
  - eauto using perm_trans.
Qed.

Lemma history_ok base bs h : NoDup (map fst base) -> history base bs h -> NoDup (map fst h) /\ Permutation h (blocks bs ++ base).
Proof.
  intros Hb H. induction H as [|bs h h' m' b o H [IH1 IH2] [L O]|bs1 b bs2 h h' H [IH1 IH2] F].
  - auto.
  - unfold blocks. cbn [flat_map]. fold (blocks bs). destruct (b_data b) as [p|].
    + destruct O as (-> & [F _] & _). rewrite L. split; [cbn; constructor; auto|]. cbn. constructor. exact IH2.
    + destruct O as (-> & ->). auto.
  - unfold free_buffer in F. rewrite blocks_app in *. unfold blocks at 2 in IH2. cbn [flat_map] in IH2. fold (blocks bs2) in IH2.
    destruct (b_data b) as [p|]; [|injection F as <-; auto]. destruct (existsb _ h); [|discriminate]. injection F as <-.
    assert (P : Permutation h ((p, b_len b) :: (blocks bs1 ++ blocks bs2) ++ base)).
    { rewrite IH2. cbn. rewrite <- !app_assoc. cbn. symmetry. apply Permutation_middle. }
    assert (N : NoDup (map fst ((p, b_len b) :: (blocks bs1 ++ blocks bs2) ++ base))) by (eapply Permutation_NoDup; [apply Permutation_map, P|exact IH1]).
    cbn in N. apply NoDup_cons_iff in N as [N1 N2].
    pose proof (release_perm p _ _ P) as P2. rewrite release_own in P2 by exact N1. split; [|exact P2].
    eapply Permutation_NoDup; [symmetry; apply Permutation_map, P2|exact N2].
Qed.

Lemma history_frees base bs1 b bs2 h : NoDup (map fst base) -> history base (bs1 ++ b :: bs2) h -> exists h', free_buffer h b = Ok h'.
Proof.
  intros Hb H. destruct (history_ok base _ h Hb H) as [_ P]. unfold free_buffer. destruct (b_data b) as [p|] eqn:E; [|eauto].
  assert (existsb (fun k => fst k =? p) h = true) as ->; [|eauto]. apply existsb_exists. exists (p, b_len b). split; [|cbn; lia].
  eapply Permutation_in; [symmetry; exact P|]. rewrite blocks_app. unfold blocks at 2. cbn [flat_map]. rewrite E. cbn.
  apply in_or_app. left. apply in_or_app. right. left. reflexivity.
Qed.

(** ** When nothing is decoded *)

Lemma decode_text_nil l : decode_text l = [] <->
  exists a e, l = a ++ e /\ (forall c, In c a -> c = CR \/ c = LF) /\ (e = [] \/ e = [EQS]).
Proof.
  split.
  - induction l as [|c t IH]; intro H.
    + exists [], []. split; [reflexivity|]. split; [intros ? []|auto].
    + cbn [decode_text] in H. destruct (beq c CR || beq c LF)%bool eqn:E1.
      * destruct (IH H) as (a & e & -> & Ha & He). exists (c :: a), e. split; [reflexivity|]. split; [|exact He].
        intros d [<-|Hd]; [|auto]. apply orb_true_iff in E1 as [E1|E1]; apply beq_true in E1; auto.
      * destruct (beq c EQS) eqn:E2; [|discriminate]. destruct t; [|discriminate]. apply beq_true in E2. subst c.
        exists [], [EQS]. cbn. split; [reflexivity|]. split; [tauto|auto].
  - intros (a & e & -> & Ha & He). induction a as [|c a IH]; [destruct He as [->| ->]; reflexivity|].
    cbn [app decode_text]. destruct (Ha c (or_introl eq_refl)) as [->| ->]; cbn; apply IH; intros; apply Ha; right; assumption.
Qed.

(** ** malloc failing *)

Lemma enc_null no256 e L fin col src data m : an_encoder e -> bytes_at m src data -> data <> [] -> 1 <= L <= INT_MAX -> 0 <= col < L ->
  in_range L col data -> max_size no256 (zlen data) L <= src ->
  e (over src (zlen data) None (max_size no256 (zlen data) L)) L col src 0 (zlen data) fin m = UB.
Proof.
  intros He Hm Hd HL Hc Hr Hs.
  set (N := max_size no256 (zlen data) L) in *. set (B := over src (zlen data) None N). set (B' := over src (zlen data) (Some 0) N).
  pose proof (max_size_room no256 L fin col data ltac:(lia) Hc (proj1 Hr)) as HR. pose proof (zlen_nonneg (yenc L fin col data)).
  set (o := yenc L fin col data) in *.
  assert (Hne : 0 < zlen o).
  { pose proof (yenc_min L fin col data ltac:(lia) Hc Hd) as X. fold o in X.
    assert (0 < zlen data) by (destruct data as [|c t]; [congruence|rewrite zlen_cons; pose proof (zlen_nonneg t); lia]).
    assert (0 <= (col + zlen data - 1) / L) by (apply Z.div_pos; lia). lia. }
  destruct o as [|c o'] eqn:Eo; [change (zlen (@nil byte)) with 0 in Hne; lia|].
  set (m' := upd m 0 (if beq c x00 then x01 else x00)).
  assert (Hm' : bytes_at m' src data) by (apply bytes_at_upd; [left; lia|exact Hm]).
  destruct (enc_runs e no256 L fin col src 0 data m' He Hd Hm' HL Hc Hr ltac:(fold N; lia)) as (m1 & R & Q & _). fold N B' in R.
  assert (W : within B B') by (unfold within, B, B'; cbn; lia).
  pose proof (an_encoder_local B B' W e L col src 0 (zlen data) fin He m m') as K.
  assert (agree B m m') as KA.
  { intros a Hra. unfold can_read, B in Hra. cbn in Hra. unfold m', upd. destruct (a =? 0) eqn:E; [|reflexivity]. lia. }
  specialize (K KA). destruct (e B L col src 0 (zlen data) fin m) as [[a m2]| |]; [|reflexivity|congruence].
  destruct K as (m3 & R3 & _ & K). rewrite R in R3. injection R3 as _ <-. specialize (K 0 ltac:(unfold can_write, B; cbn; lia)).
  fold o in Q. rewrite Eo in Q. destruct Q as [Q _]. rewrite Q in K. unfold m', upd in K. cbn in K. clear - K. exfalso. revert K.
  destruct c; vm_compute; discriminate.
Qed.

Lemma encode_null A no256 e src data args L col h m : an_encoder e -> bytes_at m src data -> data <> [] -> args_give args L col ->
  in_range L col data -> a_malloc A h (max_size no256 (zlen data) L) = None -> max_size no256 (zlen data) L <= src ->
  h_encode A no256 e src (zlen data) args h m = HReturns UB /\
  h_encode_incr A no256 e src (zlen data) None args h m = HReturns UB.
Proof.
  intros He Hm Hd Ha Hr Hnull Hs. destruct (enc_args_range _ _ _ Ha) as [HL Hc]. unfold args_give in Ha.
  unfold h_encode, h_encode_incr. rewrite data_zlen0 by auto. rewrite Ha. cbv zeta. unfold c_malloc. rewrite Hnull. cbn [addr].
  rewrite !enc_null; auto.
Qed.

(** A decoder given no room at all, but something to write, is undefined. *)
Lemma null_run (d : bufs -> M eres) src (data : list byte) (m : mem) n c :
  0 < zlen data <= src -> bytes_at m src data ->
  (forall B B', within B B' -> relx (fun q => rhi B <= q < rhi B + 15) B (d B) (d B')) ->
  (forall m', bytes_at m' src data -> exists r m1, d (over src (zlen data) (Some 0) n) m' = Ok (r, m1) /\ m1 0 = c) ->
  0 <= n -> d (over src (zlen data) None n) m = UB.
Proof.
  intros Hs Hm HL HR Hn.
  set (B := over src (zlen data) None n). set (B' := over src (zlen data) (Some 0) n). set (m' := upd m 0 (if beq c x00 then x01 else x00)).
  assert (Hm' : bytes_at m' src data) by (apply bytes_at_upd; [left; lia|exact Hm]).
  destruct (HR m' Hm') as (r & m1 & R & Q). fold B' in R.
  assert (W : within B B') by (unfold within, B, B'; cbn; lia).
  assert (KA : agreex (fun q => rhi B <= q < rhi B + 15) B m m').
  { intros a Hra. unfold can_read, B in Hra. cbn in Hra. unfold m', upd. destruct (a =? 0) eqn:E; [|reflexivity]. lia. }
  specialize (HL B B' W m m' KA). destruct (d B m) as [[a m2]| |]; [|reflexivity|congruence].
  destruct HL as (m3 & R3 & _ & K). rewrite R in R3. injection R3 as _ <-. specialize (K 0 ltac:(unfold can_write, B; cbn; lia)).
  rewrite Q in K. unfold m', upd in K. cbn in K. clear - K. exfalso. revert K.
  destruct c; vm_compute; discriminate.
Qed.

Lemma null_geom src (data : list byte) : zlen data <= src -> dgeom (over src (zlen data) (Some 0) (zlen data)) src (zlen data) 0.
Proof. intro H. pose proof (zlen_nonneg data). constructor; cbn; lia. Qed.

Lemma cut_first data o c t : cut data o -> decode_text (unstuff true data) = c :: t -> t <> [] -> exists t', o = c :: t'.
Proof.
  intros [->|(_ & d & E)] H Ht; [eauto|]. rewrite H in E. destruct o as [|x o]; [cbn in E; congruence|]. cbn in E. injection E as <- _. eauto.
Qed.

Lemma decode_null A D src data (isRaw : bool) h m : a_decoder D -> bytes_at m src data -> zlen data <= src ->
  (if isRaw then 2 <= zlen (decode_text (unstuff true data)) else decode_text data <> []) ->
  a_malloc A h (zlen data) = None -> h_decode A D src (zlen data) isRaw h m = HReturns UB.
Proof.
  intros HD Hm Hs Ho Hnull.
  assert (Hd : data <> []). { intros ->. destruct isRaw; [cbn in Ho; lia|apply Ho; reflexivity]. }
  pose proof (data_pos data Hd). unfold h_decode. rewrite data_zlen0 by auto. unfold c_malloc. rewrite Hnull. cbn [addr].
  assert (K : (if isRaw then dec_raw D else dec_plain D) (over src (zlen data) None (zlen data)) src 0 (zlen data) None m = UB).
  { destruct isRaw.
    - destruct (decode_text (unstuff true data)) as [|c t] eqn:E; [cbn in Ho; lia|].
      assert (t <> []) as Ht by (intros ->; cbn in Ho; lia).
      apply (null_run (fun B => dec_raw D B src 0 (zlen data) None) src data m (zlen data) c); auto; try lia.
      + intros B B' W. apply (a_decoder_local _ B B' W D src 0 (zlen data) None HD).
      + intros m' Hm'. destruct (dec_runs_raw D _ src 0 data m' HD (null_geom src data Hs) Hm') as (m1 & s1 & o & R & Q & _ & C).
        destruct (cut_first data o c t C E Ht) as (t' & ->). do 2 eexists. split; [exact R|]. apply Q.
    - destruct (decode_text data) as [|c t] eqn:E; [congruence|].
      apply (null_run (fun B => dec_plain D B src 0 (zlen data) None) src data m (zlen data) c); auto; try lia.
      + intros B B' W. apply (a_decoder_local _ B B' W D src 0 (zlen data) None HD).
      + intros m' Hm'. destruct (dec_runs_plain D HD _ src 0 data m' (null_geom src data Hs) Hm') as (m1 & s1 & R & Q & _).
        rewrite E in *. do 2 eexists. split; [exact R|]. apply Q. }
  unfold decode, bind. rewrite K. reflexivity.
Qed.

Lemma decode_incr_null A D src data s h m o s' e rst : a_decoder D -> (forall ne, D = neon_decoders ne -> n_line ne = true) -> bytes_at m src data -> zlen data <= src ->
  run_end s data = (o, s', e, rst) -> o <> [] -> a_malloc A h (zlen data) = None -> h_decode_incr A D src (zlen data) s None h m = HReturns UB.
Proof.
  intros HD HN Hm Hs HR Ho Hnull.
  assert (Hd : data <> []). { intros ->. cbn in HR. congruence. }
  pose proof (data_pos data Hd). unfold h_decode_incr, c_malloc. rewrite Hnull. cbn [addr].
  destruct o as [|c t]; [congruence|].
  rewrite (null_run (fun B => dec_end D B src 0 (zlen data) (Some s)) src data m (zlen data) c); auto; try lia.
  - intros B B' W. apply (a_decoder_local_end _ B B' W D src 0 (zlen data) (Some s) HD). auto.
  - intros m' Hm'. destruct (dec_runs_end D HD HN _ src 0 data m' s (null_geom src data Hs) Hm') as
      (m1 & o1 & s1 & e1 & r1 & HR1 & R & Q & _). rewrite HR1 in HR. injection HR as -> -> -> ->. do 2 eexists. split; [exact R|]. apply Q.
Qed.

Lemma nothing_allocated : forall A no256 e D src len args dst isRaw s h m,
  (forall h', h_encode A no256 e src len args h m = HThrows h' -> h' = h) /\
  (forall h', h_encode_incr A no256 e src len dst args h m = HThrows h' -> h' = h) /\
  (forall h', h_decode_incr A D src len s dst h m = HThrows h' -> h' = h) /\
  (forall r h' m', h_encode_incr A no256 e src len dst args h m = HReturns (Ok (r, h', m')) ->
     len = 0 \/ dst <> None -> h' = h /\ snd (fst r) = None) /\
  (forall r h' m', h_decode_incr A D src len s dst h m = HReturns (Ok (r, h', m')) ->
     dst <> None -> h' = h /\ snd (fst (fst r)) = None) /\
  (len = 0 -> exists b, b_data b = None /\ b_len b = 0 /\
     h_encode A no256 e src len args h m = HReturns (Ok (b, h, m)) /\
     h_decode A D src len isRaw h m = HReturns (Ok (b, h, m))).
Proof.
  intros. split; [|split; [|split; [|split; [|split]]]].
  - unfold h_encode. destruct (len =? 0); [discriminate|]. destruct (enc_args args) as [[L c]|]; [|congruence].
    cbv zeta. destruct (c_malloc A h _). discriminate.
  - unfold h_encode_incr. destruct (match dst with Some (_, dcap) => _ | None => _ end); [congruence|].
    destruct (enc_args args) as [[L c]|]; [|congruence]. destruct (len =? 0); [discriminate|]. cbv zeta.
    destruct dst as [[d k]|]; [discriminate|]. destruct (c_malloc A h _). discriminate.
  - unfold h_decode_incr. destruct (match dst with Some (_, dcap) => _ | None => _ end); [congruence|].
    destruct dst as [[d k]|]; [discriminate|]. destruct (c_malloc A h _). discriminate.
  - intros r h' m' H [E|E]; revert H; unfold h_encode_incr;
      (destruct (match dst with Some (_, dcap) => _ | None => _ end); [discriminate|]); (destruct (enc_args args) as [[L c]|]; [|discriminate]).
    + subst len. rewrite Z.eqb_refl. intro H. injection H as <- <- <-. auto.
    + destruct (len =? 0); [intro H; injection H as <- <- <-; auto|]. destruct dst as [[d k]|]; [|congruence].
      destruct (e _ _ _ _ _ _ _ _) as [[[n c'] m1]| |]; try discriminate. intro H. injection H as <- <- <-. auto.
  - intros r h' m' H E. revert H. unfold h_decode_incr. destruct (match dst with Some (_, dcap) => _ | None => _ end); [discriminate|].
    destruct dst as [[d k]|]; [|congruence]. destruct (dec_end D _ _ _ _ _ _) as [[[[[e1 sp] dp] [st|]] m1]| |]; try discriminate.
    intro H. injection H as <- <- <-. auto.
  - intros ->. exists no_buffer. unfold h_encode, h_decode. auto.
Qed.
