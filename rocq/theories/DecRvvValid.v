(** The RVV decoder, for vectors of any length, on texts without invalid escape
    sequences. *)
From Verif Require Import Base BaseLemmas Frame EncModel EncSpec EncNode EncNodeSpec EncNodeProofs PropsEncLemmas DecSpec DecModel DecProofs DecEndProofs DecText DecNode
  DecNodeSpec DecNodeProofs PropsDecLemmas DecGrow DecSimdModel DecSimdSpec DecSimdProofs DecSimdMain PropsSimdLemmas
  DecBlock DecKernel DecValid DecRvvModel DecRvvMain.
From Coq Require Import ZifyBool ZifyNat ZifyN.
Ltac Zify.zify_post_hook ::= Z.div_mod_to_equations.

(** ** The front-end *)

Section Front.
Variables (n : Z) (K : kernel).
Hypothesis Hn : 1 <= n.

Lemma valid_none l : valid_escapes l -> valid_for (start None) l.
Proof. intro H. unfold valid_for. apply vb_state. apply vb_spec. exact H. Qed.

Lemma plain_valid : kernel_ok_on valid_for false false (2 ^ n) K ->
  forall B src dest data m, dgeom B src (zlen data) dest -> bytes_at m src data -> valid_escapes data ->
  exists m' src', do_decode_simd K false false (2 ^ n) B src dest (zlen data) None m =
      Ok ((E_NONE, src', dest + zlen (decode_text data), None), m') /\
    bytes_at m' dest (decode_text data) /\ (forall q, ~ (wlo B <= q < whi B) -> m' q = m q).
Proof.
  intros HK B src dest data m G Hm Hv.
  destruct (simd_run_on K false false n valid_for HK valid_fst (valid_enter false) (valid_mode false false) ltac:(auto) Hn B src dest data m None G Hm) as
    (m' & o & s' & e' & rst & u & R & C & Q & F & U1 & U2); try discriminate.
  { intro. exact I. }
  { apply valid_none. exact Hv. }
  assert (u = 0) as ->. { destruct U1 as [->| ->]; auto. destruct (proj1 U2 eq_refl) as (_ & X & _). discriminate X. }
  cbn [start closes] in *. unfold run_mode in R.
  pose proof (run_plain_text S_CRLF data ltac:(discriminate)) as T.
  destruct (run_plain S_CRLF data) as [o1 s1]. injection R as -> -> <- <-. cbn [fst] in T. subst o.
  exists m', (src + zlen data). rewrite C. change (zlen (@nil byte)) with 0. rewrite !Z.sub_0_r. split; [reflexivity|]. split; [exact Q|].
  eapply dgeom_frame; eauto.
Qed.

Lemma raw_valid : kernel_ok_on valid_for true false (2 ^ n) K ->
  forall B src dest data m, dgeom B src (zlen data) dest -> bytes_at m src data -> valid_escapes data ->
  exists m' src', do_decode_simd K true false (2 ^ n) B src dest (zlen data) None m =
      Ok ((E_NONE, src', dest + zlen (decode_text (unstuff true data)), None), m') /\
    bytes_at m' dest (decode_text (unstuff true data)) /\ (forall q, ~ (wlo B <= q < whi B) -> m' q = m q).
Proof.
  intros HK B src dest data m G Hm Hv.
  destruct (simd_run_on K true false n valid_for HK valid_fst (valid_enter true) (valid_mode true false) ltac:(auto) Hn B src dest data m None G Hm) as
    (m' & o & s' & e' & rst & u & R & C & Q & F & U1 & U2); try discriminate.
  { intro. exact I. }
  { apply valid_none. exact Hv. }
  assert (u = 0) as ->.
  { destruct U1 as [->| ->]; auto. exfalso.
    assert (SC : short_case n src data).
    { destruct (proj1 U2 eq_refl) as (X1 & _ & _ & X2). split; assumption. }
    destruct (short_ends n src data Hn SC) as [t Ht]. destruct (Hv t CR [LF] Ht) as (_ & X & _). apply X. reflexivity. }
  cbn [start closes] in *. unfold run_mode in R. pose proof (run_raw_text data) as T.
  destruct (run_raw S_CRLF data) as [o1 s1]. injection R as -> -> <- <-. cbn [fst] in T. subst o.
  exists m', (src + zlen data). rewrite C. change (zlen (@nil byte)) with 0. rewrite !Z.sub_0_r. split; [reflexivity|]. split; [exact Q|].
  eapply dgeom_frame; eauto.
Qed.

Lemma end_valid : kernel_ok_on valid_for true true (2 ^ n) K ->
  forall B src dest data m s, dgeom B src (zlen data) dest -> bytes_at m src data -> valid_for s data ->
  exists m' o s' e rst, run_end s data = (o, s', e, rst) /\
      do_decode_simd K true true (2 ^ n) B src dest (zlen data) (Some s) m =
        Ok ((e, src + zlen data - zlen rst, dest + zlen o, Some s'), m') /\
      bytes_at m' dest o /\ (forall q, ~ (wlo B <= q < whi B) -> m' q = m q).
Proof.
  intros HK B src dest data m s G Hm Hv.
  destruct (simd_run_on K true true n valid_for HK valid_fst (valid_enter true) (valid_mode true true) ltac:(auto) Hn B src dest data m (Some s) G Hm) as
    (m' & o & s' & e' & rst & u & R & C & Q & F & U1 & U2); try discriminate.
  { exact Hv. }
  assert (u = 0) as ->. { destruct U1 as [->| ->]; auto. destruct (proj1 U2 eq_refl) as (_ & _ & X & _). discriminate X. }
  cbn [start closes] in *. unfold run_mode in R. exists m', o, s', e', rst. split; [exact R|].
  rewrite C, (Z.sub_0_r (dest + _)). split; [reflexivity|]. split; [exact Q|]. eapply dgeom_frame; eauto.
Qed.
End Front.

(** ** A decoder that turns to the scalar code for other texts *)

Definition guard (d d0 : decoder) : decoder := fun B src dest len st m =>
  if vb (after_eq (start st)) (read_n m src (Z.to_nat len)) then d B src dest len st m else d0 B src dest len st m.

Definition guarded (D : decoders) : decoders :=
  {| dec_plain := guard (dec_plain D) (dec_plain scalar); dec_raw := guard (dec_raw D) (dec_raw scalar);
     dec_end := guard (dec_end D) (dec_end scalar) |}.

Lemma read_data m src data : bytes_at m src data -> read_n m src (Z.to_nat (zlen data)) = data.
Proof. intro H. unfold zlen. rewrite Nat2Z.id. apply bytes_at_read. exact H. Qed.

Lemma guard_valid d d0 B src dest data st m : bytes_at m src data -> valid_for (start st) data ->
  guard d d0 B src dest (zlen data) st m = d B src dest (zlen data) st m.
Proof. intros H1 H2. unfold guard. rewrite (read_data _ _ _ H1). apply vb_state in H2. rewrite H2. reflexivity. Qed.

Lemma guard_other d d0 B src dest data st m : bytes_at m src data -> vb (after_eq (start st)) data = false ->
  guard d d0 B src dest (zlen data) st m = d0 B src dest (zlen data) st m.
Proof. intros H1 H2. unfold guard. rewrite (read_data _ _ _ H1), H2. reflexivity. Qed.

Lemma guarded_meets n Kp Kr Ke : 1 <= n -> kernel_ok_on valid_for false false (2 ^ n) Kp ->
  kernel_ok_on valid_for true false (2 ^ n) Kr -> kernel_ok_on valid_for true true (2 ^ n) Ke ->
  meets_dec (guarded (simd (2 ^ n) Kp Kr Ke)).
Proof.
  intros Hn H1 H2 H3. split; [|split].
  - intros B src dest data m G Hm. cbn [guarded dec_plain]. destruct (vb (after_eq (start None)) data) eqn:E.
    + rewrite guard_valid; [|exact Hm|apply vb_state; exact E]. apply (plain_valid n Kp Hn H1 B src dest data m G Hm). apply vb_spec. exact E.
    + rewrite guard_other by assumption. exact (scalar_plain B src dest data m G Hm).
  - intros B src dest data m G Hm. cbn [guarded dec_raw]. destruct (vb (after_eq (start None)) data) eqn:E.
    + rewrite guard_valid; [|exact Hm|apply vb_state; exact E]. apply (raw_valid n Kr Hn H2 B src dest data m G Hm). apply vb_spec. exact E.
    + rewrite guard_other by assumption. exact (scalar_raw B src dest data m G Hm).
  - intros B src dest data m s G Hm. cbn [guarded dec_end]. destruct (vb (after_eq (start (Some s))) data) eqn:E.
    + rewrite guard_valid; [|exact Hm|apply vb_state; exact E]. apply (end_valid n Ke Hn H3 B src dest data m s G Hm). apply vb_state. exact E.
    + rewrite guard_other by assumption. exact (scalar_end B src dest data m s G Hm).
Qed.

(** What the guarded decoder returns, the decoder itself returns for valid texts. *)
Lemma decode_guarded D isRaw B src dest data m : bytes_at m src data -> valid_escapes data ->
  decode (guarded D) isRaw B src dest (zlen data) None m = decode D isRaw B src dest (zlen data) None m.
Proof.
  intros Hm Hv. unfold decode, bind. destruct isRaw; cbn [guarded dec_raw dec_plain]; rewrite guard_valid; auto; apply valid_none; exact Hv.
Qed.

Lemma returns_guarded D data isRaw o : valid_escapes data -> decode_returns (guarded D) data isRaw o -> decode_returns D data isRaw o.
Proof.
  intros Hv H malloc src m Hm Hf. rewrite <- (H malloc src m Hm Hf). unfold node_decode. cbv zeta. rewrite decode_guarded by assumption. reflexivity.
Qed.

Lemma returnsTo_guarded D data isRaw o : valid_escapes data -> decodeTo_returns (guarded D) data isRaw o -> decodeTo_returns D data isRaw o.
Proof.
  intros Hv H src dest dcap m Hm Hf Hd. destruct (H src dest dcap m Hm Hf Hd) as (m' & E & H'). exists m'. split; [|exact H'].
  rewrite <- E. unfold node_decode_to. cbv zeta. rewrite decode_guarded by assumption. reflexivity.
Qed.

Lemma chunk_state_text s : chunk_state (slice_last 4 (state_text s)) = Some (index_of_state s) /\
  str_eqb (slice_last 4 (state_text s)) [CR; LF; DOT; EQS] = false /\ state_of_index (index_of_state s) = s.
Proof. destruct s; repeat split. Qed.

Lemma chunk_guarded D data prev r : is_state prev -> valid_escapes (prev ++ data) ->
  decodeChunk_returns (guarded D) data prev r -> decodeChunk_returns D data prev r.
Proof.
  intros [s ->] Hv H malloc src m Hm Hf. destruct (H malloc src m Hm Hf) as (m' & E). exists m'. rewrite <- E.
  destruct (chunk_state_text s) as (E1 & E2 & E3).
  unfold js_decodeChunk. cbn [chunk_args]. rewrite E2, E1, E3. unfold node_decode_incr. cbv zeta. cbn [guarded dec_end].
  rewrite guard_valid; [reflexivity|exact Hm|exact Hv].
Qed.

(** ** Encoded text *)

Lemma vb_false_cons c l : vb false (c :: l) = vb (is_eq c) l.
Proof. reflexivity. Qed.

Lemma enc_char_valid f l c t : vb false (enc_char f l c ++ t) = vb false t.
Proof.
  unfold enc_char. destruct (must_escape f l c) eqn:E; cbn [app].
  - rewrite vb_false_cons. cbn [vb]. destruct f, l, c; vm_compute in E; try discriminate E; reflexivity.
  - rewrite vb_false_cons. replace (is_eq (shifted c)) with false; [reflexivity|].
    unfold must_escape, is_crit in E. cbv zeta in E. unfold is_eq. destruct (beq (shifted c) EQS); [|reflexivity].
    rewrite !orb_true_r in E. discriminate E.
Qed.

Lemma yenc_valid L fin col data : valid_escapes (yenc L fin col data).
Proof.
  apply vb_spec. revert col; induction data as [|c t IH]; intro col; [reflexivity|].
  cbn [yenc]. destruct (L <=? col).
  - rewrite !vb_false_cons. change (is_eq LF) with false. rewrite enc_char_valid. apply IH.
  - rewrite enc_char_valid. apply IH.
Qed.

Lemma stuff_valid l : valid_escapes l -> valid_escapes (stuff true l).
Proof.
  rewrite <- !vb_spec.
  assert (G : forall n l b p, (length l <= n)%nat -> (b = true -> p = false) -> vb p l = true -> vb p (stuff b l) = true).
  { clear. induction n as [|n IH]; intros l b p Hn Hb H; (destruct l as [|c t]; [reflexivity|]); cbn [length] in Hn; [lia|].
    assert (R : vb p (match t with d :: t' => if beq c CR && beq d LF then CR :: LF :: stuff true t' else c :: stuff false t | [] => [c] end) = true).
    { destruct t as [|d t']; [exact H|]. destruct (beq c CR && beq d LF) eqn:E.
      - apply andb_true_iff in E as [E1 E2]. apply beq_true in E1, E2. subst c d.
        cbn [vb] in H |- *. apply andb_true_iff in H as [H1 H]. rewrite H1. cbn [andb] in *. change (is_eq CR) with false in *. cbn [negb andb] in *.
        apply IH; [cbn [length] in Hn; lia|reflexivity|exact H].
      - change (vb p (c :: d :: t')) with (negb (p && special c) && vb (is_eq c) (d :: t')) in H.
        cbn [vb]. apply andb_true_iff in H as [H1 H]. rewrite H1. cbn [andb]. apply IH; [lia|discriminate|exact H]. }
    cbn [stuff]. cbv zeta. destruct (b && beq c DOT) eqn:E; [|exact R].
    apply andb_true_iff in E as [-> E]. rewrite (Hb eq_refl) in *. rewrite vb_false_cons. exact R. }
  intro H. apply (G (length l)); auto.
Qed.

(** ** All of it for RVV *)

Lemma rvv_valid_kernel rv isRaw searchEnd : (searchEnd = true -> isRaw = true) ->
  kernel_ok_on valid_for isRaw searchEnd (2 ^ rv_log rv) (do_decode_rvv rv isRaw searchEnd).
Proof. intro H. rewrite <- dvl_pow. eapply kernel_on_x_ok, rvd_kernel_valid. exact H. Qed.

Lemma rvv_guarded rv : meets_dec (guarded (rvv_decoders rv)).
Proof.
  rewrite rvv_simd. apply guarded_meets; [apply rv_log_1| | |]; apply rvv_valid_kernel; auto.
Qed.

(** A stream of valid text. *)
Lemma chain_valid D : meets_dec (guarded D) -> forall chunks s o s' e rst,
  Forall small chunks -> valid_for s (concat chunks) -> run_end s (concat chunks) = (o, s', e, rst) ->
  chunk_chain D (state_text s) chunks o (zlen (concat chunks) - zlen rst)
    (match e with E_NONE => false | _ => true end) (end_text s' e).
Proof.
  intro HD. induction chunks as [|d ds IH]; intros s o s' e rst Hs Hv H.
  - cbn [concat run_end] in H. injection H as <- <- <- <-. apply cchain_nil.
  - cbn [concat] in *. rewrite run_end_app in H. inversion Hs as [|? ? Hd Hds]; subst.
    destruct (run_end s d) as [[[o1 s1] e1] r1] eqn:E1.
    pose proof (chunk_guarded D d (state_text s) _ (ex_intro _ s eq_refl) (valid_fst _ _ _ Hv) (decodeChunk_spec (guarded D) HD d s)) as C. rewrite E1 in C.
    pose proof (rst_len _ _ _ _ _ _ E1) as L1. unfold small in Hd.
    destruct e1.
    + pose proof (run_end_done _ _ _ _ _ E1). subst r1.
      destruct (run_end s1 (concat ds)) as [[[o2 s2] e2] r2] eqn:E2. cbn [prep4] in H.
      injection H as <- <- <- <-.
      specialize (IH _ _ _ _ _ Hds (valid_mode true true _ _ _ _ _ _ Hv E1) E2).
      pose proof (cchain_go D _ d ds _ _ _ _ _ C eq_refl IH) as K.
      cbn [chunk_of c_output c_read] in K. rewrite int32_small in K by lia.
      change (zlen (@nil byte)) with 0 in K. rewrite zlen_app.
      replace (zlen d + zlen (concat ds) - zlen r2) with (zlen d - 0 + (zlen (concat ds) - zlen r2)) by lia.
      exact K.
    + injection H as <- <- <- <-.
      pose proof (cchain_end D _ d ds _ C eq_refl) as K. cbn [chunk_of c_output c_read c_state] in K.
      rewrite int32_small in K by lia. rewrite !zlen_app.
      replace (zlen d + zlen (concat ds) - (zlen r1 + zlen (concat ds))) with (zlen d - zlen r1) by lia.
      exact K.
    + injection H as <- <- <- <-.
      pose proof (cchain_end D _ d ds _ C eq_refl) as K. cbn [chunk_of c_output c_read c_state] in K.
      rewrite int32_small in K by lia. rewrite !zlen_app.
      replace (zlen d + zlen (concat ds) - (zlen r1 + zlen (concat ds))) with (zlen d - zlen r1) by lia.
      exact K.
Qed.

Lemma chunks_valid D : meets_dec (guarded D) -> forall data args L chunks,
  data <> [] -> args_give args L 0 -> in_range L 0 data -> Forall small chunks ->
  forall o, encode_returns do_encode_generic data args o -> concat chunks = o ->
  exists st, chunk_chain D [CR; LF] chunks data (zlen o) false st.
Proof.
  intros HD data args L chunks Hd Ha Hr Hs o Ho Hc. destruct (enc_args_range _ _ _ Ha) as [[HL _] _].
  assert (o = yenc L true 0 data).
  { pose proof (enc_ok data args L 0 Hd Ha Hr) as E.
    assert (F : fresh_malloc (fun _ => zlen data) 0 (zlen data)) by (intros n Hn; unfold apart; lia).
    specialize (E (fun _ => zlen data) 0 (mem_of 0 data) (bytes_at_mem_of 0 data) F).
    specialize (Ho (fun _ => zlen data) 0 (mem_of 0 data) (bytes_at_mem_of 0 data) F). congruence. }
  subst o. destruct (chunk_of_yenc L data HL) as (s' & E). rewrite <- H in E.
  assert (V : valid_for S_CRLF (concat chunks)) by (rewrite H; apply vb_state, vb_spec, yenc_valid).
  pose proof (chain_valid D HD _ _ _ _ _ _ Hs V E) as K. cbn [end_text state_text] in K.
  exists (state_text s'). change (zlen (@nil byte)) with 0 in K. rewrite Z.sub_0_r in K. exact K.
Qed.

Lemma rvv_roundtrip_plain rv data args L col : data <> [] -> args_give args L col -> in_range L col data ->
  exists o, encode_returns do_encode_generic data args o /\ decode_returns (rvv_decoders rv) o false data.
Proof.
  intros Hd Ha Hr. exists (yenc L true col data). split; [apply enc_ok; assumption|].
  apply returns_guarded; [apply yenc_valid|].
  pose proof (decode_spec _ (rvv_guarded rv) (yenc L true col data) false) as H. unfold reference in H. rewrite decode_yenc in H. exact H.
Qed.

Lemma rvv_roundtrip_raw rv data args L : data <> [] -> args_give args L 0 -> in_range L 0 data ->
  exists o, encode_returns do_encode_generic data args o /\
    decode_returns (rvv_decoders rv) o true data /\ decode_returns (rvv_decoders rv) (stuff true o) true data.
Proof.
  intros Hd Ha Hr. destruct (enc_args_range _ _ _ Ha) as [[HL _] _].
  exists (yenc L true 0 data). split; [apply enc_ok; assumption|].
  destruct (roundtrip_raw _ data args L (rvv_guarded rv) Hd Ha Hr) as (o & E1 & E2 & E3).
  assert (o = yenc L true 0 data) as ->.
  { pose proof (enc_ok data args L 0 Hd Ha Hr) as E.
    assert (F : fresh_malloc (fun _ => zlen data) 0 (zlen data)) by (intros n Hn; unfold apart; lia).
    specialize (E (fun _ => zlen data) 0 (mem_of 0 data) (bytes_at_mem_of 0 data) F).
    specialize (E1 (fun _ => zlen data) 0 (mem_of 0 data) (bytes_at_mem_of 0 data) F). congruence. }
  split; apply returns_guarded; try assumption; [|apply stuff_valid]; apply yenc_valid.
Qed.
