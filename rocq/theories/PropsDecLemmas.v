(** Lemmas from which the properties of the decoder follow. *)
From Verif Require Import Base BaseLemmas Frame EncModel EncSpec EncSize EncNode EncNodeSpec EncNodeProofs PropsEncLemmas
  DecSpec DecModel DecProofs DecEndProofs DecText DecNode DecNodeSpec DecNodeProofs.
From Coq Require Import ZifyBool ZifyNat ZifyN.
Ltac Zify.zify_post_hook ::= Z.div_mod_to_equations.

Definition small (d : list byte) : Prop := zlen d < 2 ^ 31.

Lemma int32_small z : 0 <= z < 2 ^ 31 -> to_int32 z = z.
Proof. intro H. unfold to_int32. lia. Qed.

Lemma rst_len s data o s' e rst : run_end s data = (o, s', e, rst) -> 0 <= zlen rst <= zlen data.
Proof.
  intro H. destruct (run_end_marker _ _ _ _ _ _ H) as (p & -> & _). rewrite zlen_app.
  pose proof (zlen_nonneg p). pose proof (zlen_nonneg rst). lia.
Qed.

Section Chunks.
Variable D : decoders.
Hypothesis HD : meets_dec D.

Lemma chain_spec : forall chunks s o s' e rst,
  Forall small chunks -> run_end s (concat chunks) = (o, s', e, rst) ->
  chunk_chain D (state_text s) chunks o (zlen (concat chunks) - zlen rst)
    (match e with E_NONE => false | _ => true end) (end_text s' e).
Proof.
  induction chunks as [|d ds IH]; intros s o s' e rst Hs H.
  - cbn [concat run_end] in H. injection H as <- <- <- <-. apply cchain_nil.
  - cbn [concat] in *. rewrite run_end_app in H. inversion Hs as [|? ? Hd Hds]; subst.
    destruct (run_end s d) as [[[o1 s1] e1] r1] eqn:E1.
    pose proof (decodeChunk_spec D HD d s) as C. rewrite E1 in C.
    pose proof (rst_len _ _ _ _ _ _ E1) as L1. unfold small in Hd.
    destruct e1.
    + pose proof (run_end_done _ _ _ _ _ E1). subst r1.
      destruct (run_end s1 (concat ds)) as [[[o2 s2] e2] r2] eqn:E2. cbn [prep4] in H.
      injection H as <- <- <- <-. specialize (IH _ _ _ _ _ Hds E2).
      pose proof (cchain_go D _ d ds _ _ _ _ _ C eq_refl IH) as K.
      cbn [chunk_of c_output c_read] in K. rewrite int32_small in K by lia.
      change (zlen (@nil byte)) with 0 in K. rewrite zlen_app.
      replace (zlen d + zlen (concat ds) - zlen r2) with (zlen d - 0 + (zlen (concat ds) - zlen r2)) by lia.
      exact K.
    + injection H as <- <- <- <-.
      pose proof (cchain_end D _ d ds _ C eq_refl) as K. cbn [chunk_of c_output c_read c_state] in K.
      rewrite int32_small in K by lia. rewrite !zlen_app.
      replace (zlen d + zlen (concat ds) - (zlen r1 + zlen (concat ds))) with (zlen d - zlen r1) by lia.
      exact K.
    + injection H as <- <- <- <-.
      pose proof (cchain_end D _ d ds _ C eq_refl) as K. cbn [chunk_of c_output c_read c_state] in K.
      rewrite int32_small in K by lia. rewrite !zlen_app.
      replace (zlen d + zlen (concat ds) - (zlen r1 + zlen (concat ds))) with (zlen d - zlen r1) by lia.
      exact K.
Qed.

Lemma chain_same prev chunks : is_state prev -> Forall small chunks -> small (concat chunks) ->
  exists r, decodeChunk_returns D (concat chunks) prev r /\
    chunk_chain D prev chunks (c_output r) (c_read r) (c_ended r) (c_state r).
Proof.
  intros [s ->] Hs Hc. exists (chunk_of (concat chunks) (run_end s (concat chunks))).
  split; [apply decodeChunk_spec; exact HD|].
  destruct (run_end s (concat chunks)) as [[[o s'] e] rst] eqn:E.
  pose proof (chain_spec _ _ _ _ _ _ Hs E) as K. pose proof (rst_len _ _ _ _ _ _ E).
  unfold small in Hc. cbn [chunk_of c_output c_read c_ended c_state].
  rewrite int32_small by lia. exact K.
Qed.

(** Supplied output buffer, possibly the source itself. *)
Lemma chunk_into data s malloc src dest dcap m :
  bytes_at m src data -> data <> [] -> zlen data <= dcap -> dec_layout src (zlen data) dest ->
  exists r' m', js_decodeChunk D malloc src (zlen data) (JBuf dest dcap) (JStr (state_text s)) m
      = Returns (Ok (r', m')) /\
    let r := chunk_of data (run_end s data) in
    c_read r' = c_read r /\ c_written r' = c_written r /\ c_ended r' = c_ended r /\ c_state r' = c_state r /\
    bytes_at m' dest (c_output r) /\ (forall q, ~ (dest <= q < dest + dcap) -> m' q = m q).
Proof.
  intros Hm Hne Hc Hl. unfold js_decodeChunk, chunk_args.
  destruct (prev_state s) as (P1 & P2 & (i & P3 & P4) & P5). rewrite P1, P2.
  rewrite zlen_pos by auto. rewrite P3, P4. unfold node_decode_incr.
  destruct (dcap <? zlen data) eqn:E1; [lia|].
  match goal with |- context [dec_end D ?B] =>
    destruct (incr_ok D HD data s src dest dcap m B) as (m' & o & s' & e & rst & E & R & Q & F); auto end.
  eexists _, m'. rewrite R, E. split; [reflexivity|].
  cbn [chunk_of ir_read ir_written ir_output ir_ended ir_state c_read c_written c_output c_ended c_state].
  destruct (prev_state s') as (_ & _ & _ & P6). rewrite P6.
  replace (src + zlen data - zlen rst - src) with (zlen data - zlen rst) by lia.
  rewrite Z.add_simpl_l. unfold end_text. auto 10.
Qed.
End Chunks.

(** ** Round trips *)

Lemma chunk_of_yenc L data : 1 <= L ->
  exists s', run_end S_CRLF (yenc L true 0 data) = (data, s', E_NONE, []).
Proof.
  intro HL. destruct (run_end S_CRLF (yenc L true 0 data)) as [[[o s'] e] rst] eqn:E.
  assert (K : forall q p2 e', yenc L true 0 data = q ++ p2 -> ~ ends_in_marker e' (state_text S_CRLF ++ q)).
  { intros q p2 e' Hq Hm.
    assert (ND : forall y, ~ (q = DOT :: y)).
    { intros y Hy. apply (yenc_no_dot L data HL). exists (y ++ p2). rewrite Hq, Hy. reflexivity. }
    assert (NM : forall a b, q = a ++ CR :: LF :: b -> ~ starts_with [DOT] (b ++ p2) /\ ~ starts_with [EQS; YY] (b ++ p2)).
    { intros a b Ha. apply (no_marker L true 0 data a (b ++ p2) HL ltac:(lia)). rewrite Hq, Ha, <- app_assoc. reflexivity. }
    assert (NS : forall t, q <> EQS :: YY :: t).
    { intros t Ht. pose proof (line_safe_yenc L true 0 data) as (_ & _ & _ & S4).
      destruct (S4 [] (YY :: t ++ p2)) as (c & b' & Hb & Hc). { rewrite Hq, Ht. reflexivity. }
      injection Hb as <- _. apply EncShape.legal_not in Hc. destruct Hc as (_ & _ & _ & _ & Hc & _). congruence. }
    (* a marker inside [q] or starting with the virtual CRLF *)
    assert (CASE : forall t x, state_text S_CRLF ++ q = t ++ CR :: LF :: x ->
       (t = [] /\ q = x) \/ exists a, q = a ++ CR :: LF :: x).
    { intros t x Ht. cbn [state_text app] in Ht. destruct t as [|t1 [|t2 t]].
      - injection Ht as Ht. auto.
      - injection Ht as <- Ht. discriminate.
      - injection Ht as <- <- Ht. right. exists t. exact Ht. }
    destruct e'; cbn [ends_in_marker] in Hm; [exact Hm| |].
    - destruct Hm as [[t Ht]|[t Ht]]; apply CASE in Ht; destruct Ht as [[_ Ht]|[a Ha]].
      + eapply NS; eauto.
      + destruct (NM _ _ Ha) as [_ N]. apply N. exists p2. reflexivity.
      + eapply ND; eauto.
      + destruct (NM _ _ Ha) as [N _]. apply N. eexists. reflexivity.
    - destruct Hm as [t Ht]. apply CASE in Ht. destruct Ht as [[_ Ht]|[a Ha]].
      + eapply ND; eauto.
      + destruct (NM _ _ Ha) as [N _]. apply N. eexists. reflexivity. }
  destruct (run_end_marker _ _ _ _ _ _ E) as (p & Hp & A1 & A2).
  destruct (run_end_raw _ _ _ _ _ _ E) as [B1 _].
  destruct e.
  - destruct (A1 eq_refl) as [-> _]. exists s'. specialize (B1 eq_refl). cbn [as_raw] in B1.
    assert (o = data); [|subst; reflexivity].
    replace o with (fst (run_raw S_CRLF (yenc L true 0 data))) by (rewrite B1; reflexivity).
    rewrite run_raw_text, unstuff_yenc by auto. apply decode_yenc.
  - exfalso. destruct (A2 ltac:(discriminate)) as [Hm _]. eapply K; eauto.
  - exfalso. destruct (A2 ltac:(discriminate)) as [Hm _]. eapply K; eauto.
Qed.

Lemma roundtrip_plain D data args L col : meets_dec D ->
  data <> [] -> args_give args L col -> in_range L col data ->
  exists o, encode_returns do_encode_generic data args o /\ decode_returns D o false data.
Proof.
  intros HD Hd Ha Hr. eexists. split; [apply enc_ok; eassumption|].
  pose proof (decode_spec D HD (yenc L true col data) false) as H.
  unfold reference in H. rewrite decode_yenc in H. exact H.
Qed.

Lemma roundtrip_raw D data args L : meets_dec D ->
  data <> [] -> args_give args L 0 -> in_range L 0 data ->
  exists o, encode_returns do_encode_generic data args o /\
    decode_returns D o true data /\ decode_returns D (stuff true o) true data.
Proof.
  intros HD Hd Ha Hr. destruct (enc_args_range _ _ _ Ha) as [[HL _] _].
  eexists. split; [apply enc_ok; eassumption|]. split.
  - pose proof (decode_spec D HD (yenc L true 0 data) true) as H.
    unfold reference in H. rewrite unstuff_yenc, decode_yenc in H by auto. exact H.
  - pose proof (decode_spec D HD (stuff true (yenc L true 0 data)) true) as H.
    unfold reference in H. rewrite (unstuff_stuff _ _ _ (le_n _)), decode_yenc in H. exact H.
Qed.

Lemma roundtrip_chunks D data args L chunks : meets_dec D ->
  data <> [] -> args_give args L 0 -> in_range L 0 data -> Forall small chunks ->
  forall o, encode_returns do_encode_generic data args o -> concat chunks = o ->
  exists st, chunk_chain D [CR; LF] chunks data (zlen o) false st.
Proof.
  intros HD Hd Ha Hr Hs o Ho Hc. destruct (enc_args_range _ _ _ Ha) as [[HL _] _].
  assert (o = yenc L true 0 data).
  { pose proof (enc_ok data args L 0 Hd Ha Hr) as E.
    assert (F : fresh_malloc (fun _ => zlen data) 0 (zlen data)) by (intros n Hn; unfold apart; lia).
    specialize (E (fun _ => zlen data) 0 (mem_of 0 data) (bytes_at_mem_of 0 data) F).
    specialize (Ho (fun _ => zlen data) 0 (mem_of 0 data) (bytes_at_mem_of 0 data) F). congruence. }
  subst o. destruct (chunk_of_yenc L data HL) as (s' & E). rewrite <- H in E.
  pose proof (chain_spec D HD _ _ _ _ _ _ Hs E) as K. cbn [end_text state_text] in K.
  exists (state_text s'). change (zlen (@nil byte)) with 0 in K. rewrite Z.sub_0_r in K. exact K.
Qed.

(** ** End detection *)

Lemma run_end_before s l o s' e rst p0 c : run_end s l = (o, s', e, rst) -> e <> E_NONE ->
  l = p0 ++ c :: rst -> exists s0, run_end s p0 = (o, s0, E_NONE, []).
Proof.
  revert s o p0; induction l as [|x l IH]; intros s o p0 H He Hl.
  - destruct p0; discriminate.
  - rewrite run_end_cons in H. destruct (step_end s x) as [o1 s1|s1 e1] eqn:E.
    + destruct (run_end s1 l) as [[[o2 s2] e2] r2] eqn:E2. cbn [prep4] in H.
      injection H as <- <- <- <-. destruct p0 as [|y p0].
      * exfalso. cbn [app] in Hl. injection Hl as <- ->.
        destruct (run_end_raw _ _ _ _ _ _ E2) as [_ K]. destruct (K He) as (p & d & Hp & _).
        apply (f_equal (@length byte)) in Hp. rewrite app_length in Hp. cbn [length] in Hp. lia.
      * cbn [app] in Hl. injection Hl as <- Hl. destruct (IH _ _ _ E2 He Hl) as (s0 & R).
        exists s0. rewrite run_end_cons, E, R. reflexivity.
    + injection H as <- <- <- <-. destruct p0 as [|y p0]; [exists s; reflexivity|].
      exfalso. cbn [app] in Hl. injection Hl as _ Hl. apply (f_equal (@length byte)) in Hl.
      rewrite app_length in Hl. cbn [length] in Hl. lia.
Qed.

Definition marker_text (e : dend) : list byte :=
  match e with
  | E_NONE => []
  | E_CONTROL => [CR; LF; EQS; YY]
  | E_ARTICLE => [CR; LF; DOT; CR; LF]
  end.

Lemma end_detection D data prev : meets_dec D -> is_state prev -> small data ->
  exists r, decodeChunk_returns D data prev r /\
   ((c_ended r = false /\ c_read r = zlen data /\
     (forall q p2 e, data = q ++ p2 -> ~ ends_in_marker e (prev ++ q))) \/
    (exists p c rst e, c_ended r = true /\ data = (p ++ [c]) ++ rst /\ c_read r = zlen (p ++ [c]) /\
       ends_in_marker e (prev ++ p ++ [c]) /\ c_state r = marker_text e /\
       (forall q p2 e', p = q ++ p2 -> ~ ends_in_marker e' (prev ++ q)) /\
       exists r0, decodeChunk_returns D p prev r0 /\ c_ended r0 = false /\ c_output r = c_output r0)).
Proof.
  intros HD [s ->] Hs. exists (chunk_of data (run_end s data)).
  split; [apply decodeChunk_spec; exact HD|].
  destruct (run_end s data) as [[[o s'] e] rst] eqn:E. pose proof (rst_len _ _ _ _ _ _ E).
  unfold small in Hs.
  destruct (run_end_marker _ _ _ _ _ _ E) as (p & Hp & A1 & A2).
  cbn [chunk_of c_ended c_read c_state c_output]. rewrite int32_small by lia.
  destruct (match e with E_NONE => false | _ => true end) eqn:Ee.
  - right. assert (He : e <> E_NONE) by (intros ->; discriminate).
    destruct (A2 He) as [M1 M2]. destruct (run_end_raw _ _ _ _ _ _ E) as [_ K].
    destruct (K He) as (p0 & c & Hp0 & _).
    assert (p = p0 ++ [c]).
    { rewrite Hp in Hp0. replace (p0 ++ c :: rst) with ((p0 ++ [c]) ++ rst) in Hp0 by (rewrite <- app_assoc; reflexivity).
      apply app_inv_tail in Hp0. exact Hp0. }
    subst p. exists p0, c, rst, e. split; [reflexivity|]. split; [exact Hp|].
    split. { rewrite Hp, zlen_app. lia. }
    split; [exact M1|]. split. { destruct e; [congruence| |]; reflexivity. }
    split. { intros q p2 e' Hq Hm. specialize (M2 q (p2 ++ [c]) e').
      rewrite Hq, <- app_assoc in M2. specialize (M2 eq_refl Hm). destruct p2; discriminate. }
    destruct (run_end_before _ _ _ _ _ _ _ _ E He Hp0) as (s0 & R).
    exists (chunk_of p0 (run_end s p0)). split; [apply decodeChunk_spec; exact HD|].
    rewrite R. split; reflexivity.
  - left. assert (e = E_NONE) by (destruct e; congruence). subst e.
    destruct (A1 eq_refl) as [-> A]. rewrite app_nil_r in Hp. subst p.
    split; [reflexivity|]. split; [change (zlen (@nil byte)) with 0; lia|]. exact A.
Qed.

(** ** Returned state *)

Lemma state_pending D data prev : meets_dec D -> is_state prev ->
  exists r, decodeChunk_returns D data prev r /\
   (c_ended r = false ->
     is_state (c_state r) /\
     (ends_with (c_state r) (prev ++ data) \/
      (c_state r = [CR; LF; EQS] /\ ends_with [CR; LF; DOT; EQS] (prev ++ data))) /\
     exists r0, decodeChunk_returns D (c_state r) [] r0 /\ c_ended r0 = false /\
       c_state r0 = c_state r /\ c_output r0 = []).
Proof.
  intros HD [s ->]. exists (chunk_of data (run_end s data)).
  split; [apply decodeChunk_spec; exact HD|].
  destruct (run_end s data) as [[[o s'] e] rst] eqn:E.
  cbn [chunk_of c_ended c_state]. intro He. assert (e = E_NONE) by (destruct e; congruence). subst e.
  cbn [end_text]. split; [exists s'; reflexivity|]. split.
  - destruct (state_text_pending _ _ _ _ _ E) as [K|[-> K]]; auto.
  - pose proof (decodeChunk_spec D HD (state_text s') S_NONE) as K. rewrite state_text_run in K.
    eexists. split; [exact K|]. repeat split.
Qed.

(** Output of a stream that did not end: that of dot-unstuffing decode. *)
Lemma chunk_output D data : meets_dec D ->
  exists r, decodeChunk_returns D data [CR; LF] r /\
    (c_ended r = false -> c_output r = decode_text (unstuff true data)).
Proof.
  intro HD. exists (chunk_of data (run_end S_CRLF data)).
  split; [apply (decodeChunk_spec D HD data S_CRLF)|].
  destruct (run_end S_CRLF data) as [[[o s'] e] rst] eqn:E.
  cbn [chunk_of c_ended c_output]. intro He. assert (e = E_NONE) by (destruct e; congruence). subst e.
  destruct (run_end_raw _ _ _ _ _ _ E) as [K _]. specialize (K eq_refl). cbn [as_raw] in K.
  rewrite <- run_raw_text, K. reflexivity.
Qed.

(** ** Safety of the C functions *)

Lemma run_end_len s l o s' e rst : run_end s l = (o, s', e, rst) -> zlen o <= zlen l - zlen rst.
Proof.
  intro H. destruct (run_end_raw _ _ _ _ _ _ H) as [A1 A2]. destruct e.
  - pose proof (run_end_done _ _ _ _ _ H). subst. specialize (A1 eq_refl).
    pose proof (run_raw_len (as_raw s) l) as K. rewrite A1 in K. cbn [fst] in K.
    change (zlen (@nil byte)) with 0. lia.
  - destruct (A2 ltac:(discriminate)) as (p & c & -> & <-). pose proof (run_raw_len (as_raw s) p).
    rewrite zlen_app, zlen_cons. lia.
  - destruct (A2 ltac:(discriminate)) as (p & c & -> & <-). pose proof (run_raw_len (as_raw s) p).
    rewrite zlen_app, zlen_cons. lia.
Qed.
Lemma run_plain_len s l : zlen (fst (run_plain s l)) <= zlen l.
Proof.
  revert s; induction l as [|c l IH]; intro s; [cbn; lia|].
  rewrite run_plain_cons, zlen_cons. cbn [prep fst snd]. rewrite zlen_app.
  specialize (IH (snd (step_plain s c))).
  assert (zlen (fst (step_plain s c)) <= 1); [|lia].
  destruct s; cbn [step_plain]; repeat destruct (beq _ _); cbn; lia.
Qed.

Lemma decode_safe raw se src dest data state m :
  (se = true -> raw = true /\ state <> None) ->
  bytes_at m src data -> dec_layout src (zlen data) dest ->
  exists e src' dest' state' m',
    do_decode_scalar raw se {| rlo := src; rhi := src + zlen data; wlo := dest; whi := dest + zlen data |}
      src dest (zlen data) state m = Ok ((e, src', dest', state'), m') /\
    src <= src' <= src + zlen data /\ dest <= dest' <= dest + (src' - src) /\
    (forall q, ~ (dest <= q < dest + zlen data) -> m' q = m q).
Proof.
  intros Hse Hm Hl. set (B := {| rlo := src; rhi := src + zlen data; wlo := dest; whi := dest + zlen data |}).
  assert (G : dgeom B src (zlen data) dest).
  { unfold dec_layout in Hl. constructor; cbn [B rlo rhi wlo whi]; lia. }
  pose proof (zlen_nonneg data) as HZ.
  assert (F : forall r m', do_decode_scalar raw se B src dest (zlen data) state m = Ok (r, m') ->
     forall q, ~ (dest <= q < dest + zlen data) -> m' q = m q).
  { intros r m' H q Hq. eapply (fr_decode raw se B); eauto. }
  unfold do_decode_scalar in *. destruct se.
  - destruct (Hse eq_refl) as [-> Hst]. destruct state as [s|]; [|congruence].
    destruct (end_run _ _ _ _ G m data s Hm eq_refl) as (m' & o & s' & e & rst & E & R & Q).
    pose proof (rst_len _ _ _ _ _ _ E). pose proof (run_end_len _ _ _ _ _ _ E). pose proof (zlen_nonneg o).
    exists e, (src + zlen data - zlen rst), (dest + zlen o), (Some s'), m'.
    split; [exact R|]. split; [lia|]. split; [lia|]. eapply F; eauto.
  - destruct raw.
    + destruct (noend_raw_run _ _ _ _ G m data state Hm eq_refl) as (m' & R & Q).
      pose proof (run_raw_len (start state) data). pose proof (zlen_nonneg (fst (run_raw (start state) data))).
      eexists _, _, _, _, m'. split. { erewrite bind_ok by exact R. reflexivity. }
      split; [lia|]. split; [destruct (lost state data); lia|]. eapply F. erewrite bind_ok by exact R. reflexivity.
    + destruct (noend_plain_run _ _ _ _ G m data state Hm eq_refl) as (m' & R & Q).
      pose proof (run_plain_len (start state) data). pose proof (zlen_nonneg (fst (run_plain (start state) data))).
      eexists _, _, _, _, m'. split. { erewrite bind_ok by exact R. reflexivity. }
      split; [lia|]. split; [lia|]. eapply F. erewrite bind_ok by exact R. reflexivity.
Qed.

(** ** Counts beyond 2 GiB *)

Lemma decode_text_repeat n : decode_text (repeat x00 n) = repeat (unshift x00) n.
Proof. induction n as [|n IH]; [reflexivity|]. cbn [repeat decode_text]. change (beq x00 CR || beq x00 LF) with false.
  change (beq x00 EQS) with false. cbv iota. rewrite IH. reflexivity. Qed.
Lemma zlen_repeat {A} (a : A) z : 0 <= z -> zlen (repeat a (Z.to_nat z)) = z.
Proof. intro H. unfold zlen. rewrite repeat_length. lia. Qed.

Lemma repeat_big {A} (a : A) z : 0 <= z -> exists l : list A, zlen l = z.
Proof. intro. exists (repeat a (Z.to_nat z)). apply zlen_repeat. exact H. Qed.

Lemma int32_big z : 2 ^ 31 <= z -> to_int32 z <> z.
Proof. intro H. unfold to_int32. lia. Qed.

Lemma encodeTo_misreports data args L col o dcap src dest m :
  data <> [] -> args_give args L col -> in_range L col data ->
  encode_returns do_encode_generic data args o -> 2 ^ 31 <= zlen o ->
  YENC_MAX_SIZE (zlen data) L <= dcap ->
  bytes_at m src data -> apart src (zlen data) dest dcap ->
  exists n m', node_encode_to do_encode_generic src (zlen data) dest dcap args m = Returns (Ok (n, m')) /\
    bytes_at m' dest o /\ n <> zlen o.
Proof.
  intros Hd Ha Hr Ho Hz Hc Hm Hap.
  assert (E : o = yenc L true col data).
  { pose proof (enc_ok data args L col Hd Ha Hr) as E.
    assert (F : fresh_malloc (fun _ => zlen data) 0 (zlen data)) by (intros n Hn; unfold apart; lia).
    specialize (E (fun _ => zlen data) 0 (mem_of 0 data) (bytes_at_mem_of 0 data) F).
    specialize (Ho (fun _ => zlen data) 0 (mem_of 0 data) (bytes_at_mem_of 0 data) F). congruence. }
  destruct (encodeTo_spec do_encode_generic generic_meets data args L col dcap Hd Ha Hr Hc src dest m Hm Hap) as (m' & R & Q).
  rewrite <- E in *. eexists _, m'. split; [exact R|]. split; [exact Q|]. apply int32_big. exact Hz.
Qed.

Lemma reference_len isRaw data : zlen (reference isRaw data) <= zlen data.
Proof.
  unfold reference. destruct isRaw.
  - rewrite <- run_raw_text. apply run_raw_len.
  - rewrite <- (run_plain_text S_NONE) by discriminate. apply run_plain_len.
Qed.

Lemma decodeTo_counts D : meets_dec D -> forall data isRaw src dest dcap m,
  bytes_at m src data -> zlen data <= dcap -> dec_layout src (zlen data) dest -> zlen data < 2 ^ 31 ->
  exists o m', decode_returns D data isRaw o /\
    node_decode_to D src (zlen data) dest dcap isRaw m = Returns (Ok (zlen o, m')) /\ bytes_at m' dest o.
Proof.
  intros HD data isRaw src dest dcap m Hm Hc Hl Hs.
  destruct (decodeTo_spec D HD data isRaw src dest dcap m Hm Hc Hl) as (m' & R & Q & _).
  exists (reference isRaw data), m'. split; [apply decode_spec; exact HD|].
  pose proof (reference_len isRaw data). pose proof (zlen_nonneg (reference isRaw data)).
  rewrite int32_small in R by lia. auto.
Qed.

Lemma big_text : exists data, zlen (decode_text data) = 2 ^ 31.
Proof.
  exists (repeat x00 (Z.to_nat (2 ^ 31))). rewrite decode_text_repeat. apply zlen_repeat. lia.
Qed.

Lemma big_encoded : exists data, data <> [] /\ args_give [] 128 0 /\ in_range 128 0 data /\
  2 ^ 31 <= zlen (yenc 128 true 0 data).
Proof.
  destruct (repeat_big x00 (2 ^ 31) ltac:(lia)) as (data & E).
  assert (N : data <> []) by (intros ->; vm_compute in E; discriminate).
  exists data. split; [exact N|]. split; [reflexivity|].
  split; [split; [lia|left; vm_compute; discriminate]|].
  pose proof (yenc_min 128 true 0 data ltac:(lia) ltac:(lia) N). lia.
Qed.
