(** The native functions work, and the YEncoder class. *)
From Verif Require Import Base BaseLemmas EncSpec EncModel EncNode EncNodeSpec EncNodeProofs DecSpec DecNode DecNodeSpec
  DecNodeProofs PropsDecLemmas PropsSimdLemmas DecSimdModel DecSimdSpec DecSseModel DecSseMain CrcSpec CrcModel CrcMul CrcNodeSpec CrcNodeProofs CrcIsaProofs JsBase JsModel JsSpec
  JsStrings.
From Coq Require Strings.String.
Import String.StringSyntax.
Open Scope Z_scope.

(** ** The native functions *)

Lemma decode_text_len l : zlen (decode_text l) <= zlen l.
Proof.
  assert (G : forall n l, (length l <= n)%nat -> zlen (decode_text l) <= zlen l).
  { clear l. induction n; intros [|c t] H; cbn [length] in H; try (cbn [decode_text]; lia).
    cbn [decode_text]. pose proof (IHn t ltac:(lia)). destruct (beq c CR || beq c LF); [rewrite zlen_cons; lia|].
    destruct (beq c EQS); [|rewrite !zlen_cons; lia]. destruct t as [|d t]; [change (zlen (@nil byte)) with 0; rewrite zlen_cons; pose proof (zlen_nonneg (@nil byte)); lia|].
    cbn [length] in H. pose proof (IHn t ltac:(lia)). rewrite !zlen_cons. lia. }
  apply (G (length l)). lia.
Qed.
Lemma unstuff_len l : forall bol, zlen (unstuff bol l) <= zlen l.
Proof.
  assert (G : forall n l bol, (length l <= n)%nat -> zlen (unstuff bol l) <= zlen l).
  { clear l. induction n; intros [|c t] bol H; cbn [length] in H; try (cbn [unstuff]; lia).
    cbn [unstuff]. destruct (bol && beq c DOT); [pose proof (IHn t false ltac:(lia)); rewrite zlen_cons; lia|].
    destruct t as [|d t]; [lia|]. cbn [length] in H. destruct (beq c CR && beq d LF).
    - pose proof (IHn t true ltac:(lia)). rewrite !zlen_cons. lia.
    - pose proof (IHn (d :: t) false ltac:(cbn [length]; lia)). rewrite (zlen_cons c), (zlen_cons c (d :: t)). lia. }
  intro. apply (G (length l)). lia.
Qed.

Definition raw_good (D : decoders) : Prop :=
  (forall text, ~ ends_with [EQS; CR; LF] text -> decode_returns D text true (decode_text (unstuff true text))) /\
  (forall text malloc src m, bytes_at m src text -> fresh_malloc malloc src (zlen text) ->
     exists o, node_decode D malloc src (zlen text) true m = Ok o /\ zlen o <= zlen text).

Lemma raw_text_len text : zlen (decode_text (unstuff true text)) <= zlen text.
Proof. pose proof (decode_text_len (unstuff true text)). pose proof (unstuff_len text true). lia. Qed.
Lemma scalar_raw_good : raw_good scalar.
Proof.
  split; intros text; [intros _; exact (decode_spec scalar scalar_meets text true)|].
  intros malloc src m H1 H2. eexists. split; [exact (decode_spec scalar scalar_meets text true malloc src m H1 H2)|]. apply raw_text_len.
Qed.
Lemma simd_raw_good n KP KR KE : 1 <= n -> kernel_ok true false (2 ^ n) KR -> raw_good (simd (2 ^ n) KP KR KE).
Proof.
  intros Hn HK. split; intros text.
  - intros Hne malloc src m H1 H2.
    destruct (decode_raw_simd n KP KR KE malloc src text m Hn HK H1 H2) as (u & [->| ->] & Hu & E).
    + rewrite E. rewrite Nat.sub_0_r, firstn_all. reflexivity.
    + elim Hne. eapply (short_ends n); [lia|]. apply Hu. reflexivity.
  - intros malloc src m H1 H2.
    destruct (decode_raw_simd n KP KR KE malloc src text m Hn HK H1 H2) as (u & _ & _ & E). eexists. split; [exact E|].
    pose proof (raw_text_len text). unfold zlen in *. rewrite firstn_length. lia.
Qed.

Lemma works_of Y : placed Y -> meets_spec (y_enc Y) ->
  (forall text, decode_returns (y_dec Y) text false (decode_text text)) -> raw_good (y_dec Y) ->
  (forall src len m, 0 <= len < 2 ^ 63 -> node_crc32 (y_crc Y) src len None m = node_crc32 portable src len None m) ->
  is_shift (y_shift Y) -> works Y.
Proof.
  intros P He Hp [Hr Hr'] Hc Hs. split.
  - intros data L [HL Hin]. unfold y_encode. destruct (P data) as [P1 P2].
    destruct data as [|b data]; [reflexivity|].
    assert (HA : args_give [L] L 0).
    { unfold args_give, enc_args. rewrite to_int32_id by (unfold INT_MIN; lia).
      assert (L =? 0 = false) as -> by lia. assert (L <? 0 = false) as -> by lia. reflexivity. }
    rewrite (encode_spec _ He (b :: data) [L] L 0 ltac:(discriminate) HA Hin _ _ _ P1 P2). reflexivity.
  - intros text. unfold y_decode. destruct (P text) as [P1 P2]. rewrite (Hp text _ _ _ P1 P2). reflexivity.
  - intros text Hne. unfold y_decode. destruct (P text) as [P1 P2]. rewrite (Hr text Hne _ _ _ P1 P2). reflexivity.
  - intros text [|]; unfold y_decode; destruct (P text) as [P1 P2].
    + destruct (Hr' text _ _ _ P1 P2) as [o [E Ho]]. rewrite E. eauto.
    + rewrite (Hp text _ _ _ P1 P2). eexists. split; [reflexivity|apply decode_text_len].
  - intros data Hd. unfold y_crc32. destruct (P data) as [P1 P2]. pose proof (zlen_nonneg data). rewrite Hc by lia.
    rewrite (js_crc _ generic_crc_ok data _ _ P1). reflexivity.
  - intros a b Hb. unfold y_crc32_combine. rewrite (js_combine _ Hs a b Hb). reflexivity.
Qed.

(** ** YEncoder *)

Definition eff (L : Z) : Z := if L =? 0 then 128 else L.
Definition total_len (ds : list (list byte)) : Z := zlen (concat ds).
Lemma total_snoc ds d : total_len (ds ++ [d]) = total_len ds + zlen d.
Proof. unfold total_len. rewrite concat_app, zlen_app. cbn [concat]. rewrite app_nil_r. reflexivity. Qed.
Lemma zlen_snoc {A} (l : list A) a : zlen (l ++ [a]) = zlen l + 1.
Proof. rewrite zlen_app. reflexivity. Qed.

Section Multi.
Variable Y : native.
Hypothesis W : works Y.
Variables (name : jstr) (size parts L : Z).
Hypothesis Hparts : 1 < parts.

(** The encoder after the parts [ds]. *)
Definition after (ds : list (list byte)) : yencoder :=
  {| ye_size := size; ye_parts := parts; ye_line_size := eff L;
     ye_part := zlen ds; ye_pos := total_len ds; ye_crc := crc_of (concat ds);
     ye_info := if zlen ds =? parts then None
       else Some (Bf " total=" ++ dec_bytes parts ++ Bf " line=" ++ dec_bytes (eff L) ++
         Bf " size=" ++ dec_bytes size ++ Bf " name=" ++ header_name name ++ [CR; LF]);
     ye_encode := M_multi |}.

Lemma after_nil : multi_post name size parts L = after [].
Proof.
  unfold multi_post, new_yencoder, after. fold (eff L). change (zlen (@nil (list byte))) with 0.
  assert (0 =? parts = false) as -> by lia. assert (1 <? parts = true) as -> by lia. reflexivity.
Qed.

Definition full_crc (ds : list (list byte)) (d : list byte) : option (list byte) :=
  if zlen ds + 1 =? parts then Some (crc_of (concat (ds ++ [d]))) else None.

Lemma call_after ds d : line_ok (eff L) d -> zlen d < 2 ^ 63 -> zlen ds < parts ->
  total_len ds + zlen d <= size -> (zlen ds + 1 = parts -> total_len ds + zlen d = size) ->
  call_encode Y (after ds) d =
    (Val (part_article (header_name name) (eff L) size parts (zlen ds + 1) (total_len ds) d (full_crc ds d)),
     after (ds ++ [d])).
Proof.
  intros HL Hd Hk Hs Hl. unfold call_encode, encode_multi. cbn [after ye_encode ye_part ye_parts with_part ye_pos ye_size].
  assert (parts <? zlen ds + 1 = false) as -> by lia.
  assert (size <? total_len ds + zlen d = false) as -> by lia.
  rewrite (w_crc Y W) by exact Hd. cbn [step]. cbn [after with_part ye_crc]. rewrite (w_combine Y W) by exact Hd. cbn [step].
  cbn [with_crc with_part after ye_part ye_parts ye_size].
  assert ((zlen ds + 1 =? parts) && negb (total_len ds + zlen d =? size) = false) as -> by lia.
  assert (Hc : crc_of (concat ds ++ d) = crc_of (concat (ds ++ [d]))).
  { rewrite concat_app. cbn [concat]. rewrite app_nil_r. reflexivity. }
  unfold full_crc, after, part_article, dec, hex. rewrite total_snoc, zlen_snoc.
  destruct (Z.eqb_spec (zlen ds + 1) parts) as [E|E];
    cbn [no_info with_crc with_part after ye_part ye_parts ye_size ye_line_size ye_crc ye_info ye_pos ye_encode];
    rewrite (w_encode Y W) by exact HL; cbn [step];
    assert (zlen ds =? parts = false) as -> by lia; cbn [need_info step]; rewrite Hc;
    unfold with_pos, no_info, with_crc, with_part, dec_bytes, hex_bytes;
    cbn [no_info with_crc with_part after ye_part ye_parts ye_size ye_line_size ye_crc ye_info ye_pos ye_encode];
    repeat rewrite <- app_assoc; reflexivity.
Qed.

Lemma call_too_many ds d : parts <= zlen ds ->
  call_encode Y (after ds) d = (Err ExceededParts, with_part (after ds) (zlen ds + 1)).
Proof.
  intros Hk. unfold call_encode, encode_multi. cbn [after ye_encode ye_part ye_parts with_part ye_pos ye_size].
  assert (parts <? zlen ds + 1 = true) as -> by lia. reflexivity.
Qed.
Lemma call_too_long ds d : zlen ds < parts -> size < total_len ds + zlen d ->
  call_encode Y (after ds) d = (Err ExceededSize, with_part (after ds) (zlen ds + 1)).
Proof.
  intros Hk Hs. unfold call_encode, encode_multi. cbn [after ye_encode ye_part ye_parts with_part ye_pos ye_size].
  assert (parts <? zlen ds + 1 = false) as -> by lia.
  assert (size <? total_len ds + zlen d = true) as -> by lia. reflexivity.
Qed.
Lemma call_too_short ds d : zlen ds + 1 = parts -> total_len ds + zlen d < size -> zlen d < 2 ^ 63 ->
  call_encode Y (after ds) d = (Err SizeMismatch, with_crc (with_part (after ds) parts) (crc_of (concat (ds ++ [d])))).
Proof.
  intros Hk Hs Hd. unfold call_encode, encode_multi. cbn [after ye_encode ye_part ye_parts with_part ye_pos ye_size].
  assert (parts <? zlen ds + 1 = false) as -> by lia.
  assert (size <? total_len ds + zlen d = false) as -> by lia.
  rewrite (w_crc Y W) by exact Hd. cbn [step]. cbn [after with_part ye_crc]. rewrite (w_combine Y W) by exact Hd. cbn [step].
  cbn [with_crc with_part after ye_part ye_parts ye_size].
  assert ((zlen ds + 1 =? parts) && negb (total_len ds + zlen d =? size) = true) as -> by lia.
  rewrite concat_app. cbn [concat]. rewrite app_nil_r, Hk. reflexivity.
Qed.

Definition part_ok (d : list byte) : Prop := line_ok (eff L) d /\ zlen d < 2 ^ 63.

(** Exactly the sequences that fit are accepted. *)
Definition fits (ds : list (list byte)) : Prop :=
  zlen ds <= parts /\ total_len ds <= size /\ (zlen ds = parts -> total_len ds = size).

Lemma call_success ds d o E : fits ds -> part_ok d -> call_encode Y (after ds) d = (Val o, E) -> fits (ds ++ [d]) /\
  o = part_article (header_name name) (eff L) size parts (zlen ds + 1) (total_len ds) d (full_crc ds d) /\ E = after (ds ++ [d]).
Proof.
  intros (F1 & F2 & F3) [P1 P2] H.
  destruct (Z_lt_le_dec (zlen ds) parts) as [H1|H1]; [|rewrite (call_too_many ds d H1) in H; discriminate].
  destruct (Z_lt_le_dec size (total_len ds + zlen d)) as [H2|H2]; [rewrite (call_too_long ds d H1 H2) in H; discriminate|].
  destruct (Z.eq_dec (zlen ds + 1) parts) as [H3|H3].
  - destruct (Z.eq_dec (total_len ds + zlen d) size) as [H4|H4].
    + rewrite call_after in H by (auto; lia). injection H as <- <-.
      split; [|auto]. unfold fits. rewrite zlen_snoc, total_snoc. lia.
    + rewrite call_too_short in H by (auto; lia). discriminate.
  - rewrite call_after in H by (auto; lia). injection H as <- <-.
    split; [|auto]. unfold fits. rewrite zlen_snoc, total_snoc. lia.
Qed.

(** The articles of the parts [ds], following [prev]. *)
Fixpoint articles (prev ds : list (list byte)) : list (list byte) :=
  match ds with
  | [] => []
  | d :: t => part_article (header_name name) (eff L) size parts (zlen prev + 1) (total_len prev) d (full_crc prev d)
              :: articles (prev ++ [d]) t
  end.

Lemma feeds_after ds : forall prev os E, fits prev -> Forall part_ok ds -> feeds Y (after prev) ds os E ->
  fits (prev ++ ds) /\ os = articles prev ds /\ E = after (prev ++ ds).
Proof.
  induction ds as [|d ds IH]; intros prev os E F P H; inversion H; subst.
  - rewrite app_nil_r. auto.
  - inversion P; subst. destruct (call_success prev d o E1 F) as (F' & -> & ->); [assumption..|].
    destruct (IH (prev ++ [d]) os0 E) as (H1 & -> & ->); [assumption..|].
    rewrite <- app_assoc in *. auto.
Qed.
Lemma total_app a b : total_len (a ++ b) = total_len a + total_len b.
Proof. unfold total_len. rewrite concat_app, zlen_app. reflexivity. Qed.
Lemma feeds_exist ds : forall prev, Forall part_ok ds -> fits (prev ++ ds) -> feeds Y (after prev) ds (articles prev ds) (after (prev ++ ds)).
Proof.
  induction ds as [|d ds IH]; intros prev P (F1 & F2 & F3).
  - rewrite app_nil_r. constructor.
  - inversion P; subst. rewrite zlen_app, zlen_cons in *. rewrite total_app in *.
    change (d :: ds) with ([d] ++ ds) in F2, F3. rewrite total_app in *.
    assert (E1 : total_len [d] = zlen d) by (unfold total_len; cbn [concat]; rewrite app_nil_r; reflexivity).
    pose proof (zlen_nonneg ds). pose proof (zlen_nonneg (concat ds)) as Hc. fold (total_len ds) in Hc.
    cbn [articles]. econstructor.
    + destruct H1. apply call_after; auto; try lia. intro E. destruct ds; [|rewrite zlen_cons in *; pose proof (zlen_nonneg ds); lia].
      change (zlen (@nil (list byte))) with 0 in *. change (total_len []) with 0 in *. lia.
    + change (d :: ds) with ([d] ++ ds). rewrite app_assoc. apply IH; [assumption|].
      unfold fits. rewrite <- app_assoc, zlen_app, zlen_app, !total_app. change (zlen [d]) with 1. lia.
Qed.

Lemma nth_articles ds : forall prev k d o, nth_error ds k = Some d -> nth_error (articles prev ds) k = Some o ->
  o = part_article (header_name name) (eff L) size parts (zlen prev + Z.of_nat k + 1) (total_len prev + total_len (firstn k ds)) d
        (full_crc (prev ++ firstn k ds) d).
Proof.
  induction ds as [|x ds IH]; intros prev [|k] d o H1 H2; try discriminate; cbn [nth_error articles] in *.
  - injection H1 as ->. injection H2 as <-. cbn [firstn]. change (total_len []) with 0. rewrite app_nil_r.
    replace (zlen prev + Z.of_nat 0 + 1) with (zlen prev + 1) by lia. rewrite Z.add_0_r. reflexivity.
  - rewrite (IH _ _ _ _ H1 H2). rewrite zlen_snoc, total_snoc, <- app_assoc. cbn [firstn app].
    change (x :: firstn k ds) with ([x] ++ firstn k ds). rewrite total_app.
    assert (E1 : total_len [x] = zlen x) by (unfold total_len; cbn [concat]; rewrite app_nil_r; reflexivity).
    rewrite E1. f_equal; lia.
Qed.
Lemma articles_len ds : forall prev, length (articles prev ds) = length ds.
Proof. induction ds; intro; cbn; auto. Qed.
End Multi.

(** ** Single part *)

Lemma single_call Y name L data : works Y -> line_ok (eff L) data -> zlen data < 2 ^ 63 ->
  exists E, call_encode Y (multi_post name (zlen data) 1 L) data = (Val (single_article (header_name name) (eff L) data), E) /\
    ye_part E = 1 /\ ye_pos E = zlen data /\ ye_crc E = crc_of data /\
    forall d', call_encode Y E d' = (Err ExceededParts, E).
Proof.
  intros W HL Hd. unfold multi_post, new_yencoder. fold (eff L). cbn [Z.ltb Z.compare Pos.compare Pos.compare_cont].
  unfold call_encode, encode_single. cbn [ye_encode ye_size]. rewrite Z.eqb_refl. cbn [negb].
  rewrite (w_crc Y W) by exact Hd. cbn [step with_pos with_part with_encode with_crc no_info ye_line_size ye_info ye_crc].
  rewrite (w_encode Y W) by exact HL. cbn [step need_info].
  eexists. split.
  - repeat rewrite <- app_assoc. reflexivity.
  - cbn. repeat apply conj; reflexivity.
Qed.

(** ** Header names *)

Lemma drop_badchar_none s : no_crlf s -> drop_badchar s = s.
Proof.
  induction s as [|c s IH]; [reflexivity|]. intro H. cbn [drop_badchar].
  assert (E : drop_badchar s = s) by (apply IH; eapply no_crlf_tail; exact H).
  destruct s as [|d [|e t]]; try (rewrite E; reflexivity).
  destruct (N.eqb_spec c 13) as [->|]; [|rewrite E; reflexivity].
  destruct (N.eqb_spec d 10) as [->|]; [|cbn [andb]; rewrite E; reflexivity].
  elim (H [] (e :: t)). reflexivity.
Qed.
Lemma no_crlf_firstn n s : no_crlf s -> no_crlf (firstn n s).
Proof. intros H a b E. apply (H a (b ++ skipn n s)). rewrite <- (firstn_skipn n s) at 1. rewrite E, <- !app_assoc. reflexivity. Qed.
Lemma header_name_clean s : no_crlf s -> header_name s = utf8_enc (firstn 256 s).
Proof. intro H. unfold header_name. rewrite drop_badchar_none by exact H. reflexivity. Qed.
Lemma header_name_no_nl s : is_string s -> no_crlf s -> no_nl (header_name s).
Proof.
  intros S H. rewrite header_name_clean by exact H. apply no_nl_utf8; [|apply no_crlf_firstn, H].
  rewrite <- (firstn_skipn 256 s) in S. apply Forall_app in S. apply S.
Qed.
