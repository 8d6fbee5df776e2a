(** from_post with two builds of the native module. *)
From Verif Require Import Base BaseLemmas EncNode EncModel EncSpec EncNodeSpec DecSpec CrcSpec CrcModel CrcNodeSpec
  JsBase JsModel JsSpec JsStrings JsEncoder JsParse JsFromPost JsRound JsRobust JsBuilds PropsJsLemmas.
From Coq Require Import ZifyBool ZifyNat ZifyN.
From Coq Require Strings.String.
Import String.StringSyntax.
Open Scope Z_scope.
Ltac Zify.zify_post_hook ::= Z.div_mod_to_equations.

Definition same_on (Y Y' : native) (isRaw : bool) (text : list byte) : Prop := y_decode Y text isRaw = y_decode Y' text isRaw.

Lemma check_data_same Y Y' A d body isRaw : works Y -> works Y' ->
  match body with Some text => zlen text < 2 ^ 63 /\ same_on Y Y' isRaw text | None => True end ->
  check_data Y A d body isRaw = check_data Y' A d body isRaw.
Proof.
  intros W W' Hb. unfold check_data. destruct body as [text|]; [|reflexivity]. destruct Hb as [Hl Hs]. unfold same_on in Hs. rewrite Hs.
  destruct (w_decode_total Y' W' text isRaw) as (o & E & Ho). rewrite E. cbn [jbind]. rewrite (w_crc Y W), (w_crc Y' W') by lia. reflexivity.
Qed.

Lemma from_post_same Y Y' A data isRaw : works Y -> works Y' -> zlen data < 2 ^ 63 ->
  (forall s e, is_prefix yend_mark (skipn (Z.to_nat e) data) = true -> 0 <= s <= e -> e + 8 <= zlen data -> same_on Y Y' isRaw (slice data s e)) ->
  from_post Y A data isRaw = from_post Y' A data isRaw.
Proof.
  intros W W' Hz HS. unfold from_post. destruct (yenc_start data) as [ys|] eqn:EY; [|reflexivity].
  destruct (yenc_start_sound data ys EY) as (Y1 & Y2 & Y3 & _).
  set (p0 := bufferFind data [CR; LF] (ys + 8)).
  assert (P0 : p0 = -1 \/ ys <= p0 /\ p0 + 2 <= zlen data).
  { destruct (bufferFind_sound data [CR; LF] (ys + 8) ltac:(lia) ltac:(discriminate)) as [F|(F1 & F2 & _)]; [left; exact F|right].
    change (zlen [CR; LF]) with 2 in F2. unfold p0. lia. }
  destruct (start_lines (S (length data)) data ys p0 []) as [[ls ds] ye] eqn:ES.
  destruct (start_lines_result data _ ys p0 [] ls ds ye Y1 P0 ES) as (new & EN & R). cbn [app] in EN. subst new.
  destruct R as [[-> ->]|(R1 & R2 & R3 & R4)]; [reflexivity|].
  destruct (decoderParseLines ls {| y_own := []; y_proto := None |}) as [d w] eqn:ED.
  destruct R4 as [(dst & -> & -> & D1 & D2)|(y & l & -> & -> & D1 & D2 & D3)].
  - cbn [nonzero negb andb]. assert (negb (dst =? 0) = true) as -> by lia. cbn [negb andb].
    destruct (bufferFindRev_sound (skipn (Z.to_nat dst) data) ([CR; LF] ++ Bf "=yend ") ltac:(discriminate)) as [E|(B1 & B2 & B3)].
    { rewrite E. reflexivity. }
    set (e := bufferFindRev _ _) in *. change (zlen ([CR; LF] ++ Bf "=yend ")) with 8 in B2.
    assert (e <? 0 = false) as -> by lia.
    assert (LS : zlen (skipn (Z.to_nat dst) data) = zlen data - dst) by (unfold zlen; rewrite skipn_length; unfold zlen in *; lia).
    rewrite LS in B2.
    rewrite skipn_plus in B3. replace (Z.to_nat dst + Z.to_nat e)%nat with (Z.to_nat (e + dst)) in B3 by lia.
    change ([CR; LF] ++ Bf "=yend ") with yend_mark in B3.
    destruct (if bufferFind data [CR; LF] (e + dst + 8) <? 0 then _ else _) as [[pe yE] wn].
    destruct (decoderParseLines _ d) as [d2 w2]. destruct (check_props A d2) as [[w1|]| |]; cbn [jbind]; try reflexivity.
    rewrite (check_data_same Y Y' A d2 (Some (slice data dst (e + dst))) isRaw W W'); [reflexivity|].
    split; [exact (Z.le_lt_trans _ _ _ (zlen_slice_le data dst (e + dst)) Hz)|]. apply HS; [exact B3|lia|lia].
  - cbn [nonzero negb andb]. assert (negb (y =? 0) = true) as -> by lia. cbn [negb andb].
    destruct (check_props A d) as [[w1|]| |]; reflexivity.
Qed.

Lemma ends_occurs data s e : is_prefix yend_mark (skipn (Z.to_nat e) data) = true -> 0 <= s <= e -> e + 8 <= zlen data ->
  ends_with [EQS; CR; LF] (slice data s e) -> occurs ([EQS; CR; LF; CR; LF] ++ Bf "=yend ") data.
Proof.
  intros H1 H2 H3 [t H4]. apply is_prefix_iff in H1. destruct H1 as [y H1].
  exists (firstn (Z.to_nat s) data ++ t), y. rewrite <- !app_assoc.
  transitivity (firstn (Z.to_nat s) data ++ slice data s e ++ skipn (Z.to_nat e) data).
  - unfold slice. rewrite <- (firstn_skipn (Z.to_nat s) data) at 1. f_equal.
    rewrite <- (firstn_skipn (Z.to_nat (e - s)) (skipn (Z.to_nat s) data)) at 1. f_equal. rewrite skipn_plus. f_equal. lia.
  - rewrite H4, H1, <- !app_assoc. reflexivity.
Qed.

Lemma builds_same Y Y' A data isRaw : works Y -> works Y' -> zlen data < 2 ^ 63 ->
  (isRaw = true -> ~ occurs ([EQS; CR; LF; CR; LF] ++ Bf "=yend ") data) ->
  from_post Y A data isRaw = from_post Y' A data isRaw.
Proof.
  intros W W' Hz Hr. apply from_post_same; try assumption. intros s e H1 H2 H3. unfold same_on. destruct isRaw.
  - rewrite !w_decode_raw; auto; intro H; apply (Hr eq_refl); exact (ends_occurs data s e H1 H2 H3 H).
  - rewrite !w_decode; auto.
Qed.

Lemma multi_same Y Y' filename size parts line_size ds os E : works Y -> works Y' -> 0 <= size -> 1 < parts ->
  let L := if line_size =? 0 then 128 else line_size in
  Forall (fun d => line_ok L d /\ zlen d < 2 ^ 63) ds ->
  feeds Y (multi_post filename size parts line_size) ds os E -> feeds Y' (multi_post filename size parts line_size) ds os E.
Proof.
  intros W W' Hs Hp L HF H. rewrite (after_nil filename size parts line_size) in * by lia.
  assert (F0 : fits size parts []) by (unfold fits; change (total_len []) with 0; change (zlen (@nil (list byte))) with 0; lia).
  destruct (feeds_after Y W filename size parts line_size ds [] os E F0 HF H) as (F1 & -> & ->).
  apply feeds_exist; assumption.
Qed.

Lemma single_same Y Y' filename line_size data o E : works Y -> works Y' ->
  line_ok (if line_size =? 0 then 128 else line_size) data -> zlen data < 2 ^ 63 ->
  call_encode Y (multi_post filename (zlen data) 1 line_size) data = (Val o, E) ->
  call_encode Y' (multi_post filename (zlen data) 1 line_size) data = (Val o, E).
Proof.
  intros W W' HL Hd H. unfold multi_post, new_yencoder, call_encode, encode_single in *. fold (eff line_size) in *.
  cbn [Z.ltb Z.compare Pos.compare Pos.compare_cont ye_encode ye_size] in *. rewrite Z.eqb_refl in *. cbn [negb] in *.
  rewrite (w_crc _ W) in H by exact Hd. rewrite (w_crc _ W') by exact Hd.
  cbn [step with_pos with_part with_encode with_crc no_info ye_line_size ye_info ye_crc] in *.
  rewrite (w_encode _ W) in H by exact HL. rewrite (w_encode _ W') by exact HL. exact H.
Qed.
