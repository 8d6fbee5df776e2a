(** What the texts of big-endian hosts decode to. *)
From Verif Require Import Base BaseLemmas EncModel EncSpec EncProofs EncShape EncNode EncNodeSpec DecSpec DecText EndianModel EndianSpec EndianExact.
From Coq Require Import ZifyBool ZifyNat ZifyN.
Open Scope Z_scope.

Lemma lf_bz c : c <> LF -> (bz c =? 10) = false.
Proof. intro H. destruct c; try reflexivity. exfalso. apply H. reflexivity. Qed.
Lemma with_vt_other c t : c <> LF -> with_vt (c :: t) = c :: with_vt t.
Proof. intro H. destruct t as [|y r]; [reflexivity|]. cbn [with_vt]. rewrite (lf_bz c H). reflexivity. Qed.
Lemma lost_other c t : c <> LF -> lost_lf (c :: t) = lost_lf t.
Proof. intro H. destruct t as [|y r]; [reflexivity|]. cbn [lost_lf]. rewrite (lf_bz c H). reflexivity. Qed.
Lemma decode_eqs d t : decode_text (EQS :: d :: t) = unescape d :: decode_text t.
Proof. reflexivity. Qed.

Lemma safe_decode t : safe t = true -> zlen (decode_text (with_vt t)) = zlen (decode_text t) + lost_lf t.
Proof.
  revert t. apply safe_ind.
  - reflexivity.
  - intros t _ IH. rewrite with_vt_other, lost_other by discriminate.
    change (decode_text (CR :: ?x)) with (decode_text x).
    destruct t as [|y r]; [reflexivity|].
    change (with_vt (LF :: y :: r)) with ((if (bz LF =? 10) && (bz y <? 42) then x0b else LF) :: with_vt (y :: r)).
    change (lost_lf (LF :: y :: r)) with ((if (bz LF =? 10) && (bz y <? 42) then 1 else 0) + lost_lf (y :: r)).
    change (bz LF =? 10) with true. cbn [andb].
    change (decode_text (LF :: y :: r)) with (decode_text (y :: r)).
    destruct (bz y <? 42).
    + change (decode_text (x0b :: ?x)) with (unshift x0b :: decode_text x). rewrite zlen_cons. lia.
    + change (decode_text (LF :: ?x)) with (decode_text x). lia.
  - intros d t Hd _ IH. destruct (legal_not d Hd) as (_ & N & _).
    rewrite with_vt_other, lost_other, with_vt_other, lost_other by (assumption || discriminate).
    rewrite !decode_eqs, !zlen_cons. lia.
  - intros c t N1 N2 _ N4 _ IH. rewrite with_vt_other, lost_other by assumption.
    rewrite !decode_text_cons_normal by (apply beq_false; assumption). rewrite !zlen_cons. lia.
Qed.

Lemma lost_nonneg t : 0 <= lost_lf t.
Proof.
  induction t as [|x t IH]; [cbn; lia|]. destruct t as [|y r]; [cbn; lia|]. cbn [lost_lf] in *.
  destruct ((bz x =? 10) && (bz y <? 42)); lia.
Qed.
Lemma lost_0 t : lost_lf t = 0 -> with_vt t = t.
Proof.
  induction t as [|x t IH]; [reflexivity|]. destruct t as [|y r]; [reflexivity|].
  change (lost_lf (x :: y :: r)) with ((if (bz x =? 10) && (bz y <? 42) then 1 else 0) + lost_lf (y :: r)).
  change (with_vt (x :: y :: r)) with ((if (bz x =? 10) && (bz y <? 42) then x0b else x) :: with_vt (y :: r)).
  pose proof (lost_nonneg (y :: r)). destruct ((bz x =? 10) && (bz y <? 42)); intro E; [lia|]. rewrite IH by lia. reflexivity.
Qed.

Theorem vt_decode L fin col data :
  zlen (decode_text (with_vt (yenc L fin col data))) = zlen data + lost_lf (yenc L fin col data).
Proof. rewrite safe_decode by apply yenc_safe. rewrite decode_yenc. reflexivity. Qed.

Theorem vt_decode_iff L fin col data :
  decode_text (with_vt (yenc L fin col data)) = data <-> lost_lf (yenc L fin col data) = 0.
Proof.
  split; intro H.
  - pose proof (vt_decode L fin col data) as E. rewrite H in E. lia.
  - rewrite lost_0 by assumption. apply decode_yenc.
Qed.

Lemma with_vt_len t : zlen (with_vt t) = zlen t.
Proof.
  induction t as [|x t IH]; [reflexivity|]. destruct t as [|y r]; [reflexivity|].
  change (with_vt (x :: y :: r)) with ((if (bz x =? 10) && (bz y <? 42) then x0b else x) :: with_vt (y :: r)).
  rewrite zlen_cons, IH, (zlen_cons x). reflexivity.
Qed.

Theorem big_decodes : forall B L fin col src dest data m,
  rlo B = src -> rhi B = src + zlen data -> wlo B = dest -> (rhi B <= wlo B \/ whi B <= rlo B) ->
  data <> [] -> bytes_at m src data -> 1 <= L <= INT_MAX -> 0 <= col < L -> in_range L col data ->
  dest + zlen (yenc L fin col data) + 32 <= whi B ->
  exists m' t, o_encode_generic Big B L col src dest (zlen data) fin m = Ok ((zlen t, ret_col L fin col data), m') /\
    bytes_at m' dest t /\ zlen (decode_text t) = zlen data + lost_lf (yenc L fin col data) /\
    (decode_text t = data <-> lost_lf (yenc L fin col data) = 0).
Proof.
  intros B L fin col src dest data m H1 H2 H3 H4 H5 H6 H7 H8 H9 H10.
  destruct (big_exact B L fin col src dest data m H1 H2 H3 H4 H5 H6 H7 H8 H9 H10) as (m' & E & T).
  exists m', (with_vt (yenc L fin col data)). rewrite with_vt_len. split; [exact E|]. split; [exact T|].
  split; [apply vt_decode|apply vt_decode_iff].
Qed.
