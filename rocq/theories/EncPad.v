(** The buffers of builds with YENC_DISABLE_AVX256 are large enough for every encoder. *)
From Verif Require Import Base BaseLemmas EncSpec EncProofs EncEnd EncSize EncNode EncNodeSpec EncNodeProofs EncPadSpec.
From Coq Require Import ZifyBool.

Lemma max_size_eq no256 len L : 0 <= len < 2 ^ 53 -> 1 <= L ->
  max_size no256 len L + (if no256 then 32 else 0) = YENC_MAX_SIZE len L.
Proof.
  intros Hl HL. rewrite YENC_MAX_SIZE_eq by lia. destruct no256; [|rewrite YENC_MAX_SIZE_eq by lia; lia]. unfold max_size, u64. cbv zeta iota.
  assert (H0 : 0 <= 2 * len / L <= 2 * len) by (split; [apply Z.div_pos; lia|apply Z.div_le_upper_bound; nia]).
  rewrite (Z.mod_small (len * 2)) by lia. replace (len * 2) with (2 * len) by lia. rewrite (Z.mod_small (2 * len + 2 + 32)) by lia.
  destruct (L =? 128) eqn:E.
  - assert (L = 128) by lia. subst L. replace (2 * len / 128) with (len / 64) in *.
    + rewrite Z.mod_small by lia. lia.
    + change 128 with (2 * 64). rewrite Z.div_mul_cancel_l by lia. reflexivity.
  - rewrite Z.mod_small by lia. lia.
Qed.

Lemma max_size_room no256 L fin col data : 1 <= L -> 0 <= col < L -> zlen data < 2 ^ 53 ->
  zlen (yenc L fin col data) + 32 <= max_size no256 (zlen data) L.
Proof.
  intros HL Hc Hn. pose proof (yenc_max L fin col data HL Hc Hn). pose proof (zlen_nonneg data).
  pose proof (max_size_eq no256 (zlen data) L ltac:(lia) HL). destruct no256; lia.
Qed.

Section Pad.
Variables (no256 : bool) (e : encoder).
Variable E : meets_spec e.

Lemma encode_in_spec data args L col : data <> [] -> args_give args L col -> in_range L col data ->
  encode_returns_in no256 e data args (yenc L true col data).
Proof.
  intros Hd Ha Hr malloc src m Hm Hf. destruct (enc_args_range _ _ _ Ha) as [HL Hc].
  unfold node_encode_in. rewrite data_zlen0 by auto. rewrite Ha. cbv zeta. set (cap := max_size no256 (zlen data) L).
  pose proof (max_size_room no256 L true col data ltac:(lia) Hc ltac:(apply Hr)) as Hmax.
  pose proof (zlen_nonneg (yenc L true col data)). fold cap in Hmax. assert (Hfr := Hf cap ltac:(lia)). unfold apart in Hfr.
  match goal with |- context [e ?B] => destruct (E B L true col src (malloc cap) data m) as (m' & E1 & E2); auto; cbn [rlo rhi wlo whi]; try lia end.
  rewrite E1. f_equal. f_equal. unfold zlen. rewrite Nat2Z.id. apply bytes_at_read. exact E2.
Qed.

Lemma encodeTo_in_spec data args L col dcap : data <> [] -> args_give args L col -> in_range L col data ->
  max_size no256 (zlen data) L <= dcap -> encodeTo_returns_in no256 e data dcap args (yenc L true col data).
Proof.
  intros Hd Ha Hr Hcap src dest m Hm Hap. destruct (enc_args_range _ _ _ Ha) as [HL Hc].
  unfold node_encode_to_in. rewrite data_zlen0 by auto. rewrite Ha. destruct (dcap <? max_size no256 (zlen data) L) eqn:El; [lia|].
  pose proof (max_size_room no256 L true col data ltac:(lia) Hc ltac:(apply Hr)) as Hmax. unfold apart in Hap. cbv zeta.
  match goal with |- context [e ?B] => destruct (E B L true col src dest data m) as (m' & E1 & E2); auto; cbn [rlo rhi wlo whi]; try lia end.
  exists m'. rewrite E1. split; auto.
Qed.

Lemma encodeIncr_in_spec data args L col : data <> [] -> args_give args L col -> in_range L col data ->
  encodeIncr_returns_in no256 e data args (yenc L false col data) (ret_col L false col data).
Proof.
  intros Hd Ha Hr malloc src m Hm Hf. destruct (enc_args_range _ _ _ Ha) as [HL Hc].
  unfold node_encode_incr_in. rewrite data_zlen0 by auto. rewrite Ha. cbv zeta. set (cap := max_size no256 (zlen data) L).
  pose proof (max_size_room no256 L false col data ltac:(lia) Hc ltac:(apply Hr)) as Hmax.
  pose proof (zlen_nonneg (yenc L false col data)). fold cap in Hmax. assert (Hfr := Hf cap ltac:(lia)). unfold apart in Hfr.
  match goal with |- context [e ?B] => destruct (E B L false col src (malloc cap) data m) as (m' & E1 & E2); auto; cbn [rlo rhi wlo whi]; try lia end.
  rewrite E1. do 4 f_equal. unfold zlen. rewrite Nat2Z.id. apply bytes_at_read. exact E2.
Qed.
End Pad.
