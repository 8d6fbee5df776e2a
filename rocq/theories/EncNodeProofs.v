(** The JavaScript-visible encoder functions compute the specification. *)
From Verif Require Import Base BaseLemmas EncModel EncSpec EncProofs EncEnd EncNode EncNodeSpec EncSize.
From Coq Require Import ZifyBool ZifyNat ZifyN.
Ltac Zify.zify_post_hook ::= Z.div_mod_to_equations.

Lemma to_int32_range z : INT_MIN <= to_int32 z <= INT_MAX.
Proof. unfold to_int32, INT_MIN, INT_MAX. lia. Qed.
Lemma to_int32_id z : INT_MIN <= z <= INT_MAX -> to_int32 z = z.
Proof. unfold to_int32, INT_MIN, INT_MAX. lia. Qed.

Lemma enc_args_range args L col :
  enc_args args = Some (L, col) -> 1 <= L <= INT_MAX /\ 0 <= col < L.
Proof.
  unfold enc_args. destruct args as [|a rest].
  { intro E. injection E as <- <-. unfold INT_MAX. lia. }
  pose proof (to_int32_range a). cbv zeta.
  destruct (to_int32 a =? 0) eqn:E0.
  - change (128 <? 0) with false. cbv iota. destruct rest as [|b rest].
    + intro E. injection E as <- <-. unfold INT_MAX. lia.
    + destruct ((128 <? to_int32 b) || (to_int32 b <? 0)) eqn:E1; [discriminate|].
      intro E. injection E as <- <-. unfold INT_MAX. destruct (to_int32 b =? 128) eqn:E2; lia.
  - destruct (to_int32 a <? 0) eqn:E1; [discriminate|]. destruct rest as [|b rest].
    + intro E. injection E as <- <-. lia.
    + destruct ((to_int32 a <? to_int32 b) || (to_int32 b <? 0)) eqn:E2; [discriminate|].
      intro E. injection E as <- <-. destruct (to_int32 b =? to_int32 a) eqn:E3; lia.
Qed.

(** What we need of an encoder: it computes [yenc] whenever there is at least the
    room that [YENC_MAX_SIZE] provides. *)
Definition meets_spec (e : encoder) : Prop :=
  forall B L fin col src dest data m,
    rlo B = src -> rhi B = src + zlen data -> wlo B = dest ->
    (rhi B <= wlo B \/ whi B <= rlo B) ->
    data <> [] -> bytes_at m src data ->
    1 <= L <= INT_MAX -> 0 <= col < L -> in_range L col data ->
    dest + zlen (yenc L fin col data) + 32 <= whi B ->
    exists m',
      e B L col src dest (zlen data) fin m =
        Ok ((zlen (yenc L fin col data), ret_col L fin col data), m') /\
      bytes_at m' dest (yenc L fin col data).

Lemma generic_meets : meets_spec do_encode_generic.
Proof.
  intros B L fin col src dest data m H1 H2 H3 H4 H5 H6 H7 H8 [H9 H9'] H10.
  apply generic_run; auto; unfold INT_MAX in *; lia.
Qed.

Section Node.
Variable e : encoder.
Variable E : meets_spec e.

Lemma data_zlen0 (data : list byte) : data <> [] -> zlen data =? 0 = false.
Proof. intro H. destruct data; [congruence|]. rewrite zlen_cons. pose proof (zlen_nonneg data). lia. Qed.

Lemma encode_spec data args L col :
  data <> [] -> args_give args L col -> in_range L col data ->
  encode_returns e data args (yenc L true col data).
Proof.
  intros Hd Ha Hr malloc src m Hm Hf.
  destruct (enc_args_range _ _ _ Ha) as [HL Hc].
  unfold node_encode, node_encode_in. rewrite data_zlen0 by auto. rewrite Ha. cbv zeta.
  set (cap := YENC_MAX_SIZE (zlen data) L).
  pose proof (yenc_max L true col data ltac:(lia) Hc ltac:(apply Hr)) as Hmax.
  pose proof (zlen_nonneg (yenc L true col data)). fold cap in Hmax.
  assert (Hfr := Hf cap ltac:(lia)). unfold apart in Hfr.
  match goal with |- context [e ?B] =>
    destruct (E B L true col src (malloc cap) data m) as (m' & E1 & E2); auto; cbn [rlo rhi wlo whi]; try lia
  end.
  rewrite E1. f_equal. f_equal. unfold zlen. rewrite Nat2Z.id.
  apply bytes_at_read. exact E2.
Qed.

Lemma encode_spec_nil args : encode_returns e [] args [].
Proof. intros malloc src m _ _. reflexivity. Qed.

Lemma encodeTo_spec data args L col dcap :
  data <> [] -> args_give args L col -> in_range L col data ->
  YENC_MAX_SIZE (zlen data) L <= dcap ->
  encodeTo_returns e data dcap args (yenc L true col data).
Proof.
  intros Hd Ha Hr Hcap src dest m Hm Hap.
  destruct (enc_args_range _ _ _ Ha) as [HL Hc].
  unfold node_encode_to, node_encode_to_in. rewrite data_zlen0 by auto. rewrite Ha.
  destruct (dcap <? YENC_MAX_SIZE (zlen data) L) eqn:El; [lia|].
  pose proof (yenc_max L true col data ltac:(lia) Hc ltac:(apply Hr)) as Hmax.
  unfold apart in Hap. cbv zeta.
  match goal with |- context [e ?B] =>
    destruct (E B L true col src dest data m) as (m' & E1 & E2); auto; cbn [rlo rhi wlo whi]; try lia
  end.
  exists m'. rewrite E1. split; auto.
Qed.

Lemma encodeIncr_spec data args L col :
  data <> [] -> args_give args L col -> in_range L col data ->
  encodeIncr_returns e data args (yenc L false col data) (ret_col L false col data).
Proof.
  intros Hd Ha Hr malloc src m Hm Hf.
  destruct (enc_args_range _ _ _ Ha) as [HL Hc].
  unfold node_encode_incr, node_encode_incr_in. rewrite data_zlen0 by auto. rewrite Ha. cbv zeta.
  set (cap := YENC_MAX_SIZE (zlen data) L).
  pose proof (yenc_max L false col data ltac:(lia) Hc ltac:(apply Hr)) as Hmax.
  pose proof (zlen_nonneg (yenc L false col data)). fold cap in Hmax.
  assert (Hfr := Hf cap ltac:(lia)). unfold apart in Hfr.
  match goal with |- context [e ?B] =>
    destruct (E B L false col src (malloc cap) data m) as (m' & E1 & E2); auto; cbn [rlo rhi wlo whi]; try lia
  end.
  rewrite E1. do 4 f_equal. unfold zlen. rewrite Nat2Z.id.
  apply bytes_at_read. exact E2.
Qed.

(** ** Incremental encoding *)

Lemma yenc_app L col a b :
  yenc L false col (a ++ b) = yenc L false col a ++ yenc L false (yenc_col L false col a) b.
Proof.
  revert col; induction a as [|c a IH]; intro col; [reflexivity|].
  rewrite <- app_comm_cons, !yenc_cons. cbv zeta. cbn [yenc_col andb].
  destruct (L <=? col).
  - rewrite IH. rewrite <- !app_comm_cons, <- app_assoc. reflexivity.
  - rewrite !orb_false_r, IH, <- app_assoc. reflexivity.
Qed.

Lemma yenc_col_app L col a b :
  yenc_col L false col (a ++ b) = yenc_col L false (yenc_col L false col a) b.
Proof.
  revert col; induction a as [|c a IH]; intro col; [reflexivity|].
  rewrite <- app_comm_cons. cbn [yenc_col andb].
  destruct (L <=? col); [apply IH|].
  rewrite !orb_false_r. apply IH.
Qed.

Lemma yenc_col_nonneg L fin col data : 0 <= col -> 0 <= yenc_col L fin col data.
Proof.
  revert col; induction data as [|c t IH]; intros col H; [exact H|]. cbn [yenc_col].
  destruct (L <=? col); [apply IH, zlen_nonneg|].
  match goal with |- context [enc_char ?f ?g c] => pose proof (zlen_nonneg (enc_char f g c)) end.
  apply IH. lia.
Qed.

Definition bounded (L : Z) (chunks : list (list byte)) : Prop :=
  L <= INT_MAX - 6 /\ zlen (concat chunks) < 2 ^ 53.

Lemma incr_chain_spec L chunks : forall col,
  1 <= L -> 0 <= col < L -> bounded L chunks ->
  (forall a b, chunks = a ++ b -> b <> [] -> yenc_col L false col (concat a) < L) ->
  incr_chain e L col chunks (yenc L false col (concat chunks)).
Proof.
  induction chunks as [|d ds IH]; intros col HL Hc [HB1 HB2] Hbd; [constructor|].
  cbn [concat] in *. rewrite zlen_app in HB2.
  pose proof (zlen_nonneg d). pose proof (zlen_nonneg (concat ds)).
  assert (Hargs : args_give [L; col] L col).
  { unfold args_give, enc_args. cbv zeta. unfold INT_MAX in *.
    rewrite !to_int32_id by (unfold INT_MIN, INT_MAX; lia).
    destruct (L =? 0) eqn:F1; [lia|]. destruct (L <? 0) eqn:F2; [lia|].
    destruct ((L <? col) || (col <? 0)) eqn:F3; [lia|]. destruct (col =? L) eqn:F4; [lia|]. reflexivity. }
  rewrite yenc_app.
  assert (Hcol' : ret_col L false col d = yenc_col L false col d \/ ds = []).
  { destruct ds as [|d2 ds]; [auto|left].
    assert (Hy : yenc_col L false col d < L).
    { replace d with (concat [d]) by (simpl; apply app_nil_r).
      apply (Hbd [d] (d2 :: ds)); [reflexivity|discriminate]. }
    destruct (ret_col_true L false col d); try lia. }
  assert (Hnext : forall c', ret_col L false col d = c' -> yenc_col L false col d = c' -> c' < L ->
     incr_chain e L c' ds (yenc L false (yenc_col L false col d) (concat ds))).
  { intros c' H1 H2 H3. rewrite H2. apply IH; auto.
    - pose proof (yenc_col_nonneg L false col d ltac:(lia)). lia.
    - split; [lia|]. lia.
    - intros a b Hab Hb. rewrite <- H2, <- yenc_col_app.
      apply (Hbd (d :: a) b); [|exact Hb]. rewrite Hab. reflexivity. }
  destruct d as [|c0 d0].
  - cbn [yenc yenc_col]. apply chain_cons with (col' := col).
    + intros malloc src m _ _. unfold node_encode_incr, node_encode_incr_in. rewrite Hargs. reflexivity.
    + apply Hnext; auto. cbn. lia.
  - apply chain_cons with (col' := ret_col L false col (c0 :: d0)).
    + apply encodeIncr_spec; auto; [discriminate|]. split; [lia|left; exact HB1].
    + destruct ds as [|d2 ds].
      * cbn [concat yenc]. constructor.
      * destruct Hcol' as [Hcol'|]; [|discriminate].
        apply Hnext; auto. rewrite Hcol'. 
        replace (c0 :: d0) with (concat [c0 :: d0]) by (simpl; rewrite app_nil_r; reflexivity).
        apply (Hbd [c0 :: d0] (d2 :: ds)); [reflexivity|discriminate].
Qed.

End Node.

(** ** Argument handling *)

Lemma enc_args_throw args :
  enc_args args = None <->
  exists a rest, args = a :: rest /\
    let L := if to_int32 a =? 0 then 128 else to_int32 a in
    (L < 0 \/ exists b rest', rest = b :: rest' /\ (to_int32 b < 0 \/ L < to_int32 b)).
Proof.
  split.
  - destruct args as [|a rest]; [discriminate|]. unfold enc_args. cbv zeta. intro H.
    exists a, rest. split; [reflexivity|].
    destruct ((if to_int32 a =? 0 then 128 else to_int32 a) <? 0) eqn:E1; [left; lia|right].
    destruct rest as [|b rest]; [discriminate|]. exists b, rest. split; [reflexivity|].
    destruct (((if to_int32 a =? 0 then 128 else to_int32 a) <? to_int32 b) || (to_int32 b <? 0)) eqn:E2;
      [lia|discriminate].
  - intros (a & rest & -> & H). cbv zeta in H. unfold enc_args. cbv zeta.
    destruct ((if to_int32 a =? 0 then 128 else to_int32 a) <? 0) eqn:E1; [reflexivity|].
    destruct H as [H|(b & rest' & -> & H)]; [lia|].
    destruct (((if to_int32 a =? 0 then 128 else to_int32 a) <? to_int32 b) || (to_int32 b <? 0)) eqn:E2;
      [reflexivity|lia].
Qed.

(** Two encoders that agree on valid arguments cannot be told apart. *)
Definition agree_valid (e1 e2 : encoder) : Prop :=
  forall B L col src dest len fin m,
    1 <= L <= INT_MAX -> 0 <= col < L -> 0 < len ->
    e1 B L col src dest len fin m = e2 B L col src dest len fin m.

Lemma args_valid e1 e2 :
  agree_valid e1 e2 ->
  (forall malloc src len args m, 0 <= len ->
     node_encode e1 malloc src len args m = node_encode e2 malloc src len args m) /\
  (forall src len dest dcap args m, 0 <= len ->
     node_encode_to e1 src len dest dcap args m = node_encode_to e2 src len dest dcap args m) /\
  (forall malloc src len dst args m, 0 <= len ->
     node_encode_incr e1 malloc src len dst args m = node_encode_incr e2 malloc src len dst args m).
Proof.
  intro A. split; [|split]; intros.
  - unfold node_encode, node_encode_in. destruct (len =? 0) eqn:E0; [reflexivity|].
    destruct (enc_args args) as [[L col]|] eqn:E1; [|reflexivity].
    destruct (enc_args_range _ _ _ E1). cbv zeta. rewrite A by lia. reflexivity.
  - unfold node_encode_to, node_encode_to_in. destruct (len =? 0) eqn:E0; [reflexivity|].
    destruct (enc_args args) as [[L col]|] eqn:E1; [|reflexivity].
    destruct (enc_args_range _ _ _ E1). cbv zeta. rewrite A by lia. reflexivity.
  - unfold node_encode_incr, node_encode_incr_in. destruct (match dst with Some (_, dcap) => dcap <? YENC_MAX_SIZE len 128 | None => false end); [reflexivity|].
    destruct (enc_args args) as [[L col]|] eqn:E1; [|reflexivity].
    destruct (enc_args_range _ _ _ E1). destruct (len =? 0) eqn:E0; [reflexivity|].
    destruct dst as [[d dcap]|]; cbv zeta; rewrite A by lia; reflexivity.
Qed.

(** ** Supplied destination of the incremental encoder *)
Lemma incr_dest_ok e data args L col src dest dcap malloc m :
  meets_spec e -> data <> [] -> args_give args L col -> in_range L col data ->
  128 <= L -> YENC_MAX_SIZE (zlen data) 128 <= dcap ->
  bytes_at m src data -> apart src (zlen data) dest dcap ->
  node_encode_incr e malloc src (zlen data) (Some (dest, dcap)) args m =
    Returns (Ok (to_int32 (zlen (yenc L false col data)), yenc L false col data, ret_col L false col data)).
Proof.
  intros E Hd Ha Hr HL Hcap Hm Hap.
  destruct (enc_args_range _ _ _ Ha) as [HL' Hc].
  unfold node_encode_incr, node_encode_incr_in. destruct (dcap <? YENC_MAX_SIZE (zlen data) 128) eqn:El; [lia|].
  rewrite Ha, data_zlen0 by auto. cbv zeta.
  pose proof (yenc_max L false col data ltac:(lia) Hc ltac:(apply Hr)) as Hmax.
  assert (Hle : YENC_MAX_SIZE (zlen data) L <= YENC_MAX_SIZE (zlen data) 128).
  { pose proof (zlen_nonneg data). destruct Hr. rewrite !YENC_MAX_SIZE_eq by lia.
    pose proof (Z.div_le_compat_l (2 * zlen data) 128 L ltac:(lia) ltac:(lia)). lia. }
  unfold apart in Hap.
  match goal with |- context [e ?B] =>
    destruct (E B L false col src dest data m) as (m' & E1 & E2); auto; cbn [rlo rhi wlo whi]; try lia
  end.
  rewrite E1. do 4 f_equal. unfold zlen. rewrite Nat2Z.id.
  apply bytes_at_read. exact E2.
Qed.
