(** The size check of encodeIncr on a supplied destination, which assumes line size 128: it is enough
    exactly for line sizes of at least 127. *)
From Verif Require Import Base BaseLemmas EncSpec EncProofs EncEnd EncSize EncNode EncNodeSpec EncNodeProofs EncPad EncLocal JsBuilds.
From Coq Require Import ZifyBool ZifyNat ZifyN.
Ltac Zify.zify_post_hook ::= Z.div_mod_to_equations.
Open Scope Z_scope.

Lemma breaks_64 L fin data : 127 <= L -> forall col, 0 <= col -> breaks L fin col data * 64 <= zlen data + (col + 1) / 2.
Proof.
  intro HL. induction data as [|c t IH]; intros col Hc; cbn [breaks].
  - change (zlen (@nil byte)) with 0. lia.
  - rewrite zlen_cons. destruct (L <=? col) eqn:E.
    + pose proof (enc_char_len true false c). specialize (IH (zlen (enc_char true false c)) ltac:(lia)). lia.
    + match goal with |- context [enc_char ?f ?g c] =>
        pose proof (enc_char_len f g c); specialize (IH (col + zlen (enc_char f g c)) ltac:(lia)) end. lia.
Qed.

Lemma room_127 no256 L fin col data : 127 <= L -> 0 <= col < L -> zlen data < 2 ^ 53 ->
  zlen (yenc L fin col data) + 32 <= max_size no256 (zlen data) 128.
Proof.
  intros HL Hc Hn. pose proof (zlen_nonneg data). destruct (Z.eq_dec L 127) as [->|N].
  - pose proof (breaks_64 127 fin data ltac:(lia) col ltac:(lia)). pose proof (yenc_len_breaks 127 fin col data).
    pose proof (max_size_eq no256 (zlen data) 128 ltac:(lia) ltac:(lia)) as X. rewrite YENC_MAX_SIZE_eq in X by lia.
    destruct no256; lia.
  - pose proof (max_size_room no256 L fin col data ltac:(lia) Hc Hn).
    enough (max_size no256 (zlen data) L <= max_size no256 (zlen data) 128) by lia.
    pose proof (max_size_eq no256 (zlen data) L ltac:(lia) ltac:(lia)) as X. pose proof (max_size_eq no256 (zlen data) 128 ltac:(lia) ltac:(lia)) as Y.
    rewrite YENC_MAX_SIZE_eq in X, Y by lia.
    pose proof (Z.div_le_compat_l (2 * zlen data) 128 L ltac:(lia) ltac:(lia)). destruct no256; lia.
Qed.

Lemma incr_127 no256 e data args L col src dest dcap malloc m :
  an_encoder e -> data <> [] -> args_give args L col -> in_range L col data -> 127 <= L ->
  bytes_at m src data -> apart src (zlen data) dest dcap ->
  let r := node_encode_incr_in no256 e malloc src (zlen data) (Some (dest, dcap)) args m in
  (dcap < max_size no256 (zlen data) 128 /\ r = Throws) \/
  (max_size no256 (zlen data) 128 <= dcap /\
   r = Returns (Ok (to_int32 (zlen (yenc L false col data)), yenc L false col data, ret_col L false col data))).
Proof.
  intros E Hd Ha Hr HL Hm Hap. cbv zeta. destruct (enc_args_range _ _ _ Ha) as [HL' Hc].
  unfold node_encode_incr_in. destruct (dcap <? max_size no256 (zlen data) 128) eqn:El; [left; split; [lia|reflexivity]|right; split; [lia|]].
  rewrite Ha, data_zlen0 by auto. cbv zeta. pose proof (room_127 no256 L false col data HL Hc ltac:(apply Hr)).
  unfold apart in Hap.
  match goal with |- context [e ?B] => destruct (an_encoder_meets e E B L false col src dest data m) as (m' & E1 & E2); auto; cbn [rlo rhi wlo whi]; try lia end.
  rewrite E1. do 4 f_equal. unfold zlen. rewrite Nat2Z.id. apply bytes_at_read. exact E2.
Qed.

(** Every character of this data is escaped. *)
Lemma breaks_esc L fin n : L <= 126 -> forall j, 0 <= j -> 126 * (breaks L fin (2 * j) (repeat xd6 n) + 1) >= 2 * Z.of_nat n + Z.min (2 * j) 126.
Proof.
  intro HL. induction n as [|n IH]; intros j Hj; cbn [repeat breaks].
  - lia.
  - destruct (L <=? 2 * j) eqn:E.
    + change (zlen (enc_char true false xd6)) with (2 * 1). specialize (IH 1 ltac:(lia)). lia.
    + match goal with |- context [enc_char ?f ?g xd6] => replace (zlen (enc_char f g xd6)) with 2 by (destruct f, g; reflexivity) end.
      replace (2 * j + 2) with (2 * (j + 1)) by lia. specialize (IH (j + 1) ltac:(lia)). lia.
Qed.
Lemma len_esc L fin n : forall col, zlen (yenc L fin col (repeat xd6 n)) = 2 * Z.of_nat n + 2 * breaks L fin col (repeat xd6 n).
Proof.
  induction n as [|n IH]; intro col; [reflexivity|]. cbn [repeat]. rewrite yenc_cons. cbn [breaks]. cbv zeta. destruct (L <=? col).
  - rewrite !zlen_cons, zlen_app, IH. change (zlen (enc_char true false xd6)) with 2. lia.
  - rewrite zlen_app, IH. match goal with |- context [enc_char ?f ?g xd6] => replace (zlen (enc_char f g xd6)) with 2 by (destruct f, g; reflexivity) end. lia.
Qed.

Lemma bytes_at_off m l : forall a, bytes_at m a l -> forall i, (i < length l)%nat -> m (a + Z.of_nat i) = nth i l x00.
Proof.
  induction l as [|x l IH]; intros a H i Hi; cbn [length] in Hi; [lia|]. destruct H as [H1 H2]. destruct i as [|i]; cbn [nth].
  - rewrite Z.add_0_r. exact H1.
  - rewrite <- (IH (a + 1) H2 i) by lia. f_equal. lia.
Qed.

(** An encoder writing more than the destination holds is undefined. *)
Lemma too_small e B L fin col src dest data m : an_encoder e ->
  rlo B = src -> rhi B = src + zlen data -> wlo B = dest -> src + zlen data <= dest -> dest <= whi B ->
  data <> [] -> bytes_at m src data -> 1 <= L <= INT_MAX -> 0 <= col < L -> in_range L col data ->
  whi B < dest + zlen (yenc L fin col data) ->
  e B L col src dest (zlen data) fin m = UB.
Proof.
  intros E R1 R2 W1 Hsd Hw Hd Hm HL Hc Hr Hs. set (t := yenc L fin col data) in *. set (z := whi B) in *.
  set (i := Z.to_nat (z - dest)). assert (Hi : (i < length t)%nat) by (unfold i, zlen in *; lia).
  set (b := if Byte.eqb (nth i t x00) x00 then x01 else x00).
  assert (Hb : b <> nth i t x00).
  { unfold b. destruct (Byte.eqb (nth i t x00) x00) eqn:X; [apply Byte.byte_dec_bl in X; rewrite X; discriminate|].
    intro Y. rewrite <- Y in X. discriminate. }
  set (m' := upd m z b).
  set (B' := {| rlo := src; rhi := src + zlen data; wlo := dest; whi := dest + zlen t + 32 |}).
  assert (W : within B B') by (unfold within, B'; cbn; lia).
  pose proof (an_encoder_local B B' W e L col src dest (zlen data) fin E m m') as X.
  assert (A : agree B m m').
  { intros a Ha. unfold m', upd. destruct (a =? z) eqn:Y; [|reflexivity]. unfold can_read in Ha. lia. }
  specialize (X A).
  destruct (an_encoder_meets e E B' L fin col src dest data m') as (m2 & E1 & E2); auto; unfold B'; cbn [rlo rhi wlo whi]; try (unfold t; lia).
  { apply bytes_at_upd; [lia|exact Hm]. }
  fold B' in E1. fold t in E1, E2. destruct (e B L col src dest (zlen data) fin m) as [[a m1]| |]; [|reflexivity|].
  - exfalso. destruct X as (m1' & F1 & _ & F2). rewrite E1 in F1. injection F1 as _ Fm. subst m1'.
    specialize (F2 z ltac:(unfold can_write; fold z; lia)). unfold m', upd in F2. rewrite Z.eqb_refl in F2.
    pose proof (bytes_at_off _ _ _ E2 i Hi) as G. replace (dest + Z.of_nat i) with z in G by (unfold i; lia). congruence.
  - rewrite E1 in X. discriminate.
Qed.

Definition n126 : nat := Z.to_nat 137089.

Lemma incr_126 no256 e args L src dest malloc m : an_encoder e -> args_give args L 0 -> 1 <= L <= 126 ->
  bytes_at m src (repeat xd6 n126) -> src + zlen (repeat xd6 n126) <= dest ->
  node_encode_incr_in no256 e malloc src (zlen (repeat xd6 n126)) (Some (dest, max_size no256 (zlen (repeat xd6 n126)) 128)) args m = Returns UB.
Proof.
  intros E Ha HL Hm Hsd. unfold node_encode_incr_in. rewrite Z.ltb_irrefl.
  rewrite Ha. assert (Hn : zlen (repeat xd6 n126) = 137089) by (unfold zlen; rewrite repeat_length; unfold n126; lia).
  assert (Hd : repeat xd6 n126 <> []) by (intro X; rewrite X in Hn; discriminate).
  rewrite data_zlen0 by exact Hd. cbv zeta.
  match goal with |- context [e ?B] => rewrite (too_small e B L false 0 src dest (repeat xd6 n126) m E); auto; cbn [rlo rhi wlo whi]; try lia end.
  - rewrite Hn. enough (0 <= max_size no256 137089 128) by lia. destruct no256; vm_compute; discriminate.
  - unfold INT_MAX. lia.
  - split; [lia|]. unfold INT_MAX. lia.
  - rewrite len_esc. pose proof (breaks_esc L false n126 ltac:(lia) 0 ltac:(lia)). change (2 * 0) with 0 in *.
    replace (Z.of_nat n126) with 137089 in * by (unfold n126; lia). rewrite Hn.
    assert (max_size no256 137089 128 <= 278528) by (destruct no256; vm_compute; discriminate). lia.
Qed.

Lemma args_L L : 1 <= L <= INT_MAX -> enc_args [L; 0] = Some (L, 0).
Proof.
  intro H. unfold enc_args. replace (to_int32 L) with L by (unfold to_int32, INT_MAX in *; cbn; lia). change (to_int32 0) with 0.
  destruct (L =? 0) eqn:Y; [lia|]. destruct (L <? 0) eqn:Y2; [lia|]. cbn [orb Z.ltb]. destruct (0 =? L) eqn:Y3; [lia|reflexivity].
Qed.

Lemma incr_exact no256 e L : an_encoder e -> 1 <= L <= INT_MAX - 6 ->
  ((forall data col src dest dcap malloc m, zlen data < 2 ^ 53 -> bytes_at m src data -> apart src (zlen data) dest dcap ->
    node_encode_incr_in no256 e malloc src (zlen data) (Some (dest, dcap)) [L; col] m <> Returns UB) <-> 127 <= L).
Proof.
  intros E HL. split.
  - intro H. destruct (Z_le_gt_dec 127 L) as [|G]; [assumption|]. exfalso.
    eapply (H (repeat xd6 n126) 0 0 (zlen (repeat xd6 n126)) _ (fun _ => 0)); [| | |apply (incr_126 no256 e _ L); [exact E|apply args_L; lia|lia| |lia]].
    + unfold zlen. rewrite repeat_length. unfold n126. lia.
    + apply bytes_at_mem_of.
    + left. lia.
    + apply bytes_at_mem_of.
  - intros G data col src dest dcap malloc m Hn Hm Hap X. destruct (enc_args [L; col]) as [[L' c]|] eqn:A.
    + assert (L' = L).
      { unfold enc_args in A. replace (to_int32 L) with L in A by (unfold to_int32, INT_MAX in *; cbn; lia). destruct (L =? 0) eqn:Y; [lia|].
        destruct (L <? 0) eqn:Y2; [lia|]. destruct (_ || _); congruence. }
      subst L'. destruct data as [|d0 data'].
      * unfold node_encode_incr_in in X. destruct (dcap <? _); [discriminate|]. rewrite A in X. discriminate.
      * destruct (incr_127 no256 e (d0 :: data') [L; col] L c src dest dcap malloc m E) as [[_ Y]|[_ Y]]; auto; try discriminate; try congruence.
        split; [exact Hn|left; lia].
    + unfold node_encode_incr_in in X. destruct (dcap <? _); [discriminate|]. rewrite A in X. discriminate.
Qed.
