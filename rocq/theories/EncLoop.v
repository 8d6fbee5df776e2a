(** The code the NEON and RVV encoders share ([EncLoopModel]) writes the text of the
    specification if its blocks and its end-of-line code do. *)
From Verif Require Import Base BaseLemmas DecVec EncModel EncSpec EncProofs EncEnd EncSseModel EncLoopModel EncBlock EncSseProofs.
From Coq Require Import ZifyBool ZifyNat ZifyN.
Ltac Zify.zify_post_hook ::= Z.div_mod_to_equations.

Section Loop.
Variable B : bufs.

(** The last character of a line, the line break and the start of the next line: up to
    [need] characters are read. *)
Definition eol_ok (eol : Z -> Z -> M (Z * Z * Z)) (es off L need : Z) : Prop :=
  forall all c0 dest i p col m o e rest,
    rlo B <= es + i -> geom B (es + off) (i - off) dest ->
    inv m (es + off) (i - off) p dest o (e :: rest) -> need <= zlen (e :: rest) ->
    0 <= col + L - 1 -> (col = 0 \/ (col = - 1 /\ must_escape false false e = true)) ->
    cont L c0 all (col + L - 1) o (e :: rest) ->
    dest + zlen (yenc L false c0 all) + 32 <= whi B ->
    exists m' i' p' col' o' rest',
      eol i p m = Ok ((i', p', col'), m') /\ inv m' (es + off) (i' - off) p' dest o' rest' /\
      i < i' <= i + need /\ col' < 0 /\ 1 <= col' + L - 1 /\ cont L c0 all (col' + L - 1) o' rest'.

Lemma loop_run block eol es width slack off need all L c0 dest :
  block_at_ok B false block es width slack 0 -> eol_ok eol es off L need ->
  1 <= width -> 2 <= need -> width + need <= off + 1 -> 0 <= slack <= 24 + (off + 1 - width) -> 3 <= L ->
  dest + zlen (yenc L false c0 all) + 32 <= whi B ->
  forall fuel i p col m o rest,
  (Z.to_nat (- i) < fuel)%nat -> i <= off ->
  rlo B <= es + i -> geom B (es + off) (i - off) dest ->
  inv m (es + off) (i - off) p dest o rest ->
  col < 0 -> 1 <= col + L - 1 ->
  cont L c0 all (col + L - 1) o rest ->
  exists m' i' p' col' o' rest',
    enc_loop fuel block eol width i p col m = Ok ((i', p', col'), m') /\
    inv m' (es + off) (i' - off) p' dest o' rest' /\ i' <= off /\
    0 <= col' + L - 1 /\ cont L c0 all (col' + L - 1) o' rest'.
Proof.
  intros HB HE Hw Hn Hoff Hs HL Hroom.
  induction fuel as [|fuel IH]; intros i p col m o rest Hf Hi Hr G I Hc Hc' HC; [lia|].
  cbn [enc_loop]. destruct (i <? 0) eqn:Ei.
  2:{ do 6 eexists. split; [reflexivity|]. split; [exact I|]. do 2 (split; [lia|]). exact HC. }
  assert (Hrl := inv_len _ _ _ _ _ _ _ I).
  destruct (block_step B block es width slack 0 off all L c0 dest i p col m o rest)
    as [(m1 & t & o1 & rs & Eb & Ht & Hct & I1 & HC1)|(m1 & k & q & o1 & e & r' & Eb & Hk & Hq & Hrest)]; auto; try lia.
  { replace (col + L - 1 =? 0) with false by lia. exact HB. }
  - erewrite bind_ok by exact Eb. clear Eb.
    apply IH with (o := o1) (rest := rs); auto; try lia.
    eapply geom_mono; [exact G|lia].
  - erewrite bind_ok by exact Eb. clear Eb. destruct Hrest as (I1 & Hc1 & HC1 & Hcase); [lia|].
    assert (Hl1 := inv_len _ _ _ _ _ _ _ I1).
    destruct (HE all c0 dest (i + k) (p + q) (col + q) m1 o1 e r') as (m2 & i2 & p2 & c2 & o2 & r2 & E2 & I2 & Hi2 & Hc2 & Hc2' & HC2); auto; try lia.
    { eapply geom_mono; [exact G|lia]. }
    erewrite bind_ok by exact E2. clear E2. cbv beta iota.
    apply IH with (o := o2) (rest := r2); auto; try lia.
    eapply geom_mono; [exact G|lia].
Qed.

Lemma begin_run L es eol i p col off need all c0 dest m o rest :
  eol_ok eol es off L need -> 2 <= need <= zlen rest -> 8 <= L -> rlo B <= es + i -> geom B (es + off) (i - off) dest ->
  inv m (es + off) (i - off) p dest o rest ->
  dest + zlen (yenc L false c0 all) + 32 <= whi B ->
  0 <= col + L - 1 -> cont L c0 all (col + L - 1) o rest ->
  exists m' i' p' col' o' rest',
    enc_begin B L es eol i p col m = Ok ((i', p', col'), m') /\
    inv m' (es + off) (i' - off) p' dest o' rest' /\
    i <= i' <= i + need /\ col' < 0 /\ 1 <= col' + L - 1 /\ cont L c0 all (col' + L - 1) o' rest'.
Proof.
  intros HE Hlen HL Hr G I Hroom Hc HC. unfold enc_begin.
  destruct rest as [|c rest]; [change (zlen (@nil byte)) with 0 in Hlen; lia|].
  pose proof (cont_room _ _ _ _ _ _ HC) as Hlen1. assert (Hp := inv_p _ _ _ _ _ _ _ I). pose proof (zlen_nonneg o).
  assert (Hrl := inv_len _ _ _ _ _ _ _ I). rewrite zlen_cons in *.
  destruct (col =? - L + 1) eqn:E.
  - replace (col + L - 1) with 0 in * by lia.
    destruct (first_step B (es + off) L (i - off) p dest m o c rest) as (m2 & e & F1 & F2 & F3 & F4 & F5); auto; try lia.
    assert (F1' : enc_first B es i p m = Ok ((i + 1, p + zlen e, zlen e), m2)).
    { revert F1. unfold enc_first. replace (es + off + (i - off)) with (es + i) by lia. unfold bind.
      destruct (load B (es + i) m) as [[b mb]| |]; try discriminate. destruct (negb (escapedLUT b =? 0)).
      - destruct (store16 B p (escapedLUT b) mb) as [[u mu]| |]; try discriminate. unfold ret. intro F; injection F as F6 F7 F8.
        rewrite F6, F7, F8. reflexivity.
      - destruct (store B p (u8 (bz b + 42)) mb) as [[u mu]| |]; try discriminate. unfold ret. intro F; injection F as F6 F7 F8.
        rewrite F6, F7, F8. reflexivity. }
    erewrite bind_ok by (erewrite bind_ok by exact F1'; reflexivity). cbv beta iota.
    destruct (0 <=? col + zlen e) eqn:E0; [lia|].
    do 6 eexists. split; [reflexivity|]. split.
    { replace (i + 1 - off) with (i - off + 1) by lia. exact F3. }
    replace (col + zlen e + L - 1) with (zlen e) by lia.
    do 3 (split; [lia|]). eapply cont_trans; [exact HC|]. apply (cont_intro L 0 _ _ [c] rest); assumption.
  - erewrite bind_ok by reflexivity. cbv beta iota.
    destruct (0 <=? col) eqn:E0.
    2:{ do 6 eexists. split; [reflexivity|]. split; [exact I|]. do 3 (split; [lia|]). exact HC. }
    destruct (col =? 0) eqn:Ez.
    { destruct (HE all c0 dest i p col m o c rest) as (m2 & i2 & p2 & c2 & o2 & r2 & E2 & I2 & Hi2 & Hc2 & Hc2' & HC2); auto; try (rewrite zlen_cons; lia); try lia.
      do 6 eexists. split; [exact E2|]. split; [exact I2|]. do 3 (split; [lia|]). exact HC2. }
    assert (Hld : load B (es + i) m = Ok (c, m)).
    { rewrite load_r by (destruct G; lia). f_equal. f_equal.
      destruct I as [J1 _ _ _]. cbn [bytes_at] in J1. destruct J1 as [J1 _]. rewrite <- J1. f_equal. lia. }
    erewrite bind_ok by exact Hld.
    assert (Hy : zlen (enc_char true false c) + 2 <= zlen (yenc L false (col + L - 1) (c :: rest))).
    { rewrite (yenc_cons L false (col + L - 1)). cbv zeta. destruct (L <=? col + L - 1) eqn:E1; [|lia].
      rewrite !zlen_cons, zlen_app. match goal with |- context [zlen (yenc ?a ?b ?c ?d)] => pose proof (zlen_nonneg (yenc a b c d)) end. lia. }
    destruct (enc_eol_run B c p m) as (m1 & El & Hm1); [destruct G; lia|lia|].
    cbv zeta in El. erewrite bind_ok by exact El. cbv beta iota. pose proof (enc_char_len true false c).
    do 6 eexists. split; [reflexivity|]. split.
    + replace (i + 1 - off) with (i - off + zlen [c]) by (change (zlen [c]) with 1; lia).
      assert (Ix : exists x, m1 = put m p ((CR :: LF :: enc_char true false c) ++ x) /\ zlen x <= 1).
      { destruct Hm1 as [->|[y ->]]; [exists []; rewrite app_nil_r|exists [y]]; split; auto; cbv; congruence. }
      destruct Ix as (x & -> & Hx).
      replace (p + 2 + zlen (enc_char true false c)) with (p + zlen (CR :: LF :: enc_char true false c)) by (rewrite !zlen_cons; lia).
      apply inv_put_junk with (B := B) (r1 := [c]); [exact G|exact I|]. cbn [app]. rewrite !zlen_cons, zlen_app. lia.
    + replace (zlen (enc_char true false c) - L + 1 + L - 1) with (zlen (enc_char true false c)) by lia.
      do 3 (split; [lia|]). eapply cont_trans; [exact HC|].
      apply (cont_intro L _ _ _ [c] rest); cbn [app]; [rewrite (yenc_cons L false (col + L - 1))|rewrite (ret_col_cons L false (col + L - 1))]; cbv zeta;
        (destruct (L <=? col + L - 1) eqn:E1; [|lia]); reflexivity.
Qed.

End Loop.

Lemma kernel_loop B (kernel : enc_kernel) L col src dest data m fin block eol width slack off need minL :
  (forall es, block_at_ok B false (block es) es width slack 0) ->
  (minL <= L -> forall es, eol_ok B (eol es) es off L need) ->
  1 <= width -> 2 <= need -> width + need <= off + 1 -> 0 <= slack <= 24 + (off + 1 - width) -> 8 <= minL -> 1 <= off ->
  (zlen data <= off \/ L < minL -> kernel B L col (src + zlen data) dest (zlen data) m = Ok ((col, dest, zlen data), m)) ->
  (off < zlen data -> minL <= L -> kernel B L col (src + zlen data) dest (zlen data) m =
    (let es := src + zlen data - off in
     '(i, p, col) <- enc_begin B L es (eol es) (- zlen data + off) dest (col - L + 1) ;;
     '(i, p, col) <- enc_loop (Z.to_nat (zlen data)) (block es) (eol es) width i p col ;;
     ret (col + L - 1, p, - (i - off))) m) ->
  rlo B <= src -> src + zlen data <= rhi B -> wlo B = dest ->
  (rhi B <= wlo B \/ whi B <= rlo B) ->
  bytes_at m src data -> 1 <= L -> 0 <= col ->
  dest + zlen (yenc L fin col data) + 32 <= whi B ->
  kernel_run B kernel L col src dest data m.
Proof.
  intros HB HE Hw Hn Hoff Hs HmL Hoff2 Hk1 Hk2 Hr1 Hr2 Hwl Hdis Hb HL Hc Hroom.
  assert (Hroom' : dest + zlen (yenc L false col data) + 32 <= whi B) by (pose proof (yenc_fin_le L fin col data); lia).
  unfold kernel_run. destruct (Z_le_gt_dec (zlen data) off) as [Hsm|Hbig].
  { exists m, col, [], [], data. rewrite Hk1 by auto. change (zlen (@nil byte)) with 0. rewrite !Z.add_0_r. repeat split; auto. }
  destruct (Z_lt_le_dec L minL) as [Hsl|HL2].
  { exists m, col, [], [], data. rewrite Hk1 by auto. change (zlen (@nil byte)) with 0. rewrite !Z.add_0_r. repeat split; auto. }
  rewrite Hk2 by lia. cbv zeta. clear Hk1 Hk2. set (es := src + zlen data - off) in *.
  assert (G : geom B (es + off) (- zlen data) dest) by (constructor; auto; lia).
  assert (I : inv m (es + off) (- zlen data + off - off) dest dest [] data).
  { constructor; auto; [replace (es + off + _) with src by lia; exact Hb|lia|exact I|change (zlen (@nil byte)) with 0; lia]. }
  destruct (begin_run B L es (eol es) (- zlen data + off) dest (col - L + 1) off need data col dest m [] data)
    as (m2 & i2 & p2 & c2 & o2 & r2 & E2 & I2 & Hi2 & Hc2 & Hc2' & HC2); auto; try lia.
  { eapply geom_mono; [exact G|lia]. }
  { replace (col - L + 1 + L - 1) with col by lia. apply cont_refl. }
  erewrite bind_ok by exact E2. cbv beta iota. clear E2.
  destruct (loop_run B (block es) (eol es) es width slack off need data L col dest (HB es) (HE HL2 es)) with (fuel := Z.to_nat (zlen data)) (i := i2) (p := p2) (col := c2) (m := m2) (o := o2) (rest := r2)
    as (m3 & i3 & p3 & c3 & o3 & r3 & E3 & I3 & Hi3 & Hc3 & HC3); auto; try lia.
  { eapply geom_mono; [exact G|lia]. }
  erewrite bind_ok by exact E3. cbv beta iota. clear E3.
  pose proof (inv_len _ _ _ _ _ _ _ I3) as Hl3. pose proof (inv_p _ _ _ _ _ _ _ I3) as Hp3.
  destruct HC3 as [[Hy Hrc] [pre Hpre]].
  assert (Hlp : zlen data = zlen pre + zlen r3) by (rewrite Hpre; apply zlen_app).
  exists m3, (c3 + L - 1), o3, pre, r3. split; [|split; [exact Hpre|split; [|split; [|split; [lia|split; assumption]]]]].
  - unfold ret. rewrite Hp3. do 3 f_equal. lia.
  - pose proof (inv_src _ _ _ _ _ _ _ I3) as Hs3. replace (src + zlen pre) with (es + off + (i3 - off)) by lia. exact Hs3.
  - exact (inv_dst _ _ _ _ _ _ _ I3).
Qed.
