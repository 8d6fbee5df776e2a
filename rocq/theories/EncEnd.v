(** The scalar encoders refine the specification [yenc], continued: the end of the
    message, and the correctness of the two entry points. *)
From Verif Require Import Base BaseLemmas EncModel EncSpec EncProofs.
From Coq Require Import ZifyBool ZifyNat ZifyN.
Ltac Zify.zify_post_hook ::= Z.div_mod_to_equations.

Section Run.
Variable B : bufs.

(** ** The end of the message *)

(** Ending the last line escapes a trailing tab or space, and changes nothing else. *)
Definition patch (fin : bool) (o : list byte) : list byte :=
  if fin then
    let lc := last o NUL in
    if is_ws lc then removelast o ++ [EQS; u8 (bz lc + 64)] else o
  else o.

Lemma last_cons_app {A} (l k : list A) d : k <> [] -> last (l ++ k) d = last k d.
Proof.
  intro H. induction l as [|a l IH]; auto.
  rewrite <- app_comm_cons. destruct (l ++ k) eqn:E.
  - apply app_eq_nil in E. tauto.
  - rewrite <- E. rewrite <- IH. rewrite E. reflexivity.
Qed.

Lemma patch_app fin a b : b <> [] -> patch fin (a ++ b) = a ++ patch fin b.
Proof.
  intro H. unfold patch. destruct fin; auto. rewrite last_cons_app by auto.
  cbv zeta. destruct (is_ws (last b NUL)); auto.
  rewrite removelast_app by auto. rewrite app_assoc. reflexivity.
Qed.

Lemma enc_char_nonnil f l c : enc_char f l c <> [].
Proof. unfold enc_char. destruct (must_escape f l c); discriminate. Qed.

Lemma patch_char f l c : patch true (enc_char f l c) = enc_char f true c.
Proof. destruct c, f, l; vm_compute; reflexivity. Qed.
Lemma patch_first l c : patch true (enc_char true l c) = enc_char true l c.
Proof. destruct c, l; vm_compute; reflexivity. Qed.

Lemma yenc_nonnil L fin col c t : yenc L fin col (c :: t) <> [].
Proof.
  simpl. destruct (L <=? col); [discriminate|].
  set (f := col =? 0). set (g := (_ || _)). intro H. apply app_eq_nil in H.
  apply (enc_char_nonnil f g c). tauto.
Qed.

Lemma yenc_patch L fin col data :
  data <> [] -> yenc L fin col data = patch fin (yenc L false col data).
Proof.
  destruct fin; [|reflexivity].
  revert col; induction data as [|c t IH]; [congruence|]. intros col _.
  destruct t as [|c2 t].
  - simpl yenc. destruct (L <=? col).
    + rewrite app_nil_r. change (CR :: LF :: enc_char true false c) with ([CR; LF] ++ enc_char true false c).
      rewrite patch_app by apply enc_char_nonnil. rewrite patch_first. reflexivity.
    + rewrite !app_nil_r, orb_true_r, orb_false_r. rewrite patch_char. reflexivity.
  - rewrite (yenc_cons L true), (yenc_cons L false).
    destruct (L <=? col).
    + cbv zeta.
      match goal with |- _ = patch true (CR :: LF :: ?e ++ ?y) =>
        change (CR :: LF :: e ++ y) with ((CR :: LF :: e) ++ y) end.
      rewrite patch_app by apply yenc_nonnil.
      rewrite <- IH by discriminate. reflexivity.
    + cbv zeta. cbn [andb]. rewrite orb_false_r.
      rewrite patch_app by apply yenc_nonnil. rewrite <- IH by discriminate. reflexivity.
Qed.

(** The reported column with and without the final patch. *)
Lemma ret_col_patch L col data :
  0 <= col -> data <> [] ->
  ret_col L true col data =
  if is_ws (last (yenc L false col data) NUL)
  then ret_col L false col data + 1 else ret_col L false col data.
Proof.
  revert col; induction data as [|c t IH]; [congruence|]. intros col Hcol _.
  destruct t as [|c2 t].
  - simpl yenc. simpl ret_col. rewrite app_nil_r.
    destruct (L <=? col) eqn:E.
    + change (CR :: LF :: enc_char true false c) with ([CR; LF] ++ enc_char true false c).
      rewrite last_cons_app by apply enc_char_nonnil.
      assert (H : is_ws (last (enc_char true false c) NUL) = false) by (destruct c; reflexivity).
      rewrite H. reflexivity.
    + rewrite orb_true_r, orb_false_r, andb_true_r, app_nil_r.
      destruct (col =? L - 1) eqn:E1; cbn [andb].
      * assert (H : forall f, is_ws (last (enc_char f true c) NUL) = false) by (intro f; destruct f, c; reflexivity).
        rewrite H. reflexivity.
      * assert (H : forall f, zlen (enc_char f true c) =
            if is_ws (last (enc_char f false c) NUL) then zlen (enc_char f false c) + 1
            else zlen (enc_char f false c)) by (intro f; destruct f, c; reflexivity).
        rewrite H. destruct (is_ws _); lia.
  - rewrite (yenc_cons L false), (ret_col_cons L true), (ret_col_cons L false).
    cbv zeta. cbn [andb]. rewrite orb_false_r, andb_false_r.
    destruct (L <=? col).
    + match goal with |- context [last (CR :: LF :: ?e ++ ?y) NUL] =>
        change (CR :: LF :: e ++ y) with ((CR :: LF :: e) ++ y) end.
      rewrite last_cons_app by apply yenc_nonnil. apply IH; [apply zlen_nonneg|discriminate].
    + rewrite last_cons_app by apply yenc_nonnil. apply IH; [|discriminate].
      match goal with |- 0 <= col + zlen ?e => pose proof (zlen_nonneg e) end. lia.
Qed.

Lemma patch_len fin o :
  o <> [] -> zlen (patch fin o) = if fin && is_ws (last o NUL) then zlen o + 1 else zlen o.
Proof.
  intro H. unfold patch. destruct fin; auto. cbv zeta. cbn [andb].
  destruct (is_ws (last o NUL)); auto.
  pose proof (app_removelast_last NUL H) as E.
  assert (zlen o = zlen (removelast o) + 1) by (rewrite E at 1; rewrite zlen_app; reflexivity).
  rewrite zlen_app. change (zlen [EQS; u8 (bz (last o NUL) + 64)]) with 2. lia.
Qed.

Lemma enc_end_run fin es dest m o col r :
  o <> [] -> geom B es 0 dest -> inv m es 0 (dest + zlen o) dest o r ->
  (fin && is_ws (last o NUL) = true -> 0 <= col < INT_MAX) ->
  dest + zlen (patch fin o) <= whi B ->
  exists m',
    enc_end B fin (dest + zlen o) col m =
    Ok ((dest + zlen (patch fin o), if fin && is_ws (last o NUL) then col + 1 else col), m') /\
    inv m' es 0 (dest + zlen (patch fin o)) dest (patch fin o) r.
Proof.
  intros Ho G I Hcol Hw. rewrite patch_len in * by auto.
  unfold enc_end, patch. destruct fin; [|eexists; split; [reflexivity|exact I]].
  cbv zeta. cbn [andb] in *.
  pose proof (app_removelast_last NUL Ho) as Eo.
  assert (Hz : zlen o = zlen (removelast o) + 1) by (rewrite Eo at 1; rewrite zlen_app; reflexivity).
  pose proof (zlen_nonneg (removelast o)) as Hz'.
  assert (Hlast : m (dest + zlen o - 1) = last o NUL).
  { destruct I as [_ _ I3 _]. rewrite Eo in I3. rewrite bytes_at_app in I3. destruct I3 as [_ [I3 _]].
    rewrite <- I3. f_equal. lia. }
  assert (Hle : zlen o <= whi B - dest) by (destruct (is_ws (last o NUL)); lia).
  erewrite bind_ok by (apply load_w; destruct G; lia). rewrite Hlast.
  change (beq (last o NUL) TAB || beq (last o NUL) SP) with (is_ws (last o NUL)).
  destruct (is_ws (last o NUL)) eqn:E; [|eexists; split; [reflexivity|exact I]].
  erewrite bind_ok by (apply store_w; destruct G; lia).
  erewrite bind_ok by (apply store_w; destruct G; lia).
  specialize (Hcol eq_refl).
  erewrite bind_ok by (apply chk_int_ok; unfold INT_MIN, INT_MAX in *; lia).
  eexists. split.
  { unfold ret. do 3 f_equal. lia. }
  assert (I' : inv m es 0 (dest + zlen (removelast o)) dest (removelast o) r).
  { destruct I as [I1 I2 I3 I4]. constructor; auto.
    rewrite Eo, bytes_at_app in I3. tauto. }
  pose proof (inv_put B m es 0 (dest + zlen (removelast o)) dest (removelast o) [] r
                [EQS; u8 (bz (last o NUL) + 64)] G I') as J.
  change (zlen [EQS; u8 (bz (last o NUL) + 64)]) with 2 in J.
  specialize (J ltac:(lia)).
  change (zlen (@nil byte)) with 0 in J. rewrite Z.add_0_r in J.
  replace (dest + (zlen o + 1)) with (dest + zlen (removelast o) + 2) by lia.
  replace (dest + zlen o - 1) with (dest + zlen (removelast o)) by lia.
  replace (dest + zlen o) with (dest + zlen (removelast o) + 1) by lia.
  exact J.
Qed.

Lemma ret_col_ws L col data :
  0 <= col -> data <> [] -> is_ws (last (yenc L false col data) NUL) = true ->
  0 <= ret_col L false col data < L.
Proof.
  revert col; induction data as [|c t IH]; [congruence|]. intros col Hcol _.
  rewrite (yenc_cons L false), (ret_col_cons L false). cbv zeta. cbn [andb]. rewrite orb_false_r.
  destruct t as [|c2 t].
  - simpl yenc. simpl ret_col. rewrite !app_nil_r.
    destruct (L <=? col) eqn:E.
    + change (CR :: LF :: enc_char true false c) with ([CR; LF] ++ enc_char true false c).
      rewrite last_cons_app by apply enc_char_nonnil.
      assert (H : is_ws (last (enc_char true false c) NUL) = false) by (destruct c; reflexivity).
      congruence.
    + destruct (col =? L - 1) eqn:E1; cbn [andb].
      * assert (H : forall f, is_ws (last (enc_char f true c) NUL) = false) by (intro f; destruct f, c; reflexivity).
        rewrite H. congruence.
      * assert (H : forall f, is_ws (last (enc_char f false c) NUL) = true -> zlen (enc_char f false c) = 1)
          by (intro f; destruct f, c; vm_compute; congruence).
        intro W. rewrite (H _ W). lia.
  - rewrite andb_false_r. destruct (L <=? col).
    + match goal with |- context [last (CR :: LF :: ?e ++ ?y) NUL] =>
        change (CR :: LF :: e ++ y) with ((CR :: LF :: e) ++ y) end.
      rewrite last_cons_app by apply yenc_nonnil. apply IH; [apply zlen_nonneg|discriminate].
    + rewrite last_cons_app by apply yenc_nonnil. apply IH; [|discriminate].
      match goal with |- 0 <= col + zlen ?e => pose proof (zlen_nonneg e) end. lia.
Qed.

(** The first character, when the line is empty. *)
Lemma first_step es L i p dest m o c rest :
  geom B es i dest -> inv m es i p dest o (c :: rest) ->
  p + zlen (yenc L false 0 (c :: rest)) <= whi B -> 1 <= L ->
  exists m' e,
    enc_first B es i p m = Ok ((i + 1, p + zlen e, zlen e), m') /\
    1 <= zlen e <= 2 /\
    inv m' es (i + 1) (p + zlen e) dest (o ++ e) rest /\
    yenc L false 0 (c :: rest) = e ++ yenc L false (zlen e) rest /\
    ret_col L false 0 (c :: rest) = ret_col L false (zlen e) rest.
Proof.
  intros G I Hw HL.
  rewrite (yenc_cons L false), (ret_col_cons L false) in *. cbv zeta in *. cbn [andb] in *. rewrite orb_false_r in *.
  destruct (L <=? 0) eqn:E0; [lia|]. change (0 =? 0) with true in *. cbn [negb andb] in *.
  rewrite andb_false_r. cbn [andb]. rewrite !Z.add_0_l in *.
  set (e := enc_char true (0 =? L - 1) c) in *.
  assert (Hec : 1 <= zlen e <= 2) by apply enc_char_len.
  rewrite zlen_app in Hw. pose proof (zlen_nonneg (yenc L false (zlen e) rest)).
  assert (Hl := inv_len _ _ _ _ _ _ _ I). rewrite zlen_cons in Hl. pose proof (zlen_nonneg rest).
  assert (Hp := inv_p _ _ _ _ _ _ _ I). pose proof (zlen_nonneg o).
  exists (put m p e), e. split.
  { apply enc_first_run.
    - destruct I as [I1 _ _ _]. apply I1.
    - destruct G; lia.
    - destruct G; lia.
    - fold e. lia. }
  split; [exact Hec|]. split; [|split; reflexivity].
  change 1 with (zlen [c]).
  apply inv_put with (B := B); auto. lia.
Qed.

Lemma yenc_fin_le L fin col data :
  zlen (yenc L false col data) <= zlen (yenc L fin col data).
Proof.
  destruct data as [|c t]; [reflexivity|].
  rewrite (yenc_patch L fin) by discriminate.
  rewrite patch_len by apply yenc_nonnil.
  destruct (fin && _); lia.
Qed.

(** End of both encoders: from the state reached by the main loop. *)
Lemma finish es L fin col dest m data :
  data <> [] -> 0 <= col -> 1 <= L <= INT_MAX -> geom B es 0 dest ->
  inv m es 0 (dest + zlen (yenc L false col data)) dest (yenc L false col data) [] ->
  dest + zlen (yenc L fin col data) <= whi B ->
  exists m',
    ('(p, col) <- enc_end B fin (dest + zlen (yenc L false col data)) (ret_col L false col data) ;;
     ret (p - dest, col)) m =
    Ok ((zlen (yenc L fin col data), ret_col L fin col data), m') /\
    bytes_at m' dest (yenc L fin col data).
Proof.
  intros Hd Hc HL G I Hw.
  assert (Hnn : yenc L false col data <> []) by (destruct data; [congruence|apply yenc_nonnil]).
  destruct (enc_end_run fin es dest m (yenc L false col data) (ret_col L false col data) [])
    as (m' & E1 & E2); auto.
  - intro W. apply andb_true_iff in W. destruct W as [_ W].
    pose proof (ret_col_ws L col data Hc Hd W). lia.
  - rewrite <- yenc_patch by auto. exact Hw.
  - exists m'. erewrite bind_ok by exact E1. cbv beta iota. rewrite <- yenc_patch in * by auto.
    split; [|apply E2].
    unfold ret. do 3 f_equal; [lia|].
    destruct fin; [|reflexivity]. rewrite ret_col_patch by auto. reflexivity.
Qed.

Lemma generic_run L fin col src dest data m :
  rlo B <= src -> src + zlen data <= rhi B -> wlo B = dest ->
  (rhi B <= wlo B \/ whi B <= rlo B) ->
  data <> [] -> bytes_at m src data ->
  1 <= L <= INT_MAX -> 0 <= col <= L ->
  (L + 6 <= INT_MAX \/ col + 2 * zlen data <= INT_MAX) ->
  dest + zlen (yenc L fin col data) + 1 <= whi B ->
  exists m',
    do_encode_generic B L col src dest (zlen data) fin m =
      Ok ((zlen (yenc L fin col data), ret_col L fin col data), m') /\
    bytes_at m' dest (yenc L fin col data).
Proof.
  intros Hr1 Hr2 Hwl Hdis Hd Hm HL Hc Hov Hw.
  unfold do_encode_generic. cbv zeta.
  pose proof (yenc_fin_le L fin col data) as Hfl.
  assert (G : geom B (src + zlen data) (- zlen data) dest) by (constructor; auto; lia).
  assert (I : inv m (src + zlen data) (- zlen data) dest dest [] data).
  { constructor.
    - replace (src + zlen data + - zlen data) with src by lia. exact Hm.
    - lia.
    - exact Logic.I.
    - change (zlen (@nil byte)) with 0. lia. }
  set (es := src + zlen data) in *.
  assert (G0 : geom B es 0 dest) by (constructor; destruct G; auto; subst es; pose proof (zlen_nonneg data); lia).
  destruct (col =? 0) eqn:E0.
  - assert (col = 0) by lia. subst col. destruct data as [|c rest]; [congruence|].
    destruct (first_step es L (- zlen (c :: rest)) dest dest m [] c rest) as (m1 & e & F1 & F2 & F3 & F4 & F5); auto; try lia.
    erewrite bind_ok by exact F1. cbv beta iota.
    assert (Hy : zlen (yenc L false 0 (c :: rest)) = zlen e + zlen (yenc L false (zlen e) rest))
      by (rewrite F4, zlen_app; reflexivity).
    pose proof (zlen_nonneg rest).
    destruct (lines_run B (S (Z.to_nat (zlen (c :: rest)))) es L (- zlen (c :: rest) + 1) (dest + zlen e) (zlen e) dest m1 e rest)
      as (m2 & E1 & E2).
    { rewrite zlen_cons. lia. }
    { apply (geom_mono _ _ _ _ _ G). lia. }
    { exact F3. }
    { lia. }
    { split; [lia|]. rewrite zlen_cons in Hov. split; lia. }
    { lia. }
    erewrite bind_ok by exact E1. cbv beta iota.
    replace (dest + zlen e + zlen (yenc L false (zlen e) rest)) with (dest + zlen (yenc L false 0 (c :: rest))) in * by lia.
    rewrite <- F5. rewrite <- F4 in E2.
    apply finish with (es := es); auto; lia.
  - rewrite bind_ret. cbv beta iota.
    pose proof (zlen_nonneg data).
    destruct (lines_run B (S (Z.to_nat (zlen data))) es L (- zlen data) dest col dest m [] data)
      as (m2 & E1 & E2); auto; try lia.
    { split; [lia|]. split; lia. }
    erewrite bind_ok by exact E1. cbv beta iota.
    apply finish with (es := es); auto; lia.
Qed.

(** What [do_encode_simd] needs from a kernel called with these arguments: it
    consumes a prefix of the data, writes exactly the text for that prefix, and
    returns a column from which the specification continues. *)
Definition kernel_run (k : enc_kernel) (L col src dest : Z) (data : list byte) (m : mem) : Prop :=
  exists m' col' o1 d1 d2,
    k B L col (src + zlen data) dest (zlen data) m =
      Ok ((col', dest + zlen o1, zlen d2), m') /\
    data = d1 ++ d2 /\
    bytes_at m' (src + zlen d1) d2 /\
    bytes_at m' dest o1 /\
    0 <= col' /\
    yenc L false col data = o1 ++ yenc L false col' d2 /\
    ret_col L false col data = ret_col L false col' d2.

Lemma simd_run k L fin col src dest data m :
  rlo B <= src -> src + zlen data <= rhi B -> wlo B = dest ->
  (rhi B <= wlo B \/ whi B <= rlo B) ->
  data <> [] -> bytes_at m src data ->
  1 <= L <= INT_MAX -> 0 <= col <= L ->
  dest + zlen (yenc L fin col data) + 1 <= whi B ->
  (12 <= L -> kernel_run k L col src dest data m) ->
  exists m',
    do_encode_simd k B L col src dest (zlen data) fin m =
      Ok ((zlen (yenc L fin col data), ret_col L fin col data), m') /\
    bytes_at m' dest (yenc L fin col data).
Proof.
  intros Hr1 Hr2 Hwl Hdis Hd Hm HL Hc Hw Hk.
  unfold do_encode_simd.
  destruct (zlen data <? 1) eqn:El.
  { destruct data; [congruence|]. rewrite zlen_cons in El. pose proof (zlen_nonneg data). lia. }
  destruct (L <? 12) eqn:E12.
  { apply generic_run; auto. left. unfold INT_MAX. lia. }
  cbv zeta. destruct (col <? 0) eqn:Ec; [lia|].
  destruct (Hk ltac:(lia)) as (m1 & col' & o1 & d1 & d2 & K1 & K2 & K3 & K4 & K5 & K6 & K7).
  erewrite bind_ok by exact K1. cbv beta iota.
  pose proof (yenc_fin_le L fin col data) as Hfl.
  set (es := src + zlen data) in *.
  assert (G0 : geom B es 0 dest) by (constructor; auto; subst es; pose proof (zlen_nonneg data); lia).
  assert (Hd2 : zlen data = zlen d1 + zlen d2) by (rewrite K2, zlen_app; reflexivity).
  pose proof (zlen_nonneg d1). pose proof (zlen_nonneg d2).
  assert (G : geom B es (- zlen d2) dest) by (constructor; auto; subst es; lia).
  assert (I : inv m1 es (- zlen d2) (dest + zlen o1) dest o1 d2).
  { constructor; auto; [|lia]. replace (es + - zlen d2) with (src + zlen d1) by (subst es; lia). exact K3. }
  assert (Hy : zlen (yenc L false col data) = zlen o1 + zlen (yenc L false col' d2))
    by (rewrite K6, zlen_app; reflexivity).
  destruct ((col' =? 0) && (- zlen d2 <? 0)) eqn:E0.
  - assert (col' = 0) by lia. subst col'.
    destruct d2 as [|c rest]. { change (zlen (@nil byte)) with 0 in E0. lia. }
    destruct (first_step es L (- zlen (c :: rest)) (dest + zlen o1) dest m1 o1 c rest)
      as (m2 & e & F1 & F2 & F3 & F4 & F5); auto; try lia.
    erewrite bind_ok by exact F1. cbv beta iota.
    assert (Hy2 : zlen (yenc L false 0 (c :: rest)) = zlen e + zlen (yenc L false (zlen e) rest))
      by (rewrite F4, zlen_app; reflexivity).
    pose proof (zlen_nonneg rest).
    destruct (tail_run B (S (Z.to_nat (zlen (c :: rest)))) es L (- zlen (c :: rest) + 1)
                (dest + zlen o1 + zlen e) (zlen e) dest m2 (o1 ++ e) rest) as (m3 & E1 & E2).
    { rewrite zlen_cons. lia. }
    { apply (geom_mono _ _ _ _ _ G). lia. }
    { exact F3. }
    { lia. }
    { lia. }
    { lia. }
    erewrite bind_ok by exact E1. cbv beta iota.
    replace (dest + zlen o1 + zlen e + zlen (yenc L false (zlen e) rest)) with
      (dest + zlen (yenc L false col data)) in * by lia.
    rewrite <- F5, <- K7. rewrite <- app_assoc, <- F4, <- K6 in E2.
    apply finish with (es := es); auto; lia.
  - rewrite bind_ret. cbv beta iota.
    destruct (Z.eqb_spec col' 0) as [Hz|Hz].
    + subst col'. cbn [andb] in E0.
      assert (d2 = []). { destruct d2; auto. rewrite zlen_cons in *. pose proof (zlen_nonneg d2). lia. }
      subst d2. change (zlen (@nil byte)) with 0 in *. change (Z.to_nat 0) with 0%nat.
      cbn [enc_simd_tail]. change (- 0 <? 0) with false. cbv iota. rewrite bind_ret. cbv beta iota.
      simpl yenc in K6, Hy. simpl ret_col in K7. rewrite app_nil_r in K6. change (zlen (@nil byte)) with 0 in Hy.
      rewrite <- K7.
      replace (dest + zlen o1) with (dest + zlen (yenc L false col data)) by lia.
      apply finish with (es := es); auto; try lia.
      rewrite K6. exact I.
    + destruct (tail_run B (S (Z.to_nat (zlen d2))) es L (- zlen d2)
                (dest + zlen o1) col' dest m1 o1 d2) as (m3 & E1 & E2); auto; try lia.
      erewrite bind_ok by exact E1. cbv beta iota.
      replace (dest + zlen o1 + zlen (yenc L false col' d2)) with
        (dest + zlen (yenc L false col data)) in * by lia.
      rewrite <- K7. rewrite <- K6 in E2.
      apply finish with (es := es); auto; lia.
Qed.

End Run.

(** ** The column *)

(** The reported column is the true one except after a line that is exactly full. *)
Lemma ret_col_true L fin col data :
  0 <= col -> 1 <= L ->
  (ret_col L fin col data = yenc_col L fin col data \/
   (L <= yenc_col L fin col data /\ ret_col L fin col data = L - 1)).
Proof.
  revert col; induction data as [|c t IH]; intros col Hc HL; [left; reflexivity|].
  cbn [ret_col yenc_col]. destruct (L <=? col) eqn:E.
  - apply IH; auto. apply zlen_nonneg.
  - match goal with |- context [enc_char ?f ?g c] => set (e := enc_char f g c) end.
    assert (He : 1 <= zlen e <= 2) by apply enc_char_len.
    destruct ((col =? L - 1) && negb (col =? 0) && match t with [] => true | _ => false end) eqn:E2.
    + right. destruct t; [|lia]. simpl yenc_col. lia.
    + apply IH; lia.
Qed.
