(** The scalar encoders refine the specification [yenc]. *)
From Verif Require Import Base BaseLemmas EncModel EncSpec.
From Coq Require Import ZifyBool ZifyNat ZifyN.
Ltac Zify.zify_post_hook ::= Z.div_mod_to_equations.

(** ** Character level facts, by exhaustion over the 256 bytes *)

Lemma lut_mid c :
  if beq (escapeLUT c) NUL
  then enc_char false false c = [u8 (escapedLUT c); u8 (escapedLUT c / 256)]
       /\ [u8 (escapedLUT c); u8 (escapedLUT c / 256)] = [EQS; u8 (bz c + 42 + 64)]
  else enc_char false false c = [escapeLUT c].
Proof. destruct c; vm_compute; auto. Qed.

Lemma lut_first c last :
  enc_char true last c =
  if negb (escapedLUT c =? 0) then [u8 (escapedLUT c); u8 (escapedLUT c / 256)]
  else [u8 (bz c + 42)].
Proof. destruct c, last; vm_compute; reflexivity. Qed.

Lemma lut_last c :
  enc_char false true c =
  if negb (escapedLUT c =? 0) && negb (bz c =? 46 - 42)
  then [u8 (escapedLUT c); u8 (escapedLUT c / 256)]
  else [u8 (bz c + 42)].
Proof. destruct c; vm_compute; reflexivity. Qed.

Lemma escapedLUT_range c : 0 <= escapedLUT c < 65536.
Proof. destruct c; vm_compute; split; congruence. Qed.

Lemma enc_char_len f l c : 1 <= zlen (enc_char f l c) <= 2.
Proof. unfold enc_char. destruct (must_escape f l c); cbv; split; congruence. Qed.

Lemma enc_char_mono f l c : zlen (enc_char false false c) <= zlen (enc_char f l c).
Proof.
  unfold enc_char, must_escape.
  destruct (is_crit (shifted c)); simpl; [reflexivity|].
  rewrite !andb_false_r; simpl.
  match goal with |- context [if ?b then _ else _] => destruct b end; cbv; congruence.
Qed.

(** ** Writing a list of bytes *)

Fixpoint put (m : mem) (p : Z) (l : list byte) : mem :=
  match l with
  | [] => m
  | b :: t => put (upd m p b) (p + 1) t
  end.

Lemma put_out m p l x : (x < p \/ p + zlen l <= x) -> put m p l x = m x.
Proof.
  revert m p; induction l as [|b l IH]; intros m p H; simpl; auto.
  rewrite zlen_cons in H. pose proof (zlen_nonneg l).
  rewrite IH by lia. apply upd_other. lia.
Qed.

Lemma put_in m p l : bytes_at (put m p l) p l.
Proof.
  revert m p; induction l as [|b l IH]; intros m p; simpl; auto. split; auto.
  rewrite put_out by lia. apply upd_same.
Qed.

Lemma put_app m p l k : put m p (l ++ k) = put (put m p l) (p + zlen l) k.
Proof.
  revert m p; induction l as [|b l IH]; intros m p; simpl.
  - rewrite zlen_nil, Z.add_0_r. reflexivity.
  - rewrite IH, zlen_cons. f_equal. lia.
Qed.

Lemma bytes_at_put_out m p l a k :
  (a + zlen k <= p \/ p + zlen l <= a) -> bytes_at m a k -> bytes_at (put m p l) a k.
Proof.
  intros H. apply bytes_at_ext. intros x Hx. apply put_out. lia.
Qed.

Lemma bytes_at_put_snoc m a k l p :
  p = a + zlen k -> bytes_at m a k -> bytes_at (put m p l) a (k ++ l).
Proof.
  intros -> H. rewrite bytes_at_app. split.
  - apply bytes_at_put_out; auto. lia.
  - apply put_in.
Qed.

(** ** Running the pieces *)

Section Run.
Variable B : bufs.

Lemma store16_run p w m :
  wlo B <= p -> p + 2 <= whi B ->
  store16 B p w m = Ok (tt, put m p [u8 w; u8 (w / 256)]).
Proof.
  intros H1 H2. unfold store16.
  erewrite bind_ok by (apply store_w; lia). rewrite store_w by lia. reflexivity.
Qed.

Lemma store32_run p w m :
  wlo B <= p -> p + 4 <= whi B ->
  store32 B p w m = Ok (tt, put m p [u8 w; u8 (w / 256); u8 (w / 65536); u8 (w / 16777216)]).
Proof.
  intros H1 H2. unfold store32.
  erewrite bind_ok by (apply store_w; lia).
  erewrite bind_ok by (apply store_w; lia).
  erewrite bind_ok by (apply store_w; lia).
  rewrite store_w by lia. simpl put. replace (p + 1 + 1) with (p + 2) by lia.
  replace (p + 2 + 1) with (p + 3) by lia. reflexivity.
Qed.

Lemma enc_first_run es i p m c last :
  m (es + i) = c -> rlo B <= es + i < rhi B ->
  wlo B <= p -> p + zlen (enc_char true last c) <= whi B ->
  enc_first B es i p m =
  Ok ((i + 1, p + zlen (enc_char true last c), zlen (enc_char true last c)),
      put m p (enc_char true last c)).
Proof.
  intros Hc Hr Hp Hw. unfold enc_first.
  erewrite bind_ok by (apply load_r; lia). rewrite Hc.
  rewrite lut_first in *. destruct (negb (escapedLUT c =? 0)).
  - autorewrite with zlen in *. erewrite bind_ok by (apply store16_run; lia). reflexivity.
  - autorewrite with zlen in *. erewrite bind_ok by (apply store_w; lia). reflexivity.
Qed.

Lemma do_thing_run es i n p m c :
  m (es + (i + n)) = c -> rlo B <= es + (i + n) < rhi B ->
  wlo B <= p -> p + zlen (enc_char false false c) <= whi B ->
  do_thing B es i n p m =
  Ok (p + zlen (enc_char false false c), put m p (enc_char false false c)).
Proof.
  intros Hc Hr Hp Hw. unfold do_thing.
  erewrite bind_ok by (apply load_r; lia). rewrite Hc.
  pose proof (lut_mid c) as H. destruct (beq (escapeLUT c) NUL); cbn [negb].
  - destruct H as [H _]. rewrite H in *. autorewrite with zlen in *.
    erewrite bind_ok by (apply store16_run; lia). reflexivity.
  - rewrite H in *. autorewrite with zlen in *.
    erewrite bind_ok by (apply store_w; lia). reflexivity.
Qed.

Lemma enc_last_run es L i p col m c :
  col < L -> m (es + i) = c -> rlo B <= es + i < rhi B ->
  wlo B <= p -> p + zlen (enc_char false true c) <= whi B ->
  enc_last B es L i p col m =
  Ok ((i + 1, p + zlen (enc_char false true c)), put m p (enc_char false true c)).
Proof.
  intros HL Hc Hr Hp Hw. unfold enc_last.
  destruct (col <? L) eqn:E; [|lia].
  erewrite bind_ok by (apply load_r; lia). rewrite Hc.
  rewrite lut_last in *. destruct (negb (escapedLUT c =? 0) && negb (bz c =? 46 - 42)).
  - autorewrite with zlen in *. erewrite bind_ok by (apply store16_run; lia). reflexivity.
  - autorewrite with zlen in *. erewrite bind_ok by (apply store_w; lia). reflexivity.
Qed.

Lemma eol_words c :
  let e := enc_char true false c in
  if negb (escapedLUT c =? 0) then
    let w := pack16 13 10 + 65536 * escapedLUT c in
    [u8 w; u8 (w / 256); u8 (w / 65536); u8 (w / 16777216)] = CR :: LF :: e
  else
    let w := 13 + 256 * 10 + 65536 * (bz c + 42) in
    [u8 w; u8 (w / 256); u8 (w / 65536); u8 (w / 16777216)] = (CR :: LF :: e) ++ [u8 ((bz c + 42) / 256)].
Proof. destruct c; vm_compute; reflexivity. Qed.

(** The line break writes CRLF and the character, and possibly one byte beyond. *)
Lemma enc_eol_run c p m :
  let e := enc_char true false c in
  wlo B <= p -> p + 2 + zlen e + 1 <= whi B ->
  exists m', enc_eol B c p m = Ok ((p + 2 + zlen e, zlen e), m') /\
    (m' = put m p (CR :: LF :: e) \/ exists x, m' = put m p ((CR :: LF :: e) ++ [x])).
Proof.
  intros e Hp Hw. subst e. unfold enc_eol.
  pose proof (eol_words c) as H. cbv zeta in H.
  pose proof (lut_first c false) as HL.
  destruct (negb (escapedLUT c =? 0)).
  - rewrite HL in *. autorewrite with zlen in *. eexists. split.
    + erewrite bind_ok by (apply store32_run; lia). rewrite H.
      unfold ret. f_equal. f_equal. f_equal; lia.
    + left. reflexivity.
  - rewrite HL in *. autorewrite with zlen in *. eexists. split.
    + erewrite bind_ok by (apply store32_run; lia). rewrite H.
      unfold ret. f_equal. f_equal. f_equal; lia.
    + right. eexists. reflexivity.
Qed.


(** ** Specification side lemmas *)

Definition mids (l : list byte) : list byte := concat (map (enc_char false false) l).

Lemma mids_cons c l : mids (c :: l) = enc_char false false c ++ mids l.
Proof. reflexivity. Qed.
Lemma mids_app l k : mids (l ++ k) = mids l ++ mids k.
Proof. unfold mids. rewrite map_app, concat_app. reflexivity. Qed.
Lemma mids_len l : zlen l <= zlen (mids l) <= 2 * zlen l.
Proof.
  induction l as [|c l IH]; [cbv; split; congruence|].
  rewrite mids_cons, zlen_app, zlen_cons. pose proof (enc_char_len false false c). lia.
Qed.

Lemma yenc_cons L fin col c t :
  yenc L fin col (c :: t) =
    if L <=? col then
      let e := enc_char true false c in
      CR :: LF :: e ++ yenc L fin (zlen e) t
    else
      let e := enc_char (col =? 0)
                 ((col =? L - 1) || (fin && match t with [] => true | _ => false end)) c in
      e ++ yenc L fin (col + zlen e) t.
Proof. reflexivity. Qed.

Lemma ret_col_cons L fin col c t :
  ret_col L fin col (c :: t) =
    if L <=? col then ret_col L fin (zlen (enc_char true false c)) t
    else if (col =? L - 1) && negb (col =? 0) && match t with [] => true | _ => false end
    then col
    else ret_col L fin (col + zlen (enc_char (col =? 0)
           ((col =? L - 1) || (fin && match t with [] => true | _ => false end)) c)) t.
Proof. reflexivity. Qed.

Lemma yenc_mid L col c t :
  1 <= col < L - 1 ->
  yenc L false col (c :: t) =
  enc_char false false c ++ yenc L false (col + zlen (enc_char false false c)) t.
Proof.
  intro H. simpl yenc. destruct (L <=? col) eqn:E1; [lia|].
  destruct (col =? 0) eqn:E2; [lia|]. destruct (col =? L - 1) eqn:E3; [lia|]. reflexivity.
Qed.

Lemma ret_col_mid L col c t :
  1 <= col < L - 1 ->
  ret_col L false col (c :: t) = ret_col L false (col + zlen (enc_char false false c)) t.
Proof.
  intro H. simpl ret_col. destruct (L <=? col) eqn:E1; [lia|].
  destruct (col =? 0) eqn:E2; [lia|]. destruct (col =? L - 1) eqn:E3; [lia|]. reflexivity.
Qed.

Lemma yenc_mids L col l t :
  1 <= col -> col + zlen (mids l) < L - 1 ->
  yenc L false col (l ++ t) = mids l ++ yenc L false (col + zlen (mids l)) t /\
  ret_col L false col (l ++ t) = ret_col L false (col + zlen (mids l)) t.
Proof.
  revert col; induction l as [|c l IH]; intros col H1 H2.
  - change (mids []) with (@nil byte). rewrite zlen_nil, Z.add_0_r. auto.
  - rewrite mids_cons, zlen_app in *. pose proof (enc_char_len false false c).
    pose proof (mids_len l). pose proof (zlen_nonneg l).
    rewrite <- app_comm_cons, yenc_mid, ret_col_mid by lia.
    destruct (IH (col + zlen (enc_char false false c))) as [E1 E2]; try lia.
    rewrite E1, E2, <- app_assoc, Z.add_assoc. auto.
Qed.

Lemma yenc_len_mids L fin col l : zlen (mids l) <= zlen (yenc L fin col l).
Proof.
  revert col; induction l as [|c l IH]; intro col; [reflexivity|].
  rewrite mids_cons, zlen_app. simpl yenc. destruct (L <=? col).
  - rewrite !zlen_cons, zlen_app.
    pose proof (IH (zlen (enc_char true false c))). pose proof (enc_char_mono true false c). lia.
  - rewrite zlen_app.
    set (f := col =? 0). set (g := (col =? L - 1) || _).
    pose proof (IH (col + zlen (enc_char f g c))). pose proof (enc_char_mono f g c). lia.
Qed.

(** ** Loop invariants *)

Record inv (m : mem) (es i p dest : Z) (o rest : list byte) : Prop := {
  inv_src : bytes_at m (es + i) rest;
  inv_len : zlen rest = - i;
  inv_dst : bytes_at m dest o;
  inv_p : p = dest + zlen o }.

(** The buffers: source readable, destination writable, disjoint. *)
Record geom (es i dest : Z) : Prop := {
  g_r : rlo B <= es + i;
  g_e : es <= rhi B;
  g_w : wlo B = dest;
  g_d : rhi B <= wlo B \/ whi B <= rlo B }.

Lemma geom_mono es i i' dest : geom es i dest -> i <= i' -> geom es i' dest.
Proof. intros [] H. constructor; auto; lia. Qed.

Lemma inv_put m es i p dest o r1 r2 e :
  geom es i dest -> inv m es i p dest o (r1 ++ r2) ->
  p + zlen e <= whi B ->
  inv (put m p e) es (i + zlen r1) (p + zlen e) dest (o ++ e) r2.
Proof.
  intros G [I1 I2 I3 I4] H. destruct G.
  rewrite bytes_at_app in I1. destruct I1 as [_ I1]. rewrite zlen_app in I2.
  pose proof (zlen_nonneg r1). pose proof (zlen_nonneg r2). pose proof (zlen_nonneg o).
  pose proof (zlen_nonneg e).
  constructor.
  - replace (es + (i + zlen r1)) with (es + i + zlen r1) by lia.
    apply bytes_at_put_out; auto. lia.
  - lia.
  - apply bytes_at_put_snoc; auto.
  - rewrite zlen_app. lia.
Qed.

Lemma inv_put_more m es i p dest o r1 r2 e x :
  geom es i dest -> inv m es i p dest o (r1 ++ r2) ->
  p + zlen e + 1 <= whi B ->
  inv (put m p (e ++ [x])) es (i + zlen r1) (p + zlen e) dest (o ++ e) r2.
Proof.
  intros G I H.
  assert (J : inv (put m p (e ++ [x])) es (i + zlen r1) (p + zlen (e ++ [x])) dest (o ++ e ++ [x]) r2).
  { apply inv_put; auto. rewrite zlen_app. unfold zlen at 2. simpl. lia. }
  destruct J as [J1 J2 J3 J4]. constructor; auto.
  - rewrite app_assoc, bytes_at_app in J3. tauto.
  - destruct I. rewrite zlen_app. lia.
Qed.

(** One step of the unrolled loop, after [e] has been written. *)
Lemma thing_step es i n p dest m e c :
  geom es i dest -> wlo B <= p -> 0 <= n -> i + n < 0 ->
  m (es + (i + n)) = c ->
  p + zlen e + zlen (enc_char false false c) <= whi B ->
  do_thing B es i n (p + zlen e) (put m p e) =
  Ok (p + zlen (e ++ enc_char false false c), put m p (e ++ enc_char false false c)).
Proof.
  intros [] Hp Hn Hi Hc Hw. pose proof (zlen_nonneg e).
  pose proof (enc_char_len false false c).
  rewrite (do_thing_run _ _ _ _ _ c).
  - rewrite zlen_app, put_app, Z.add_assoc. reflexivity.
  - rewrite put_out by lia. exact Hc.
  - lia.
  - lia.
  - lia.
Qed.

(** Eight steps of the unrolled loop. *)
Lemma things_run es i p dest o c0 c1 c2 c3 c4 c5 c6 c7 rest m :
  let r8 := [c0; c1; c2; c3; c4; c5; c6; c7] in
  geom es i dest -> inv m es i p dest o (r8 ++ rest) ->
  p + zlen (mids r8) <= whi B ->
  enc_block8 B es i p m = Ok (p + zlen (mids r8), put m p (mids r8)).
Proof.
  intros r8 G I W. subst r8. unfold enc_block8.
  assert (Hrest := zlen_nonneg rest).
  assert (Hi : i + 8 <= 0).
  { destruct I. simpl app in *. rewrite !zlen_cons in *. lia. }
  assert (Hp : wlo B <= p). { destruct I, G. pose proof (zlen_nonneg o). lia. }
  destruct I as [I1 _ _ _]. simpl in I1. destruct I1 as (A0 & A1 & A2 & A3 & A4 & A5 & A6 & A7 & _).
  replace (mids [c0; c1; c2; c3; c4; c5; c6; c7]) with
    ((((((((@nil byte ++ enc_char false false c0) ++ enc_char false false c1) ++ enc_char false false c2)
     ++ enc_char false false c3) ++ enc_char false false c4) ++ enc_char false false c5)
     ++ enc_char false false c6) ++ enc_char false false c7) in *
  by (unfold mids; cbn [map concat]; rewrite app_nil_r, app_nil_l, <- !app_assoc; reflexivity).
  rewrite !zlen_app in W. rewrite zlen_nil in W.
  pose proof (enc_char_len false false c0). pose proof (enc_char_len false false c1).
  pose proof (enc_char_len false false c2). pose proof (enc_char_len false false c3).
  pose proof (enc_char_len false false c4). pose proof (enc_char_len false false c5).
  pose proof (enc_char_len false false c6). pose proof (enc_char_len false false c7).
  replace p with (p + zlen (@nil byte)) at 1
    by (rewrite zlen_nil; lia).
  change m with (put m p []) at 1.
  Ltac tstep G c := erewrite bind_ok by
    (apply (thing_step _ _ _ _ _ _ _ c G);
     [ lia | lia | lia
     | match goal with H : ?m ?a = c |- ?m ?b = c => replace b with a by lia; exact H end
     | rewrite ?zlen_app, ?zlen_nil; lia ]).
  tstep G c0. tstep G c1. tstep G c2. tstep G c3. tstep G c4. tstep G c5. tstep G c6.
  apply (thing_step _ _ _ _ _ _ _ c7 G); try lia;
  [ match goal with H : ?m ?a = c7 |- ?m ?b = c7 => replace b with a by lia; exact H end
  | rewrite ?zlen_app, ?zlen_nil; lia ].
Qed.

(** What must hold of the integers so that no [int] overflows. *)
Definition no_ovf (L col n : Z) : Prop :=
  1 <= L <= INT_MAX /\ 0 <= col <= L + 6 /\ (L + 6 <= INT_MAX \/ col + 2 * n <= INT_MAX).

Lemma split8 (l : list byte) :
  9 <= zlen l -> exists c0 c1 c2 c3 c4 c5 c6 c7 r,
    l = [c0; c1; c2; c3; c4; c5; c6; c7] ++ r /\ r <> [].
Proof.
  intro H. do 8 (destruct l as [|? l]; [cbv in H; exfalso; apply H; reflexivity|]).
  do 9 eexists. split; [reflexivity|].
  intro E; subst. cbv in H. apply H; reflexivity.
Qed.

Definition revert (L : Z) (x : Z * Z * Z * option Z) : Z * Z * Z :=
  match x with
  | (i, p, col, Some s) =>
    if L - 1 <=? col then (i - 8, s, col - (p - s)) else (i, p, col)
  | (i, p, col, None) => (i, p, col)
  end.

Lemma unrolled_run fuel es L i p col sp dest m o rest :
  (Z.of_nat fuel > zlen rest) ->
  geom es i dest -> inv m es i p dest o rest -> rest <> [] ->
  1 <= col -> no_ovf L col (zlen rest) -> (sp <> None -> col < L - 1) ->
  p + zlen (yenc L false col rest) <= whi B ->
  exists x m' r1 r2,
    enc_unrolled fuel B es L i p col sp m = Ok (x, m') /\
    rest = r1 ++ r2 /\ r2 <> [] /\
    revert L x = (i + zlen r1, p + zlen (mids r1), col + zlen (mids r1)) /\
    inv m' es (i + zlen r1) (p + zlen (mids r1)) dest (o ++ mids r1) r2 /\
    (r1 = [] \/ col + zlen (mids r1) < L - 1).
Proof.
  revert i p col sp m o rest; induction fuel as [|f IH];
    intros i p col sp m o rest Hf G I Hne Hc HO Hsp Hw.
  { pose proof (zlen_nonneg rest). lia. }
  assert (Hr : 0 <= zlen rest) by apply zlen_nonneg.
  destruct HO as (HL & Hcol & Hov).
  cbn [enc_unrolled].
  erewrite bind_ok by (apply chk_int_ok; unfold INT_MIN, INT_MAX in *; lia).
  erewrite bind_ok by (apply chk_int_ok; unfold INT_MIN, INT_MAX in *; lia).
  destruct ((i <? -1 - 8) && (8 <? L - col - 1)) eqn:E.
  - assert (9 <= zlen rest) by (destruct I; lia).
    destruct (split8 rest) as (c0&c1&c2&c3&c4&c5&c6&c7&r&Er&Hr'); auto.
    subst rest. set (r8 := [c0; c1; c2; c3; c4; c5; c6; c7]) in *.
    assert (L8 : zlen r8 = 8) by reflexivity.
    assert (M8 := mids_len r8). rewrite L8 in M8.
    assert (W8 : p + zlen (mids r8) <= whi B).
    { pose proof (yenc_len_mids L false col (r8 ++ r)) as Hm.
      rewrite mids_app, zlen_app in Hm. pose proof (zlen_nonneg (mids r)). lia. }
    rewrite zlen_app, L8 in *.
    cbv zeta. erewrite bind_ok by (apply (things_run es i p dest o c0 c1 c2 c3 c4 c5 c6 c7 r m G I W8)). fold r8.
    replace (p + zlen (mids r8) - p) with (zlen (mids r8)) by lia.
    erewrite bind_ok by (apply chk_int_ok; unfold INT_MIN, INT_MAX in *; lia).
    assert (I' := inv_put m es i p dest o r8 r (mids r8) G I W8). rewrite L8 in I'.
    destruct (Z.ltb_spec (col + zlen (mids r8)) (L - 1)) as [Hno|Hov'].
    + (* no overflow: the loop goes on *)
      destruct (yenc_mids L col r8 r Hc Hno) as [Y1 _].
      rewrite Y1, zlen_app in Hw.
      destruct (IH (i + 8) (p + zlen (mids r8)) (col + zlen (mids r8)) (Some p)
                  (put m p (mids r8)) (o ++ mids r8) r) as (x & m' & r1 & r2 & E1 & E2 & E3 & E4 & E5 & E6); auto; try lia.
      { eapply geom_mono; eauto. lia. }
      { split; [lia|]. split; lia. }
      exists x, m', (r8 ++ r1), r2. subst r. rewrite mids_app, !zlen_app, L8.
      pose proof (zlen_nonneg (mids r1)).
      split; [exact E1|]. split; [rewrite app_assoc; reflexivity|]. split; [exact E3|].
      split. { rewrite E4. f_equal; [f_equal|]; lia. }
      split. { replace (i + (8 + zlen r1)) with (i + 8 + zlen r1) by lia.
               rewrite Z.add_assoc, app_assoc. exact E5. }
      right. destruct E6 as [-> | E6]; [|lia]. change (zlen (mids [])) with 0. lia.
    + (* overflow: leave and revert *)
      destruct f as [|f']; [lia|]. cbn [enc_unrolled].
      erewrite bind_ok by (apply chk_int_ok; unfold INT_MIN, INT_MAX in *; lia).
      erewrite bind_ok by (apply chk_int_ok; unfold INT_MIN, INT_MAX in *; lia).
      destruct ((i + 8 <? -1 - 8) && (8 <? L - (col + zlen (mids r8)) - 1)) eqn:E2; [lia|].
      exists (i + 8, p + zlen (mids r8), col + zlen (mids r8), Some p), (put m p (mids r8)), [], (r8 ++ r).
      change (zlen (mids [])) with 0. change (mids []) with (@nil byte).
      rewrite zlen_nil, app_nil_r, !Z.add_0_r.
      split; [reflexivity|]. split; [reflexivity|]. split; [discriminate|].
      split; [|split; [|left; reflexivity]].
      * unfold revert. destruct (L - 1 <=? col + zlen (mids r8)) eqn:E3; [|lia].
        f_equal; [f_equal|]; lia.
      * destruct I as [J1 J2 J3 J4]. destruct G.
        rewrite zlen_app in J2. pose proof (zlen_nonneg o).
        constructor; auto.
        -- apply bytes_at_put_out; auto. rewrite zlen_app. lia.
        -- rewrite zlen_app. lia.
        -- apply bytes_at_put_out; auto. lia.
  - exists (i, p, col, sp), m, [], rest.
    change (zlen (mids [])) with 0. change (mids []) with (@nil byte).
    rewrite zlen_nil, app_nil_r, !Z.add_0_r.
    split; [reflexivity|]. split; [reflexivity|]. split; [assumption|].
    split; [|split; [assumption|left; reflexivity]].
    unfold revert. destruct sp as [s|]; auto.
    destruct (L - 1 <=? col) eqn:E3; auto.
    assert (col < L - 1) by (apply Hsp; discriminate). lia.
Qed.

Lemma rest_run fuel es L i p col dest m o rest :
  (Z.of_nat fuel > zlen rest) ->
  geom es i dest -> inv m es i p dest o rest -> rest <> [] ->
  1 <= col -> no_ovf L col (zlen rest) ->
  p + zlen (yenc L false col rest) <= whi B ->
  exists m' r1 r2 ended,
    let col' := col + zlen (mids r1) in
    enc_rest fuel B es L i p col m =
      Ok ((i + zlen r1, p + zlen (mids r1), col', ended), m') /\
    rest = r1 ++ r2 /\
    inv m' es (i + zlen r1) (p + zlen (mids r1)) dest (o ++ mids r1) r2 /\
    (if ended then r2 = [] else r2 <> [] /\ L - 1 <= col') /\
    no_ovf L col' (zlen r2) /\
    yenc L false col rest = mids r1 ++ yenc L false col' r2 /\
    ret_col L false col rest = ret_col L false col' r2.
Proof.
  revert i p col m o rest; induction fuel as [|f IH];
    intros i p col m o rest Hf G I Hne Hc HO Hw.
  { pose proof (zlen_nonneg rest). lia. }
  destruct HO as (HL & Hcol & Hov).
  cbn [enc_rest].
  erewrite bind_ok by (apply chk_int_ok; unfold INT_MIN, INT_MAX in *; lia).
  destruct (col <? L - 1) eqn:E.
  - destruct rest as [|c rest]; [congruence|]. clear Hne.
    assert (Hr := zlen_nonneg rest).
    assert (Hlen : zlen (c :: rest) = - i) by apply I.
    rewrite zlen_cons in Hlen, Hf, Hov.
    assert (Hmc : m (es + i) = c). { destruct I as [I1 _ _ _]. apply I1. }
    rewrite yenc_mid, zlen_app in Hw by lia.
    assert (Hec := enc_char_len false false c).
    assert (Hy := zlen_nonneg (yenc L false (col + zlen (enc_char false false c)) rest)).
    assert (Hpw : wlo B <= p). { destruct I, G. pose proof (zlen_nonneg o). lia. }
    erewrite bind_ok by (apply load_r; destruct G; lia). rewrite Hmc.
    set (e := enc_char false false c) in *.
    assert (Step : forall (C : Type) (k : Z * Z -> M C),
      bind (if negb (beq (escapeLUT c) NUL)
       then store B p (escapeLUT c) ;;; col0 <- chk_int (col + 1) ;; ret (p + 1, col0)
       else store16 B p (escapedLUT c) ;;; col0 <- chk_int (col + 2) ;; ret (p + 2, col0)) k m
      = k (p + zlen e, col + zlen e) (put m p e)).
    { intros C k. subst e. pose proof (lut_mid c) as H. rewrite bind_assoc || idtac.
      destruct (beq (escapeLUT c) NUL); cbn [negb].
      - destruct H as [H _]. rewrite H in *. autorewrite with zlen in *.
        rewrite bind_assoc.
        erewrite bind_ok by (apply store16_run; lia). rewrite bind_assoc.
        erewrite bind_ok by (apply chk_int_ok; unfold INT_MIN, INT_MAX in *; lia). reflexivity.
      - rewrite H in *. autorewrite with zlen in *.
        rewrite bind_assoc.
        erewrite bind_ok by (apply store_w; lia). rewrite bind_assoc.
        erewrite bind_ok by (apply chk_int_ok; unfold INT_MIN, INT_MAX in *; lia). reflexivity. }
    rewrite Step. clear Step.
    assert (I' := inv_put m es i p dest o [c] rest e G I ltac:(lia)).
    change (zlen [c]) with 1 in I'.
    destruct (0 <=? i + 1) eqn:E2.
    + assert (rest = []). { destruct rest; auto. rewrite zlen_cons in Hlen. pose proof (zlen_nonneg rest). lia. }
      subst rest.
      exists (put m p e), [c], [], true. cbv zeta.
      change (zlen [c]) with 1. unfold mids. cbn [map concat]. fold e. rewrite app_nil_r.
      split; [reflexivity|]. split; [reflexivity|]. split; [exact I'|]. split; [reflexivity|].
      split. { split; [lia|]. change (zlen (@nil byte)) with 0. split; lia. }
      split. { rewrite yenc_mid by lia. reflexivity. }
      rewrite ret_col_mid by lia. reflexivity.
    + assert (Hne : rest <> []). { intros ->. rewrite zlen_nil in Hlen. lia. }
      destruct (IH (i + 1) (p + zlen e) (col + zlen e) (put m p e) (o ++ e) rest)
        as (m' & r1 & r2 & ended & E1 & E3 & E4 & E5 & E6 & E7 & E8); auto; try lia.
      { eapply geom_mono; eauto. lia. }
      { split; [lia|]. split; lia. }
      exists m', (c :: r1), r2, ended. cbv zeta in *.
      rewrite mids_cons. fold e. rewrite zlen_app, zlen_cons.
      replace (i + (zlen r1 + 1)) with (i + 1 + zlen r1) by lia.
      rewrite !Z.add_assoc.
      split; [exact E1|]. split; [rewrite E3; reflexivity|].
      split. { rewrite app_assoc. exact E4. }
      split; [exact E5|]. split; [exact E6|].
      split. { rewrite yenc_mid by lia. fold e. rewrite E7, <- app_assoc. reflexivity. }
      rewrite ret_col_mid by lia. exact E8.
  - exists m, [], rest, false. cbv zeta.
    change (zlen (mids [])) with 0. change (mids []) with (@nil byte).
    rewrite zlen_nil, app_nil_r, !Z.add_0_r.
    split; [reflexivity|]. split; [reflexivity|]. split; [assumption|].
    split; [split; [assumption|lia]|].
    split; [repeat split; auto; lia|]. split; reflexivity.
Qed.

(** ** The outer loop *)
Lemma lines_run fuel es L i p col dest m o rest :
  (Z.of_nat fuel > zlen rest) ->
  geom es i dest -> inv m es i p dest o rest ->
  1 <= col -> no_ovf L col (zlen rest) ->
  p + zlen (yenc L false col rest) + 1 <= whi B ->
  exists m',
    enc_lines fuel B es L i p col m =
      Ok ((p + zlen (yenc L false col rest), ret_col L false col rest), m') /\
    inv m' es 0 (p + zlen (yenc L false col rest)) dest (o ++ yenc L false col rest) [].
Proof.
  revert i p col m o rest; induction fuel as [|f IH];
    intros i p col m o rest Hf G I Hc HO Hw.
  { pose proof (zlen_nonneg rest). lia. }
  destruct HO as (HL & Hcol & Hov).
  assert (Hr := zlen_nonneg rest).
  assert (Hlen : zlen rest = - i) by apply I.
  cbn [enc_lines]. destruct (i <? 0) eqn:E0.
  2:{ assert (i = 0) by lia. subst i.
      assert (rest = []). { destruct rest; auto. rewrite zlen_cons in Hlen. pose proof (zlen_nonneg rest). lia. }
      subst rest. simpl yenc. simpl ret_col. rewrite zlen_nil, app_nil_r, Z.add_0_r.
      exists m. split; [reflexivity|exact I]. }
  assert (Hne : rest <> []). { intros ->. rewrite zlen_nil in Hlen. lia. }
  destruct (unrolled_run (S f) es L i p col None dest m o rest) as
    (x & m1 & r1 & r2 & U1 & U2 & U3 & U4 & U5 & U6); auto; try lia.
  { split; [lia|]. split; lia. }
  { congruence. }
  change (enc_unrolled (S f) B es L i p col None) with (enc_unrolled (S f) B es L i p col None) in U1.
  match goal with |- exists m', bind ?z _ _ = _ /\ _ => change z with (enc_unrolled (S f) B es L i p col None) end.
  subst rest. rewrite zlen_app in *.
  assert (Hr1 := zlen_nonneg r1). assert (Hr2 := zlen_nonneg r2). assert (Hm1 := mids_len r1).
  assert (SP1 : yenc L false col (r1 ++ r2) = mids r1 ++ yenc L false (col + zlen (mids r1)) r2 /\
                ret_col L false col (r1 ++ r2) = ret_col L false (col + zlen (mids r1)) r2).
  { destruct U6 as [-> | U6].
    - change (mids []) with (@nil byte). rewrite zlen_nil, Z.add_0_r. auto.
    - apply yenc_mids; auto. }
  destruct SP1 as [SP1 SP2].
  assert (Rv : forall (C : Type) (k : Z * Z * Z -> M C) mm,
     match x with
     | (i0, p0, col0, sp) =>
       bind (match sp with
       | Some s => if L - 1 <=? col0 then col1 <- chk_int (col0 - (p0 - s)) ;; ret (i0 - 8, s, col1)
                   else ret (i0, p0, col0)
       | None => ret (i0, p0, col0) end) k mm
     end = k (revert L x) mm).
  { intros C k mm. destruct x as [[[i0 p0] c0] [s|]]; cbn [revert] in U4 |- *; auto.
    assert (UB6 : 0 <= col + zlen (mids r1) <= INT_MAX).
    { destruct U6 as [-> | U6]; [change (zlen (mids [])) with 0|]; unfold INT_MAX in *; lia. }
    destruct (L - 1 <=? c0); auto. inversion U4; subst. rewrite bind_assoc.
    erewrite bind_ok by (apply chk_int_ok; unfold INT_MIN, INT_MAX in *; lia).
    rewrite H2. reflexivity. }
  erewrite bind_ok by exact U1.
  destruct x as [[[i0 p0] c0] sp0]. rewrite Rv. clear Rv. rewrite U4.
  rewrite SP1, SP2. rewrite SP1 in Hw. rewrite zlen_app in Hw |- *.
  set (c1 := col + zlen (mids r1)) in *. set (p1 := p + zlen (mids r1)) in *.
  assert (G1 : geom es (i + zlen r1) dest) by (eapply geom_mono; eauto; lia).
  destruct (rest_run (S f) es L (i + zlen r1) p1 c1 dest m1 (o ++ mids r1) r2) as
    (m2 & r3 & r4 & ended & R1 & R2 & R3 & R4 & R5 & R6 & R7); auto; try lia.
  { split; [lia|]. subst c1. destruct U6 as [-> | U6].
    - change (zlen (mids [])) with 0 in *. split; lia.
    - split; lia. }
  cbv zeta in *.
  match goal with |- exists m', bind ?z _ _ = _ /\ _ => change z with (enc_rest (S f) B es L (i + zlen r1) p1 c1) end.
  erewrite bind_ok by exact R1. cbv beta iota.
  rewrite R6, R7. rewrite R6 in Hw. rewrite zlen_app in Hw |- *.
  assert (Hr3 := zlen_nonneg r3). assert (Hr4 := zlen_nonneg r4).
  set (c2 := c1 + zlen (mids r3)) in *. set (p2 := p1 + zlen (mids r3)) in *.
  assert (Hc2 : 1 <= c2) by (subst c2 c1; pose proof (zlen_nonneg (mids r3)); lia).
  replace (p + (zlen (mids r1) + (zlen (mids r3) + zlen (yenc L false c2 r4)))) with
    (p2 + zlen (yenc L false c2 r4)) by (subst p2 p1; lia).
  replace (o ++ mids r1 ++ mids r3 ++ yenc L false c2 r4) with
    (((o ++ mids r1) ++ mids r3) ++ yenc L false c2 r4) by (rewrite <- !app_assoc; reflexivity).
  assert (Hw2 : p2 + zlen (yenc L false c2 r4) + 1 <= whi B) by (subst p2 p1; lia). clear Hw.
  set (o2 := (o ++ mids r1) ++ mids r3) in *.
  set (i2 := i + zlen r1 + zlen r3) in *.
  destruct ended.
  { subst r4. simpl yenc. simpl ret_col. rewrite zlen_nil, app_nil_r, Z.add_0_r.
    exists m2. split; [reflexivity|].
    assert (Hi2 := inv_len _ _ _ _ _ _ _ R3). change (zlen (@nil byte)) with 0 in Hi2.
    replace i2 with 0 in R3 by lia. exact R3. }
  destruct R4 as [R4 R4']. destruct R5 as (_ & R5 & R5').
  destruct r4 as [|ch r4]; [congruence|]. clear R4.
  assert (G2 : geom es i2 dest) by (eapply geom_mono; eauto; subst i2; lia).
  assert (Hlen2 : zlen (ch :: r4) = - i2) by apply R3.
  assert (Hr4' := zlen_nonneg r4). rewrite zlen_cons in *.
  assert (Hmc : m2 (es + i2) = ch) by (destruct R3 as [R3' _ _ _]; apply R3').
  assert (Hpw : wlo B <= p2). { destruct R3, G2. pose proof (zlen_nonneg o2). lia. }
  (* the line break, shared by both cases below *)
  assert (EOL : forall p3 i3 m3 o3 r5,
    geom es i3 dest -> inv m3 es i3 p3 dest o3 r5 -> r5 <> [] ->
    zlen r5 <= zlen r4 + 1 ->
    p3 + zlen (yenc L false L r5) + 1 <= whi B ->
    exists m',
      (c <- load B (es + i3) ;;
       '(p, col) <- enc_eol B c p3 ;;
       enc_lines f B es L (i3 + 1) p col) m3 =
      Ok ((p3 + zlen (yenc L false L r5), ret_col L false L r5), m') /\
      inv m' es 0 (p3 + zlen (yenc L false L r5)) dest (o3 ++ yenc L false L r5) []).
  { intros p3 i3 m3 o3 r5 G3 I3 Hr5 Hl5 Hw3.
    destruct r5 as [|c5 r5]; [congruence|].
    assert (Hl5' := inv_len _ _ _ _ _ _ _ I3). assert (Hr5' := zlen_nonneg r5).
    rewrite zlen_cons in Hl5', Hl5.
    erewrite bind_ok by (apply load_r; destruct G3; lia).
    replace (m3 (es + i3)) with c5 by (destruct I3 as [I3' _ _ _]; symmetry; apply I3').
    assert (Hpw3 : wlo B <= p3). { destruct I3, G3. pose proof (zlen_nonneg o3). lia. }
    assert (Y : yenc L false L (c5 :: r5) =
      (CR :: LF :: enc_char true false c5) ++ yenc L false (zlen (enc_char true false c5)) r5).
    { simpl yenc. rewrite Z.leb_refl. reflexivity. }
    assert (Yc : ret_col L false L (c5 :: r5) = ret_col L false (zlen (enc_char true false c5)) r5).
    { simpl ret_col. rewrite Z.leb_refl. reflexivity. }
    rewrite Y in Hw3 |- *. rewrite Yc. clear Y Yc. rewrite zlen_app, !zlen_cons in Hw3 |- *.
    assert (Hec := enc_char_len true false c5).
    assert (Hyn := zlen_nonneg (yenc L false (zlen (enc_char true false c5)) r5)).
    destruct (enc_eol_run c5 p3 m3) as (m4 & EE & EM); try lia.
    erewrite bind_ok by exact EE. cbv beta iota.
    set (e := enc_char true false c5) in *.
    assert (I4 : inv m4 es (i3 + 1) (p3 + 2 + zlen e) dest (o3 ++ CR :: LF :: e) r5).
    { change 1 with (zlen [c5]).
      replace (p3 + 2 + zlen e) with (p3 + zlen (CR :: LF :: e)) by (rewrite !zlen_cons; lia).
      destruct EM as [-> | [x ->]].
      - apply inv_put; auto. rewrite !zlen_cons. lia.
      - apply inv_put_more; auto. rewrite !zlen_cons. lia. }
    destruct (IH (i3 + 1) (p3 + 2 + zlen e) (zlen e) m4 (o3 ++ CR :: LF :: e) r5)
      as (m5 & F1 & F2); auto; try lia.
    { eapply geom_mono; eauto. lia. }
    { split; [lia|]. split; lia. }
    exists m5. split.
    - rewrite F1. do 3 f_equal. lia.
    - replace (p3 + (zlen e + 1 + 1 + zlen (yenc L false (zlen e) r5))) with
        (p3 + 2 + zlen e + zlen (yenc L false (zlen e) r5)) by lia.
      rewrite <- app_assoc in F2. exact F2. }
  destruct (Z.ltb_spec c2 L) as [HcL|HcL].
  - (* a last character fits on the line *)
    assert (c2 = L - 1) by lia.
    assert (Y : yenc L false c2 (ch :: r4) =
       enc_char false true ch ++ yenc L false (c2 + zlen (enc_char false true ch)) r4).
    { simpl yenc. destruct (L <=? c2) eqn:F1; [lia|]. destruct (c2 =? 0) eqn:F2; [lia|].
      destruct (c2 =? L - 1) eqn:F3; [|lia]. reflexivity. }
    assert (Hec := enc_char_len false true ch).
    rewrite Y in Hw2 |- *. rewrite zlen_app in Hw2 |- *.
    set (e := enc_char false true ch) in *.
    assert (Hyn := zlen_nonneg (yenc L false (c2 + zlen e) r4)).
    erewrite bind_ok by (apply enc_last_run with (c := ch); auto; try lia; [destruct G2; lia|fold e; lia]).
    fold e. cbv beta iota.
    assert (I3 : inv (put m2 p2 e) es (i2 + 1) (p2 + zlen e) dest (o2 ++ e) r4).
    { change 1 with (zlen [ch]). apply inv_put; auto. lia. }
    assert (G3 : geom es (i2 + 1) dest) by (eapply geom_mono; eauto; lia).
    destruct (0 <=? i2 + 1) eqn:E3.
    + assert (r4 = []). { destruct r4; auto. rewrite zlen_cons in *. pose proof (zlen_nonneg r4). lia. }
      subst r4. simpl yenc. rewrite zlen_nil, app_nil_r, Z.add_0_r.
      exists (put m2 p2 e). split.
      * unfold ret. do 3 f_equal. simpl ret_col.
        destruct (L <=? c2) eqn:F1; [lia|]. destruct (c2 =? L - 1) eqn:F3; [|lia].
        destruct (c2 =? 0) eqn:F2; [lia|]. reflexivity.
      * rewrite zlen_nil in Hlen2. replace 0 with (i2 + 1) by lia. exact I3.
    + assert (r4 <> []). { intros ->. rewrite zlen_nil in Hlen2. lia. }
      assert (YL : yenc L false (c2 + zlen e) r4 = yenc L false L r4).
      { destruct r4; [congruence|]. simpl yenc. destruct (L <=? c2 + zlen e) eqn:F1; [|lia].
        rewrite Z.leb_refl. reflexivity. }
      assert (YR : ret_col L false c2 (ch :: r4) = ret_col L false L r4).
      { simpl ret_col. destruct (L <=? c2) eqn:F1; [lia|]. destruct (c2 =? L - 1) eqn:F3; [|lia].
        destruct (c2 =? 0) eqn:F2; [lia|]. destruct r4; [congruence|]. cbn [andb negb orb].
        change (enc_char false true ch) with e.
        simpl ret_col. destruct (L <=? c2 + zlen e) eqn:F4; [|lia]. rewrite Z.leb_refl. reflexivity. }
      rewrite YL in Hw2 |- *. rewrite YR.
      destruct (EOL (p2 + zlen e) (i2 + 1) (put m2 p2 e) (o2 ++ e) r4) as (m5 & F1 & F2); auto; try lia.
      exists m5. split.
      * rewrite F1. do 3 f_equal. lia.
      * rewrite app_assoc. rewrite Z.add_assoc. exact F2.
  - (* the line is already full *)
    unfold enc_last. destruct (c2 <? L) eqn:E3; [lia|].
    rewrite bind_ret. cbv beta iota.
    destruct (0 <=? i2) eqn:E4; [lia|].
    assert (YL : yenc L false c2 (ch :: r4) = yenc L false L (ch :: r4)).
    { simpl yenc. destruct (L <=? c2) eqn:F1; [|lia]. rewrite Z.leb_refl. reflexivity. }
    assert (YR : ret_col L false c2 (ch :: r4) = ret_col L false L (ch :: r4)).
    { simpl ret_col. destruct (L <=? c2) eqn:F1; [|lia]. rewrite Z.leb_refl. reflexivity. }
    rewrite YL in Hw2 |- *. rewrite YR.
    apply (EOL p2 i2 m2 o2 (ch :: r4)); auto.
    + discriminate.
    + rewrite zlen_cons. lia.
Qed.

(** ** The scalar loop of the SIMD front-end *)

Lemma tail_run fuel es L i p col dest m o rest :
  (Z.of_nat fuel > zlen rest) ->
  geom es i dest -> inv m es i p dest o rest ->
  1 <= col -> 1 <= L <= INT_MAX ->
  p + zlen (yenc L false col rest) + 1 <= whi B ->
  exists m',
    enc_simd_tail fuel B es L i p col m =
      Ok ((p + zlen (yenc L false col rest), ret_col L false col rest), m') /\
    inv m' es 0 (p + zlen (yenc L false col rest)) dest (o ++ yenc L false col rest) [].
Proof.
  revert i p col m o rest; induction fuel as [|f IH];
    intros i p col m o rest Hf G I Hc HL Hw.
  { pose proof (zlen_nonneg rest). lia. }
  assert (Hr := zlen_nonneg rest).
  assert (Hlen : zlen rest = - i) by apply I.
  cbn [enc_simd_tail]. destruct (i <? 0) eqn:E0.
  2:{ assert (i = 0) by lia. subst i.
      assert (rest = []). { destruct rest; auto. rewrite zlen_cons in Hlen. pose proof (zlen_nonneg rest). lia. }
      subst rest. simpl yenc. simpl ret_col. rewrite zlen_nil, app_nil_r, Z.add_0_r.
      exists m. split; [reflexivity|exact I]. }
  destruct rest as [|c rest]. { rewrite zlen_nil in Hlen. lia. }
  assert (Hrr := zlen_nonneg rest). rewrite zlen_cons in *.
  assert (Hmc : m (es + i) = c) by (destruct I as [I' _ _ _]; apply I').
  assert (Hpw : wlo B <= p). { destruct I, G. pose proof (zlen_nonneg o). lia. }
  assert (G1 : geom es (i + 1) dest) by (eapply geom_mono; eauto; lia).
  erewrite bind_ok by (apply load_r; destruct G; lia). rewrite Hmc. cbv zeta.
  erewrite bind_ok by (apply chk_int_ok; unfold INT_MIN, INT_MAX in *; lia).
  (* line break followed by character c5 *)
  assert (EOL : forall p3 i3 m3 o3 c5 r5,
    geom es i3 dest -> inv m3 es i3 p3 dest o3 (c5 :: r5) ->
    zlen r5 <= zlen rest ->
    p3 + zlen (yenc L false L (c5 :: r5)) + 1 <= whi B ->
    exists m',
      ('(p, col) <- enc_eol B c5 p3 ;;
       enc_simd_tail f B es L (i3 + 1) p col) m3 =
      Ok ((p3 + zlen (yenc L false L (c5 :: r5)), ret_col L false L (c5 :: r5)), m') /\
      inv m' es 0 (p3 + zlen (yenc L false L (c5 :: r5))) dest (o3 ++ yenc L false L (c5 :: r5)) []).
  { intros p3 i3 m3 o3 c5 r5 G3 I3 Hl5 Hw3.
    assert (Hl5' := inv_len _ _ _ _ _ _ _ I3). assert (Hr5' := zlen_nonneg r5).
    rewrite zlen_cons in Hl5'.
    assert (Hpw3 : wlo B <= p3). { destruct I3, G3. pose proof (zlen_nonneg o3). lia. }
    assert (Y : yenc L false L (c5 :: r5) =
      (CR :: LF :: enc_char true false c5) ++ yenc L false (zlen (enc_char true false c5)) r5).
    { simpl yenc. rewrite Z.leb_refl. reflexivity. }
    assert (Yc : ret_col L false L (c5 :: r5) = ret_col L false (zlen (enc_char true false c5)) r5).
    { simpl ret_col. rewrite Z.leb_refl. reflexivity. }
    rewrite Y in Hw3 |- *. rewrite Yc. clear Y Yc. rewrite zlen_app, !zlen_cons in Hw3 |- *.
    assert (Hec := enc_char_len true false c5).
    assert (Hyn := zlen_nonneg (yenc L false (zlen (enc_char true false c5)) r5)).
    destruct (enc_eol_run c5 p3 m3) as (m4 & EE & EM); try lia.
    erewrite bind_ok by exact EE. cbv beta iota.
    set (e := enc_char true false c5) in *.
    assert (I4 : inv m4 es (i3 + 1) (p3 + 2 + zlen e) dest (o3 ++ CR :: LF :: e) r5).
    { change 1 with (zlen [c5]).
      replace (p3 + 2 + zlen e) with (p3 + zlen (CR :: LF :: e)) by (rewrite !zlen_cons; lia).
      destruct EM as [-> | [x ->]].
      - apply inv_put; auto. rewrite !zlen_cons. lia.
      - apply inv_put_more; auto. rewrite !zlen_cons. lia. }
    destruct (IH (i3 + 1) (p3 + 2 + zlen e) (zlen e) m4 (o3 ++ CR :: LF :: e) r5)
      as (m5 & F1 & F2); auto; try lia.
    { eapply geom_mono; eauto. lia. }
    exists m5. split.
    - rewrite F1. do 3 f_equal. lia.
    - replace (p3 + (zlen e + 1 + 1 + zlen (yenc L false (zlen e) r5))) with
        (p3 + 2 + zlen e + zlen (yenc L false (zlen e) r5)) by lia.
      rewrite <- app_assoc in F2. exact F2. }
  destruct (col <? L - 1) eqn:E1.
  - (* ordinary column *)
    rewrite yenc_mid, ret_col_mid by lia. rewrite yenc_mid in Hw by lia.
    rewrite zlen_app in Hw |- *.
    assert (Hec := enc_char_len false false c).
    pose proof (lut_mid c) as H.
    set (e := enc_char false false c) in *.
    assert (Hyn := zlen_nonneg (yenc L false (col + zlen e) rest)).
    assert (I1 : inv (put m p e) es (i + 1) (p + zlen e) dest (o ++ e) rest).
    { change 1 with (zlen [c]). apply inv_put; auto. lia. }
    destruct (IH (i + 1) (p + zlen e) (col + zlen e) (put m p e) (o ++ e) rest) as (m5 & F1 & F2);
      auto; try lia.
    assert (F3 : enc_simd_tail f B es L (i + 1) (p + zlen e) (col + zlen e) (put m p e) =
       Ok (p + (zlen e + zlen (yenc L false (col + zlen e) rest)), ret_col L false (col + zlen e) rest, m5)).
    { rewrite F1. do 3 f_equal. lia. }
    exists m5. split; [|rewrite app_assoc, Z.add_assoc; exact F2].
    destruct (beq (escapeLUT c) NUL).
    + destruct H as [H H']. rewrite H' in H. rewrite H in *. autorewrite with zlen in *.
      erewrite bind_ok by (apply store_w; lia).
      erewrite bind_ok by (apply store_w; lia).
      erewrite bind_ok by (apply chk_int_ok; unfold INT_MIN, INT_MAX in *; lia).
      rewrite <- F3. reflexivity.
    + rewrite H in *. autorewrite with zlen in *.
      erewrite bind_ok by (apply store_w; lia).
      erewrite bind_ok by (apply chk_int_ok; unfold INT_MIN, INT_MAX in *; lia).
      rewrite <- F3. reflexivity.
  - destruct (Z.ltb_spec col L) as [HcL|HcL].
    + (* last column *)
      assert (col = L - 1) by lia.
      assert (Y : yenc L false col (c :: rest) =
         enc_char false true c ++ yenc L false (col + zlen (enc_char false true c)) rest).
      { simpl yenc. destruct (L <=? col) eqn:F1; [lia|]. destruct (col =? 0) eqn:F2; [lia|].
        destruct (col =? L - 1) eqn:F3; [|lia]. reflexivity. }
      assert (Hec := enc_char_len false true c).
      rewrite Y in Hw |- *. rewrite zlen_app in Hw |- *.
      pose proof (lut_last c) as HL2.
      set (e := enc_char false true c) in *.
      assert (Hyn := zlen_nonneg (yenc L false (col + zlen e) rest)).
      assert (Step :
        (if negb (escapedLUT c =? 0) && negb (bz c =? 46 - 42)
         then store16 B p (escapedLUT c);;; ret (p + 2)
         else store B p (u8 (bz c + 42));;; ret (p + 1)) m = Ok (p + zlen e, put m p e)).
      { destruct (negb (escapedLUT c =? 0) && negb (bz c =? 46 - 42)).
        - rewrite HL2 in *. autorewrite with zlen in *.
          erewrite bind_ok by (apply store16_run; lia). reflexivity.
        - rewrite HL2 in *. autorewrite with zlen in *.
          erewrite bind_ok by (apply store_w; lia). reflexivity. }
      erewrite bind_ok by exact Step. clear Step HL2.
      assert (I1 : inv (put m p e) es (i + 1) (p + zlen e) dest (o ++ e) rest).
      { change 1 with (zlen [c]). apply inv_put; auto. lia. }
      destruct (i + 1 =? 0) eqn:E3.
      * assert (rest = []). { destruct rest; auto. rewrite zlen_cons in *. pose proof (zlen_nonneg rest). lia. }
        subst rest. simpl yenc. rewrite zlen_nil, app_nil_r, Z.add_0_r.
        exists (put m p e). split.
        -- unfold ret. do 3 f_equal. simpl ret_col.
           destruct (L <=? col) eqn:F1; [lia|]. destruct (col =? L - 1) eqn:F3; [|lia].
           destruct (col =? 0) eqn:F2; [lia|]. reflexivity.
        -- replace 0 with (i + 1) by lia. exact I1.
      * destruct rest as [|c5 r5]. { change (zlen (@nil byte)) with 0 in *. lia. }
        assert (YL : yenc L false (col + zlen e) (c5 :: r5) = yenc L false L (c5 :: r5)).
        { simpl yenc. destruct (L <=? col + zlen e) eqn:F1; [|lia].
          rewrite Z.leb_refl. reflexivity. }
        assert (YR : ret_col L false col (c :: c5 :: r5) = ret_col L false L (c5 :: r5)).
        { simpl ret_col. destruct (L <=? col) eqn:F1; [lia|]. destruct (col =? L - 1) eqn:F3; [|lia].
          destruct (col =? 0) eqn:F2; [lia|]. cbn [andb negb orb].
          change (enc_char false true c) with e.
          destruct (L <=? col + zlen e) eqn:F4; [|lia]. rewrite Z.leb_refl. reflexivity. }
        rewrite YL in Hw |- *. rewrite YR. rewrite zlen_cons in *. assert (Hr5 := zlen_nonneg r5).
        erewrite bind_ok by (apply load_r; destruct G1; lia).
        replace (put m p e (es + (i + 1))) with c5 by (destruct I1 as [I1' _ _ _]; symmetry; apply I1').
        destruct (EOL (p + zlen e) (i + 1) (put m p e) (o ++ e) c5 r5) as (m5 & F1 & F2); auto; try lia.
        exists m5. split.
        -- rewrite F1. do 3 f_equal. lia.
        -- rewrite app_assoc, Z.add_assoc. exact F2.
    + (* the line is full *)
      assert (YL : yenc L false col (c :: rest) = yenc L false L (c :: rest)).
      { simpl yenc. destruct (L <=? col) eqn:F1; [|lia]. rewrite Z.leb_refl. reflexivity. }
      assert (YR : ret_col L false col (c :: rest) = ret_col L false L (c :: rest)).
      { simpl ret_col. destruct (L <=? col) eqn:F1; [|lia]. rewrite Z.leb_refl. reflexivity. }
      rewrite YL in Hw |- *. rewrite YR.
      apply (EOL p i m o c rest); auto. lia.
Qed.

End Run.
