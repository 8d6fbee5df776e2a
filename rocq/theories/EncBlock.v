(** What a block of the vector encoders must do, and the loop around the blocks. *)
From Verif Require Import Base BaseLemmas EncModel EncSpec EncProofs EncEnd EncSseModel.
From Coq Require Import ZifyBool ZifyNat ZifyN.
Ltac Zify.zify_post_hook ::= Z.div_mod_to_equations.

(** ** Characters of a block *)

(** Which characters are escaped; [first] if the block starts a line. *)
Definition esc_flags (first : bool) (ds : list byte) : list bool :=
  match ds with
  | [] => []
  | c :: t => must_escape first false c :: map (must_escape false false) t
  end.

Definition expand1 (f : bool) (c : byte) : list byte := if f then [EQS; u8 (bz c + 106)] else [u8 (bz c + 42)].

Fixpoint expand (fs : list bool) (ds : list byte) : list byte :=
  match fs, ds with
  | f :: fs, c :: ds => expand1 f c ++ expand fs ds
  | _, _ => []
  end.

Definition wid (f : bool) : Z := if f then 2 else 1.

(** The number of characters kept, and of bytes they take, when the line has room for
    [T] more bytes before its last column: a character that would straddle is left
    out. *)
Fixpoint cut (fs : list bool) (T : Z) : Z * Z :=
  match fs with
  | [] => (0, 0)
  | f :: t =>
    if T <? wid f then (0, 0)
    else let '(k, q) := cut t (T - wid f) in (k + 1, q + wid f)
  end.

Definition tot (fs : list bool) : Z := fold_right (fun f n => wid f + n) 0 fs.

Lemma tot_cons f fs : tot (f :: fs) = wid f + tot fs. Proof. reflexivity. Qed.
Lemma tot_app a b : tot (a ++ b) = tot a + tot b.
Proof. induction a as [|f a IH]; [reflexivity|]. cbn [app]. rewrite !tot_cons, IH. lia. Qed.
Lemma wid_range f : 1 <= wid f <= 2. Proof. destruct f; cbv; split; congruence. Qed.
Lemma tot_range fs : zlen fs <= tot fs <= 2 * zlen fs.
Proof. induction fs as [|f fs IH]; [cbv; split; congruence|]. rewrite tot_cons, zlen_cons. pose proof (wid_range f). lia. Qed.

Lemma expand1_enc first last c : expand1 (must_escape first last c) c = enc_char first last c.
Proof. unfold expand1, enc_char. destruct (must_escape first last c); [|reflexivity]. destruct c; reflexivity. Qed.

Lemma expand1_len f c : zlen (expand1 f c) = wid f. Proof. destruct f; reflexivity. Qed.

Lemma expand_len fs ds : length fs = length ds -> zlen (expand fs ds) = tot fs.
Proof.
  revert ds; induction fs as [|f fs IH]; intros [|c ds] H; try discriminate; [reflexivity|].
  cbn [expand]. rewrite zlen_app, expand1_len, IH, tot_cons by (cbn in H; lia). reflexivity.
Qed.

Lemma expand_app f1 f2 d1 d2 : length f1 = length d1 -> expand (f1 ++ f2) (d1 ++ d2) = expand f1 d1 ++ expand f2 d2.
Proof.
  revert d1; induction f1 as [|f f1 IH]; intros [|c d1] H; try discriminate; [reflexivity|].
  cbn [app expand]. rewrite IH by (cbn in H; lia). apply app_assoc.
Qed.

Lemma esc_flags_len first ds : length (esc_flags first ds) = length ds.
Proof. destruct ds; cbn [esc_flags length]; rewrite ?map_length; reflexivity. Qed.

Lemma expand_mids ds : expand (map (must_escape false false) ds) ds = mids ds.
Proof. induction ds as [|c ds IH]; [reflexivity|]. cbn [map expand]. rewrite mids_cons, IH, expand1_enc. reflexivity. Qed.

Lemma esc_flags_mid ds : esc_flags false ds = map (must_escape false false) ds.
Proof. destruct ds; reflexivity. Qed.

Lemma mid_le first ds : zlen (mids ds) <= zlen (expand (esc_flags first ds) ds) <= zlen (mids ds) + 1.
Proof.
  destruct ds as [|c ds]; [cbv; split; congruence|].
  cbn [esc_flags expand]. rewrite expand_mids, mids_cons, !zlen_app, expand1_enc.
  pose proof (enc_char_mono first false c). pose proof (enc_char_len first false c).
  pose proof (enc_char_len false false c). lia.
Qed.

(** ** The specification, block by block *)

Definition cont (L c : Z) (all : list byte) (c' : Z) (o rest : list byte) : Prop :=
  (yenc L false c all = o ++ yenc L false c' rest /\ ret_col L false c all = ret_col L false c' rest) /\
  exists pre, all = pre ++ rest.

Lemma cont_trans L c all c1 o1 r1 c2 o2 r2 :
  cont L c all c1 o1 r1 -> cont L c1 r1 c2 o2 r2 -> cont L c all c2 (o1 ++ o2) r2.
Proof.
  intros [[A1 A2] [pa A3]] [[B1 B2] [pb B3]]. split; [split; [rewrite A1, B1; apply app_assoc|congruence]|].
  exists (pa ++ pb). rewrite A3, B3. apply app_assoc.
Qed.

Lemma cont_refl L c all : cont L c all c [] all.
Proof. split; [split; reflexivity|]. exists []. reflexivity. Qed.

Lemma cont_intro L c c' o pre rest : yenc L false c (pre ++ rest) = o ++ yenc L false c' rest -> ret_col L false c (pre ++ rest) = ret_col L false c' rest ->
  cont L c (pre ++ rest) c' o rest.
Proof. intros. split; [split; assumption|]. exists pre. reflexivity. Qed.

(** Characters before the last column. *)
Lemma cont_block L c ds rest : 0 <= c -> 2 <= L ->
  c + zlen (expand (esc_flags (c =? 0) ds) ds) < L - 1 ->
  cont L c (ds ++ rest) (c + zlen (expand (esc_flags (c =? 0) ds) ds)) (expand (esc_flags (c =? 0) ds) ds) rest.
Proof.
  intros Hc HL Hl. destruct ds as [|d ds].
  - cbn [esc_flags expand app]. change (zlen (@nil byte)) with 0. rewrite Z.add_0_r. apply cont_refl.
  - cbn [esc_flags expand] in *. rewrite expand_mids, expand1_enc, zlen_app in *.
    pose proof (enc_char_len (c =? 0) false d). pose proof (mids_len ds). pose proof (zlen_nonneg ds).
    eapply cont_trans with (c1 := c + zlen (enc_char (c =? 0) false d)) (r1 := ds ++ rest).
    + apply (cont_intro L c _ _ [d] (ds ++ rest)); cbn [app]; [rewrite yenc_cons|rewrite ret_col_cons]; cbv zeta.
      * destruct (L <=? c) eqn:E; [lia|]. destruct (c =? L - 1) eqn:E2; [lia|]. reflexivity.
      * destruct (L <=? c) eqn:E; [lia|]. destruct (c =? L - 1) eqn:E2; [lia|]. reflexivity.
    + rewrite Z.add_assoc. apply cont_intro; apply yenc_mids; lia.
Qed.

(** As [cont_block], up to and including the column before the last. *)
Lemma cont_upto L c ds rest : 0 <= c < L - 1 -> 2 <= L ->
  c + zlen (expand (esc_flags (c =? 0) ds) ds) = L - 1 ->
  cont L c (ds ++ rest) (c + zlen (expand (esc_flags (c =? 0) ds) ds)) (expand (esc_flags (c =? 0) ds) ds) rest.
Proof.
  intros Hc HL Hl. destruct ds as [|d ds].
  - cbn [esc_flags expand app]. change (zlen (@nil byte)) with 0. rewrite Z.add_0_r. apply cont_refl.
  - destruct (@exists_last _ (d :: ds)) as (u & e & Eu); [discriminate|]. rewrite Eu in *. clear d ds Eu.
    assert (Ef : exists f g, esc_flags (c =? 0) (u ++ [e]) = esc_flags (c =? 0) u ++ [must_escape f g e] /\ f = (c + zlen (expand (esc_flags (c =? 0) u) u) =? 0) /\ g = false).
    { destruct u as [|d u]; cbn [esc_flags app].
      - do 2 eexists. split; [reflexivity|]. change (zlen (expand [] [])) with 0. split; [f_equal; lia|reflexivity].
      - rewrite map_app. exists false, false. split; [reflexivity|]. split; [|reflexivity].
        symmetry. cbn [expand]. rewrite zlen_app, expand1_len. pose proof (wid_range (must_escape (c =? 0) false d)).
        pose proof (zlen_nonneg (expand (map (must_escape false false) u) u)). lia. }
    destruct Ef as (f & g & Ef & Hf & ->). rewrite Ef in *. rewrite expand_app in * by apply esc_flags_len.
    cbn [expand] in *. rewrite app_nil_r, expand1_enc in *. rewrite zlen_app in Hl.
    pose proof (enc_char_len f false e).
    rewrite <- app_assoc. cbn [app]. eapply cont_trans; [apply cont_block; lia|].
    set (c1 := c + zlen (expand (esc_flags (c =? 0) u) u)) in *.
    rewrite zlen_app, Z.add_assoc. fold c1. pose proof (zlen_nonneg (expand (esc_flags (c =? 0) u) u)).
    apply (cont_intro L c1 _ _ [e] rest); cbn [app]; rewrite ?(yenc_cons L false), ?(ret_col_cons L false); cbv zeta.
    + destruct (L <=? c1) eqn:E; [lia|]. destruct (c1 =? L - 1) eqn:E2; [lia|]. rewrite <- Hf. reflexivity.
    + destruct (L <=? c1) eqn:E; [lia|]. destruct (c1 =? L - 1) eqn:E2; [lia|]. rewrite <- Hf. reflexivity.
Qed.

(** The last character of a line together with the line break. *)
Lemma cont_last L c e rest : 2 <= L -> 1 <= c -> rest <> [] ->
  (c = L - 1 \/ (c = L - 2 /\ must_escape false false e = true)) ->
  cont L c (e :: rest) 0 (enc_char false true e ++ [CR; LF]) rest.
Proof.
  intros HL Hc Hr H. destruct rest as [|d rest]; [congruence|].
  assert (Hover : forall x, L <= x -> cont L x (d :: rest) 0 [CR; LF] (d :: rest)).
  { intros x Hx. apply (cont_intro L x 0 [CR; LF] [] (d :: rest)); cbn [app]; rewrite ?(yenc_cons L false), ?(ret_col_cons L false); cbv zeta.
    - destruct (L <=? x) eqn:E; [|lia]. destruct (L <=? 0) eqn:E0; [lia|]. destruct (0 =? L - 1) eqn:E1; [lia|].
      rewrite Z.add_0_l. reflexivity.
    - destruct (L <=? x) eqn:E; [|lia]. destruct (L <=? 0) eqn:E0; [lia|]. destruct (0 =? L - 1) eqn:E1; [lia|].
      cbn [andb orb]. rewrite Z.add_0_l. reflexivity. }
  pose proof (enc_char_len false true e).
  eapply cont_trans with (c1 := c + zlen (enc_char false true e)) (r1 := d :: rest).
  - assert (Hx : c = L - 2 -> enc_char false true e = enc_char false false e).
    { intro. destruct H as [?|[_ H]]; [lia|]. unfold enc_char. rewrite H.
      replace (must_escape false true e) with true; [reflexivity|].
      symmetry. revert H. clear. destruct e; vm_compute; congruence. }
    apply (cont_intro L c _ _ [e] (d :: rest)); cbn [app]; rewrite ?(yenc_cons L false), ?(ret_col_cons L false); cbv zeta.
    + destruct (L <=? c) eqn:E; [lia|]. destruct (c =? 0) eqn:E2; [lia|].
      destruct (c =? L - 1) eqn:E3; cbn [andb orb]; [reflexivity|]. rewrite <- Hx by lia. reflexivity.
    + destruct (L <=? c) eqn:E; [lia|]. destruct (c =? 0) eqn:E2; [lia|].
      destruct (c =? L - 1) eqn:E3; cbn [andb orb negb]; [reflexivity|]. rewrite <- Hx by lia. reflexivity.
  - apply Hover. destruct H as [?|[? H]]; [lia|].
    replace (zlen (enc_char false true e)) with 2; [lia|].
    revert H. clear. destruct e; vm_compute; congruence.
Qed.

(** ** Cutting *)

Lemma cut_spec fs T : 0 <= T <= tot fs ->
  let '(k, q) := cut fs T in
  0 <= k <= zlen fs /\ q = tot (firstn (Z.to_nat k) fs) /\
  (q = T \/ (q = T - 1 /\ k < zlen fs /\ nth (Z.to_nat k) fs false = true)).
Proof.
  revert T; induction fs as [|f fs IH]; intros T HT.
  - cbn [cut]. cbn [tot fold_right] in HT. change (zlen (@nil bool)) with 0. repeat split; lia.
  - cbn [cut]. rewrite tot_cons in HT. rewrite zlen_cons. pose proof (zlen_nonneg fs).
    destruct (T <? wid f) eqn:E.
    + change (Z.to_nat 0) with 0%nat. cbn [firstn nth]. repeat split; try lia.
      destruct f; cbn [wid] in E; [|left; lia].
      destruct (T =? 0) eqn:E0; [left; lia|right]. lia.
    + specialize (IH (T - wid f)). pose proof (wid_range f). destruct (cut fs (T - wid f)) as [k q].
      destruct IH as (I1 & I2 & I3); [lia|].
      replace (Z.to_nat (k + 1)) with (S (Z.to_nat k)) by lia. cbn [firstn nth]. rewrite tot_cons.
      repeat split; try lia. destruct I3 as [?|(? & ? & ?)]; [left; lia|right; repeat split; auto; lia].
Qed.

(** ** What a block must do *)

Section Blocks.
Variable B : bufs.

(** Reading [width] characters at [es + i] and writing their text at [p], with at most
    [slack] more bytes behind it; [back] bytes before the block may be read too. *)
Definition block_at_ok (first : bool) (block : Z -> Z -> Z -> M blk) (es width slack back : Z) : Prop :=
  forall i p col ds m,
    zlen ds = width -> bytes_at m (es + i) ds ->
    rlo B + back <= es + i -> es + i + width <= rhi B ->
    (rhi B <= wlo B \/ whi B <= rlo B) ->
    col < 0 ->
    let fs := esc_flags first ds in
    let o := expand fs ds in
    wlo B <= p -> p + zlen o + slack <= whi B ->
    exists junk m', zlen junk <= slack /\ (forall x, m' x = put m p (o ++ junk) x) /\
      block i p col m =
        Ok (if col + tot fs <? 0 then Next (p + tot fs) (col + tot fs)
            else let '(k, q) := cut fs (- col) in Eol (i + k) (p + q), m').
Definition block_ok (block : bool -> Z -> Z -> Z -> M blk) (es width slack back : Z) : Prop :=
  forall first, block_at_ok first (block first) es width slack back.

Lemma inv_ext m m' es i p dest o rest : (forall x, m' x = m x) -> inv m es i p dest o rest -> inv m' es i p dest o rest.
Proof. intros E []. constructor; auto; eapply bytes_at_ext; eauto. Qed.

Lemma inv_put_junk m es i p dest o r1 r2 e x :
  geom B es i dest -> inv m es i p dest o (r1 ++ r2) ->
  p + zlen (e ++ x) <= whi B ->
  inv (put m p (e ++ x)) es (i + zlen r1) (p + zlen e) dest (o ++ e) r2.
Proof.
  intros G I H.
  destruct (inv_put B m es i p dest o r1 r2 (e ++ x) G I) as [J1 J2 J3 J4]; [lia|].
  constructor; auto.
  - rewrite app_assoc, bytes_at_app in J3. tauto.
  - destruct I. rewrite zlen_app. lia.
Qed.

Lemma eol_word c : let w := eolLastChar c in
  exists x, [u8 w; u8 (w / 256); u8 (w / 65536); u8 (w / 16777216)] = (enc_char false true c ++ [CR; LF]) ++ x /\
    3 + w / 2 ^ 27 = zlen (enc_char false true c ++ [CR; LF]) /\ zlen x <= 1.
Proof.
  intro w. exists (if must_escape false true c then [] else [NUL]).
  subst w. destruct c; vm_compute; repeat split; congruence.
Qed.

Lemma last_char_run c p m : wlo B <= p -> p + 4 <= whi B ->
  exists x, zlen x <= 1 /\
    last_char B c p m = Ok (p + zlen (enc_char false true c ++ [CR; LF]), put m p ((enc_char false true c ++ [CR; LF]) ++ x)).
Proof.
  intros H1 H2. destruct (eol_word c) as (x & E1 & E2 & E3). cbv zeta in *. exists x. split; [exact E3|].
  unfold last_char. erewrite bind_ok by (apply store32_run; lia). rewrite E1. unfold ret. do 2 f_equal. lia.
Qed.

Lemma cont_room L c0 all c o rest : cont L c0 all c o rest -> zlen (yenc L false c0 all) = zlen o + zlen (yenc L false c rest).
Proof. intros [[H _] _]. rewrite H, zlen_app. reflexivity. Qed.

Lemma put_put m p a j b : zlen j <= zlen b -> forall x, put (put m p (a ++ j)) (p + zlen a) b x = put m p (a ++ b) x.
Proof.
  intros H x. rewrite put_app, (put_app m p a b).
  destruct (Z_lt_le_dec x (p + zlen a)) as [Hx|Hx].
  - rewrite !(put_out _ (p + zlen a)) by lia. reflexivity.
  - destruct (Z_lt_le_dec x (p + zlen a + zlen b)) as [Hy|Hy].
    + generalize (put_in (put (put m p a) (p + zlen a) j) (p + zlen a) b) (put_in (put m p a) (p + zlen a) b).
      generalize (put (put (put m p a) (p + zlen a) j) (p + zlen a) b) (put (put m p a) (p + zlen a) b).
      intros m1 m2. revert Hx Hy. generalize (p + zlen a) as q. clear. induction b as [|c b IH]; intros q H1 H2 A1 A2.
      * change (zlen (@nil byte)) with 0 in H2. lia.
      * rewrite zlen_cons in H2. cbn [bytes_at] in A1, A2. destruct A1 as [A1 A1'], A2 as [A2 A2'].
        destruct (Z.eq_dec x q) as [->|N]; [congruence|]. apply (IH (q + 1)); auto; lia.
    + rewrite !(put_out _ (p + zlen a) b), (put_out _ (p + zlen a) j) by lia. reflexivity.
Qed.

(** ** The loop *)

Lemma cut_flag first ds rest k : 0 <= k < zlen ds -> nth (Z.to_nat k) (esc_flags first ds) false = true -> (k = 0 -> first = false) ->
  exists d1 e d2, ds ++ rest = d1 ++ e :: d2 ++ rest /\ zlen d1 = k /\ must_escape false false e = true.
Proof.
  intros Hk Hn Hf. exists (firstn (Z.to_nat k) ds).
  assert (H : exists e d2, skipn (Z.to_nat k) ds = e :: d2).
  { destruct (skipn (Z.to_nat k) ds) eqn:E; eauto. apply (f_equal (@length byte)) in E. rewrite skipn_length in E. cbn in E. unfold zlen in Hk. lia. }
  destruct H as (e & d2 & E). exists e, d2. split; [|split].
  - rewrite <- (firstn_skipn (Z.to_nat k) ds) at 1. rewrite E, <- app_assoc. reflexivity.
  - unfold zlen in *. rewrite firstn_length. lia.
  - assert (Hm : nth (Z.to_nat k) (map (must_escape false false) ds) false = true).
    { destruct ds as [|d ds]; [cbn in Hn; destruct (Z.to_nat k); discriminate|]. cbn [esc_flags map] in *.
      destruct (Z.to_nat k) eqn:Ek; [|exact Hn]. cbn [nth] in *. rewrite Hf in Hn by lia. exact Hn. }
    rewrite <- (firstn_skipn (Z.to_nat k) ds), E, map_app, app_nth2 in Hm by (rewrite map_length, firstn_length; lia).
    rewrite map_length, firstn_length in Hm. replace (Z.to_nat k - _)%nat with 0%nat in Hm by (unfold zlen in Hk; lia). exact Hm.
Qed.

Lemma esc_flags_firstn first ds n : firstn n (esc_flags first ds) = esc_flags first (firstn n ds).
Proof. destruct ds, n; cbn [esc_flags firstn]; try reflexivity. rewrite firstn_map. reflexivity. Qed.

(** One block: either all of it is written, or the line ends within it, and [e] is
    then the last character of the line. *)
Lemma block_step block es width slack back off all L c0 dest i p col m o rest :
  block_at_ok (col + L - 1 =? 0) block es width slack back ->
  1 <= width <= zlen rest -> 0 <= slack <= 24 + (zlen rest - width) -> 0 <= back -> 3 <= L ->
  dest + zlen (yenc L false c0 all) + 32 <= whi B ->
  rlo B + back <= es + i -> geom B (es + off) (i - off) dest ->
  inv m (es + off) (i - off) p dest o rest ->
  col < 0 -> 0 <= col + L - 1 ->
  cont L c0 all (col + L - 1) o rest ->
  (exists m1 t o1 rs,
     block i p col m = Ok (Next (p + t) (col + t), m1) /\ width <= t /\ col + t < 0 /\
     inv m1 (es + off) (i + width - off) (p + t) dest o1 rs /\ cont L c0 all (col + t + L - 1) o1 rs) \/
  (exists m1 k q o1 e r',
     block i p col m = Ok (Eol (i + k) (p + q), m1) /\ 0 <= k <= width /\ 0 <= q /\
     (2 <= zlen rest - k -> inv m1 (es + off) (i + k - off) (p + q) dest o1 (e :: r') /\ 0 <= col + q + L - 1 /\
     cont L c0 all (col + q + L - 1) o1 (e :: r') /\
     (col + q = 0 \/ (col + q = - 1 /\ must_escape false false e = true)))).
Proof.
  intros HB Hw Hs Hbk HL Hroom Hr G I Hc Hc' HC.
  set (c := col + L - 1) in *.
  pose proof (cont_room _ _ _ _ _ _ HC) as Hlen.
  assert (Hrl := inv_len _ _ _ _ _ _ _ I). assert (Hp := inv_p _ _ _ _ _ _ _ I).
  set (ds := firstn (Z.to_nat width) rest). set (rs := skipn (Z.to_nat width) rest).
  assert (Ers : rest = ds ++ rs) by (symmetry; apply firstn_skipn).
  assert (Hds : zlen ds = width) by (unfold ds, zlen in *; rewrite firstn_length; lia).
  assert (Hzr : zlen rest = zlen ds + zlen rs) by (rewrite <- zlen_app, <- Ers; reflexivity).
  assert (Hmid := mid_le (c =? 0) ds).
  pose proof (yenc_len_mids L false c rest) as Hym. rewrite Ers, mids_app, zlen_app in Hym. pose proof (mids_len rs).
  pose proof (zlen_nonneg rs). pose proof (zlen_nonneg o).
  rewrite Ers in Hlen. set (fs := esc_flags (c =? 0) ds) in *. set (t := expand fs ds) in *.
  assert (Hfl : length fs = length ds) by apply esc_flags_len.
  assert (Htl : zlen t = tot fs) by (apply expand_len; exact Hfl).
  assert (Hsrc := inv_src _ _ _ _ _ _ _ I). replace (es + off + (i - off)) with (es + i) in Hsrc by lia.
  rewrite Ers in Hsrc. apply bytes_at_app in Hsrc as [Hsrc _].
  destruct (HB i p col ds m) as (junk & m1 & Hj & Hm1 & Eb); auto.
  { destruct G. lia. }
  { destruct G. auto. }
  { destruct G. lia. }
  { fold fs t. lia. }
  fold fs t in Eb, Hm1. rewrite Eb. clear Eb.
  destruct (col + tot fs <? 0) eqn:Eov.
  - (* the block fits *)
    left. exists m1, (tot fs), (o ++ t), rs. split; [reflexivity|].
    assert (I' : inv m1 (es + off) (i - off + zlen ds) (p + zlen t) dest (o ++ t) rs).
    { eapply inv_ext; [exact Hm1|]. apply inv_put_junk; auto; [rewrite <- Ers; exact I|]. rewrite zlen_app. lia. }
    replace (i - off + zlen ds) with (i + width - off) in I' by lia.
    rewrite Htl in I'.
    assert (Htr : width <= tot fs) by (pose proof (tot_range fs); unfold zlen in *; rewrite Hfl in *; lia).
    do 2 (split; [lia|]). split; [exact I'|].
    eapply cont_trans; [exact HC|]. rewrite Ers. replace (col + tot fs + L - 1) with (c + zlen t) by lia.
    apply cont_block; try lia. fold fs t. lia.
  - (* the line ends within the block *)
    right. pose proof (cut_spec fs (- col)) as Hcut. destruct (cut fs (- col)) as [k q].
    destruct Hcut as (K1 & K2 & K3); [lia|].
    assert (Hkw : zlen fs = width) by (unfold zlen in *; lia). rewrite Hkw in *.
    set (d1 := firstn (Z.to_nat k) ds). set (d2 := skipn (Z.to_nat k) ds).
    assert (Ed : ds = d1 ++ d2) by (symmetry; apply firstn_skipn).
    assert (Hd1 : zlen d1 = k) by (unfold d1, zlen in *; rewrite firstn_length; lia).
    set (t1 := expand (esc_flags (c =? 0) d1) d1).
    assert (Ht1 : zlen t1 = q).
    { unfold t1. rewrite expand_len by apply esc_flags_len. rewrite K2. unfold d1. rewrite <- esc_flags_firstn. reflexivity. }
    assert (Et : exists t2, t = t1 ++ t2).
    { exists (expand (skipn (Z.to_nat k) fs) d2). unfold t, t1, d1, d2. rewrite <- esc_flags_firstn. fold fs.
      rewrite <- expand_app by (rewrite !firstn_length; lia). rewrite !firstn_skipn. reflexivity. }
    destruct Et as [t2 Et].
    assert (Hts : zlen t = zlen t1 + zlen t2) by (rewrite Et; apply zlen_app).
    pose proof (zlen_nonneg t1). pose proof (zlen_nonneg t2).
    assert (Hz2 : zlen rest = k + zlen (d2 ++ rs)) by (rewrite <- Hd1, <- zlen_app, app_assoc, <- Ed, <- Ers; reflexivity).
    (* the character at the end of the line *)
    destruct (d2 ++ rs) as [|e r'] eqn:Ee.
    { exists m1, k, q, [], x00, []. split; [reflexivity|]. do 2 (split; [lia|]). change (zlen (@nil byte)) with 0 in Hz2. lia. }
    assert (Hcase : c + q = L - 1 \/ (c + q = L - 2 /\ must_escape false false e = true)).
    { destruct K3 as [K3|(K3 & K4 & K5)]; [left; lia|right]. split; [lia|].
      destruct (cut_flag (c =? 0) ds rs k) as (a1 & e' & a2 & A1 & A2 & A3); auto; [lia| |].
      - intro. assert (q = 0) by (rewrite K2; replace (Z.to_nat k) with 0%nat by lia; reflexivity). lia.
      - rewrite Ed, <- app_assoc, Ee in A1. apply app_eq_app in A1.
        assert (a1 = d1 /\ e' = e) as [_ ->]; [|exact A3].
        destruct A1 as [l [[A1 A4]|[A1 A4]]].
        + assert (l = []) by (apply length_zero_iff_nil; apply (f_equal (@length byte)) in A1; rewrite app_length in A1; unfold zlen in *; lia).
          subst l. rewrite app_nil_r in A1. cbn in A4. split; congruence.
        + assert (l = []) by (apply length_zero_iff_nil; apply (f_equal (@length byte)) in A1; rewrite app_length in A1; unfold zlen in *; lia).
          subst l. rewrite app_nil_r in A1. cbn in A4. split; congruence. }
    assert (Ers' : rest = d1 ++ e :: r') by (rewrite <- Ee, app_assoc, <- Ed; exact Ers).
    assert (I1 : inv m1 (es + off) (i - off + zlen d1) (p + zlen t1) dest (o ++ t1) (e :: r')).
    { eapply inv_ext; [intro; rewrite Hm1, Et, <- app_assoc; reflexivity|]. apply inv_put_junk; auto; [rewrite <- Ers'; exact I|]. rewrite !zlen_app. lia. }
    exists m1, k, q, (o ++ t1), e, r'. split; [reflexivity|]. do 2 (split; [lia|]). intros _.
    split; [replace (i + k - off) with (i - off + zlen d1) by lia; rewrite <- Ht1; exact I1|].
    split; [lia|]. split; [|destruct Hcase as [?|[? ?]]; [left; lia|right; split; [lia|assumption]]].
    replace (col + q + L - 1) with (c + q) by lia.
    eapply cont_trans; [exact HC|]. rewrite Ers', <- Ht1. unfold t1.
    destruct (Z_lt_le_dec (c + q) (L - 1)) as [Hq|Hq].
    + apply cont_block; try lia. fold t1. lia.
    + (* reaching the last column exactly *)
      apply cont_upto; try lia. fold t1. lia.
Qed.

Lemma blocks_run block es width slack back off all L c0 dest :
  block_ok block es width slack back ->
  1 <= width -> width + 4 <= off -> 0 <= slack <= 24 -> 0 <= back -> 16 <= L ->
  dest + zlen (yenc L false c0 all) + 32 <= whi B ->
  forall fuel first i p col m o rest,
  (Z.to_nat (3 - i) <= fuel)%nat -> i <= 2 ->
  rlo B + back <= es + i -> geom B (es + off) (i - off) dest ->
  inv m (es + off) (i - off) p dest o rest ->
  col < 0 -> 0 <= col + L - 1 -> first = (col + L - 1 =? 0) ->
  cont L c0 all (col + L - 1) o rest ->
  exists m' i' p' col' o' rest',
    enc_blocks fuel block width B L es first i p col m = Ok ((i', p', col'), m') /\
    inv m' (es + off) (i' - off) p' dest o' rest' /\ i' <= off /\
    0 <= col' + L - 1 /\ cont L c0 all (col' + L - 1) o' rest'.
Proof.
  intros HB Hw Hoff Hs Hbk HL Hroom.
  induction fuel as [|fuel IH]; intros first i p col m o rest Hf Hi Hr G I Hc Hc' -> HC.
  { exfalso. lia. }
  assert (Hrl := inv_len _ _ _ _ _ _ _ I). assert (Hp := inv_p _ _ _ _ _ _ _ I). pose proof (zlen_nonneg o).
  cbn [enc_blocks].
  destruct (block_step (block (col + L - 1 =? 0)) es width slack back off all L c0 dest i p col m o rest)
    as [(m1 & t & o1 & rs & Eb & Ht & Hct & I1 & HC1)|(m1 & k & q & o1 & e & r' & Eb & Hk & Hq & Hrest)]; auto; try lia.
  - (* the block fits *)
    erewrite bind_ok by exact Eb. clear Eb. cbv beta iota zeta.
    destruct (i + width <? 0) eqn:Ei.
    + apply IH with (o := o1) (rest := rs); auto; try lia.
      eapply geom_mono; [exact G|lia].
    + do 6 eexists. split; [reflexivity|]. split; [exact I1|]. do 2 (split; [lia|]). exact HC1.
  - (* the line ends within the block *)
    erewrite bind_ok by exact Eb. clear Eb. destruct Hrest as (I1 & Hc1 & HC1 & Hcase); [lia|].
    assert (Hl1 := inv_len _ _ _ _ _ _ _ I1). assert (Hp1 := inv_p _ _ _ _ _ _ _ I1). rewrite zlen_cons in Hl1. pose proof (zlen_nonneg o1).
    assert (Hld : load B (es + (i + k)) m1 = Ok (e, m1)).
    { rewrite load_r by (destruct G; lia). f_equal. f_equal.
      destruct I1 as [J1 _ _ _]. cbn [bytes_at] in J1. destruct J1 as [J1 _]. rewrite <- J1. f_equal. lia. }
    erewrite bind_ok by exact Hld. clear Hld.
    pose proof (cont_room _ _ _ _ _ _ HC1) as Hlen. pose proof (zlen_nonneg (yenc L false (col + q + L - 1) (e :: r'))).
    destruct (last_char_run e (p + q) m1) as (x & Hx & El); [destruct G; lia|lia|].
    erewrite bind_ok by exact El. clear El. cbv beta zeta.
    pose proof (enc_char_len false true e).
    assert (I2 : inv (put m1 (p + q) ((enc_char false true e ++ [CR; LF]) ++ x)) (es + off) (i + k - off + zlen [e])
        (p + q + zlen (enc_char false true e ++ [CR; LF])) dest (o1 ++ (enc_char false true e ++ [CR; LF])) r').
    { apply inv_put_junk; auto.
      - eapply geom_mono; [exact G|]. lia.
      - rewrite !zlen_app. change (zlen [CR; LF]) with 2. lia. }
    replace (i + k - off + zlen [e]) with (i + k + 1 - off) in I2 by (change (zlen [e]) with 1; lia).
    assert (HC2 : cont L c0 all 0 (o1 ++ (enc_char false true e ++ [CR; LF])) r').
    { eapply cont_trans; [exact HC1|]. apply cont_last; try lia.
      - intros ->. change (zlen (@nil byte)) with 0 in Hl1. lia.
      - destruct Hcase as [?|[? ?]]; [left; lia|right; split; [lia|assumption]]. }
    destruct (0 <=? i + k) eqn:Ei.
    + do 6 eexists. split; [reflexivity|]. split; [exact I2|].
      replace (- L + 1 + L - 1) with 0 by lia. do 2 (split; [lia|]). exact HC2.
    + apply IH with (o := o1 ++ (enc_char false true e ++ [CR; LF])) (rest := r'); auto; try lia.
      * eapply geom_mono; [exact G|lia].
      * replace (- L + 1 + L - 1) with 0 by lia. exact HC2.
Qed.

(** ** The start of a call *)

Lemma start_run L es i p col off all c0 dest m o rest :
  16 <= L -> 16 <= zlen rest -> rlo B <= es + i -> geom B (es + off) (i - off) dest ->
  inv m (es + off) (i - off) p dest o rest ->
  dest + zlen (yenc L false c0 all) + 32 <= whi B ->
  0 <= col + L - 1 -> cont L c0 all (col + L - 1) o rest ->
  exists m' i' p' col' o' rest',
    enc_start B L es i p col m = Ok ((i', p', col'), m') /\
    inv m' (es + off) (i' - off) p' dest o' rest' /\
    i <= i' <= i + 2 /\ (0 <= col \/ col = - L + 1 -> i + 1 <= i') /\ col' < 0 /\ 1 <= col' + L - 1 /\ cont L c0 all (col' + L - 1) o' rest'.
Proof.
  intros HL Hlen Hr G I Hroom Hc HC. unfold enc_start.
  assert (F : exists m' i' p' col' o' rest',
    (if 0 <=? col then
       c <- load B (es + i) ;;
       if col =? 0 then p <- last_char B c p ;; ret (i + 1, p, - L + 1)
       else '(p, n) <- enc_eol B c p ;; ret (i + 1, p, n - L + 1)
     else ret (i, p, col)) m = Ok ((i', p', col'), m') /\
    inv m' (es + off) (i' - off) p' dest o' rest' /\
    i <= i' <= i + 1 /\ (0 <= col -> i + 1 <= i') /\ (i' = i -> col' = col) /\ col' < 0 /\ 0 <= col' + L - 1 /\ cont L c0 all (col' + L - 1) o' rest').
  { destruct (0 <=? col) eqn:E0.
    2:{ do 6 eexists. split; [reflexivity|]. split; [exact I|]. do 5 (split; [lia|]). exact HC. }
    destruct rest as [|c rest]; [cbv in Hlen; congruence|]. rewrite zlen_cons in Hlen.
    destruct rest as [|c' rest]; [cbv in Hlen; congruence|].
    assert (Hrl := inv_len _ _ _ _ _ _ _ I). rewrite !zlen_cons in *. pose proof (zlen_nonneg rest).
    pose proof (cont_room _ _ _ _ _ _ HC) as Hlen2. assert (Hp := inv_p _ _ _ _ _ _ _ I).
    assert (Hld : load B (es + i) m = Ok (c, m)).
    { rewrite load_r by (destruct G; lia). f_equal. f_equal.
      destruct I as [J1 _ _ _]. cbn [bytes_at] in J1. destruct J1 as [J1 _]. rewrite <- J1. f_equal. lia. }
    erewrite bind_ok by exact Hld. pose proof (zlen_nonneg o).
    pose proof (yenc_len_mids L false (col + L - 1) (c :: c' :: rest)) as Hym.
    pose proof (mids_len (c :: c' :: rest)) as Hml. rewrite !zlen_cons in Hml.
    replace (i - off) with (i - off + zlen [c] - 1) in * by (change (zlen [c]) with 1; lia).
    destruct (col =? 0) eqn:Ez.
    - destruct (last_char_run c p m) as (x & Hx & El); [destruct G; lia|lia|].
      erewrite bind_ok by exact El.
      pose proof (enc_char_len false true c).
      do 6 eexists. split; [reflexivity|]. split.
      + replace (i + 1 - off) with (i - off + zlen [c]) by (change (zlen [c]) with 1; lia).
        apply inv_put_junk with (r1 := [c]); [|replace (i - off) with (i - off + zlen [c] - 1) by (change (zlen [c]) with 1; lia); exact I|].
        * replace (i - off) with (i - off + zlen [c] - 1) by (change (zlen [c]) with 1; lia). exact G.
        * rewrite !zlen_app. change (zlen [CR; LF]) with 2. lia.
      + replace (- L + 1 + L - 1) with 0 by lia. do 5 (split; [lia|]). eapply cont_trans; [exact HC|]. apply cont_last; auto; try lia; discriminate.
    - destruct (enc_eol_run B c p m) as (m1 & El & Hm1); [destruct G; lia| |].
      { pose proof (enc_char_len true false c). lia. }
      cbv zeta in El. erewrite bind_ok by exact El. cbv beta iota. pose proof (enc_char_len true false c).
      do 6 eexists. split; [reflexivity|]. split.
      + replace (i + 1 - off) with (i - off + zlen [c]) by (change (zlen [c]) with 1; lia).
        assert (Ix : exists x, m1 = put m p ((CR :: LF :: enc_char true false c) ++ x) /\ zlen x <= 1).
        { destruct Hm1 as [->|[y ->]]; [exists []; rewrite app_nil_r|exists [y]]; split; auto; cbv; congruence. }
        destruct Ix as (x & -> & Hx).
        replace (p + 2 + zlen (enc_char true false c)) with (p + zlen (CR :: LF :: enc_char true false c)) by (rewrite !zlen_cons; lia).
        apply inv_put_junk with (r1 := [c]); [|replace (i - off) with (i - off + zlen [c] - 1) by (change (zlen [c]) with 1; lia); exact I|].
        * replace (i - off) with (i - off + zlen [c] - 1) by (change (zlen [c]) with 1; lia). exact G.
        * rewrite zlen_app, !zlen_cons. lia.
      + replace (zlen (enc_char true false c) - L + 1 + L - 1) with (zlen (enc_char true false c)) by lia.
        do 5 (split; [lia|]). eapply cont_trans; [exact HC|].
        apply (cont_intro L _ _ _ [c] (c' :: rest)); cbn [app]; [rewrite (yenc_cons L false (col + L - 1))|rewrite (ret_col_cons L false (col + L - 1))]; cbv zeta;
          (destruct (L <=? col + L - 1) eqn:E; [|lia]); reflexivity. }
  destruct F as (m1 & i1 & p1 & col1 & o1 & r1 & E1 & I1 & Hi1 & Hi1a & Hi1b & Hc1 & Hc1' & HC1).
  erewrite bind_ok by exact E1. cbv beta iota. clear E1.
  destruct (col1 =? - L + 1) eqn:E.
  2:{ do 6 eexists. split; [reflexivity|]. split; [exact I1|]. do 4 (split; [lia|]). exact HC1. }
  replace (col1 + L - 1) with 0 in * by lia.
  pose proof (inv_len _ _ _ _ _ _ _ I) as Hl0. pose proof (inv_len _ _ _ _ _ _ _ I1) as Hl1.
  destruct r1 as [|c r1]; [exfalso; change (zlen (@nil byte)) with 0 in Hl1; lia|].
  pose proof (cont_room _ _ _ _ _ _ HC1) as Hlen1. assert (Hp1 := inv_p _ _ _ _ _ _ _ I1).
  destruct (first_step B (es + off) L (i1 - off) p1 dest m1 o1 c r1) as (m2 & e & F1 & F2 & F3 & F4 & F5); auto; try lia.
  { eapply geom_mono; [exact G|lia]. }
  assert (F1' : enc_first B es i1 p1 m1 = Ok ((i1 + 1, p1 + zlen e, zlen e), m2)).
  { revert F1. unfold enc_first. replace (es + off + (i1 - off)) with (es + i1) by lia. unfold bind.
    destruct (load B (es + i1) m1) as [[b mb]| |]; try discriminate. destruct (negb (escapedLUT b =? 0)).
    - destruct (store16 B p1 (escapedLUT b) mb) as [[u mu]| |]; try discriminate. unfold ret. intro F; injection F as F6 F7 F8.
      rewrite F6, F7, F8. reflexivity.
    - destruct (store B p1 (u8 (bz b + 42)) mb) as [[u mu]| |]; try discriminate. unfold ret. intro F; injection F as F6 F7 F8.
      rewrite F6, F7, F8. reflexivity. }
  erewrite bind_ok by exact F1'. cbv beta iota.
  do 6 eexists. split; [reflexivity|]. split.
  { replace (i1 + 1 - off) with (i1 - off + 1) by lia. exact F3. }
  replace (col1 + zlen e + L - 1) with (zlen e) by lia.
  do 4 (split; [lia|]). eapply cont_trans; [exact HC1|]. apply (cont_intro L 0 _ _ [c] r1); assumption.
Qed.

End Blocks.
