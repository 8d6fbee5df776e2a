(** The RVV encode kernel writes the text of the specification. *)
From Verif Require Import Base BaseLemmas DecMaskSpec DecMaskModel DecVec DecVecProofs EncModel EncSpec EncProofs EncEnd EncSseModel EncLoopModel EncRvvModel
  EncBlock EncVec EncFlags EncSseProofs EncLoop.
From Coq Require Import ZifyBool ZifyNat ZifyN.
Ltac Zify.zify_post_hook ::= Z.div_mod_to_equations.

(** ** Masks *)

Lemma cpop_tot l : cpop l = tot l - zlen l.
Proof. induction l as [|b l IH]; [reflexivity|]. cbn [cpop]. rewrite tot_cons, zlen_cons, IH. destruct b; cbn [wid]; lia. Qed.

Definition slots (fs : list bool) : list bool := flat_map (fun f => [f; true]) fs.

Lemma slots_cons f fs : slots (f :: fs) = f :: true :: slots fs. Proof. reflexivity. Qed.
Lemma slots_app a b : slots (a ++ b) = slots a ++ slots b. Proof. apply flat_map_app. Qed.

Definition lookup (k : N) : N := nth (N.to_nat k) rvv_mask_expand 0%N.

Lemma byte_slots l : length l = 8%nat ->
  concat (map bits8 (map lookup [N.shiftr (N.modulo (mask_of l * 16) 256) 4; N.shiftr (N.div (mask_of l * 16) 256) 0])) = slots l.
Proof.
  intro H. do 8 (destruct l as [|? l]; [discriminate|]). destruct l; [|discriminate].
  repeat match goal with b : bool |- _ => destruct b end; vm_compute; reflexivity.
Qed.

Lemma expand_mask_n n : forall fs, length fs = (8 * n)%nat ->
  concat (map bits8 (map lookup (map2 N.shiftr (concat (map (fun b => bytes2 (b * 16)%N) (mask_bytes n fs))) (concat (repeat [4; 0]%N n))))) = slots fs.
Proof.
  induction n as [|n IH]; intros fs H.
  - destruct fs; [reflexivity|discriminate].
  - assert (E : fs = firstn 8 fs ++ skipn 8 fs) by (symmetry; apply firstn_skipn).
    rewrite E at 2. rewrite slots_app, <- (byte_slots (firstn 8 fs)) by (rewrite firstn_length; lia).
    rewrite <- (IH (skipn 8 fs)) by (rewrite skipn_length; lia).
    cbn [mask_bytes]. set (b := mask_of (firstn 8 fs)). set (r := mask_bytes n (skipn 8 fs)).
    cbn [map repeat concat]. unfold bytes2 at 1. cbn [app map2 map concat]. rewrite app_nil_r, <- !app_assoc. reflexivity.
Qed.

Lemma expand_mask_ok rv fs : length fs = vl2 rv -> rvv_expand_mask rv fs = slots fs.
Proof.
  intro H. unfold rvv_expand_mask, alt_shift. apply expand_mask_n. unfold vl2 in *. rewrite H.
  replace (32 * S (r_units rv))%nat with (4 * S (r_units rv) * 8)%nat by lia. rewrite Nat.div_mul by lia. lia.
Qed.

(** ** Text *)

Lemma cmp_ok ds : rvv_cmp ds = map (must_escape false false) ds.
Proof.
  unfold rvv_cmp, rvv_tmp. induction ds as [|c ds IH]; [reflexivity|]. cbn [map map2]. rewrite IH. f_equal. destruct c; reflexivity.
Qed.

(** The text from the flags and the characters after the addition. *)
Fixpoint weave (fs : list bool) (d : list byte) : list byte :=
  match fs, d with
  | f :: fs', c :: d' => (if f then [EQS; c] else [c]) ++ weave fs' d'
  | _, _ => []
  end.

Lemma data_weave ds : expand (map (must_escape false false) ds) ds = weave (map (must_escape false false) ds) (rvv_data ds).
Proof.
  unfold rvv_data. rewrite cmp_ok. unfold rvv_tmp. induction ds as [|c ds IH]; [reflexivity|]. cbn [map map2 expand weave]. rewrite IH.
  f_equal. destruct c; reflexivity.
Qed.

Lemma data_len ds : length (rvv_data ds) = length ds.
Proof.
  unfold rvv_data. rewrite cmp_ok. unfold rvv_tmp. induction ds as [|c ds IH]; [reflexivity|]. cbn [map map2 length]. rewrite IH. reflexivity.
Qed.

Lemma pairs_ok d : rvv_pairs d = flat_map (fun c => [EQS; c]) d.
Proof. unfold rvv_pairs. rewrite flat_map_concat_map. f_equal. apply map_ext. intro c. destruct c; reflexivity. Qed.

Lemma compress_slots fs : forall d, length fs = length d -> compress (slots fs) (flat_map (fun c => [EQS; c]) d) = weave fs d.
Proof.
  induction fs as [|f fs IH]; intros [|c d] H; try discriminate; [reflexivity|]. rewrite slots_cons. cbn [flat_map app compress weave].
  rewrite IH by (cbn in H; lia). destruct f; reflexivity.
Qed.

(** ** The end of the line among the slots *)

Lemma discard_all T l : forall acc, T <= acc -> acc + zlen l < 65536 -> 0 <= acc -> cpop (map (fun x => T <=? x) (iota acc l)) = zlen l.
Proof.
  induction l as [|b l IH]; intros acc H1 H2 H3; [reflexivity|]. rewrite zlen_cons in *. pose proof (zlen_nonneg l).
  cbn [iota map cpop]. rewrite IH by (destruct b; lia). rewrite Z.mod_small by lia. destruct (T <=? acc) eqn:E; lia.
Qed.

Lemma discard_cut T fs : forall acc, 0 <= acc -> 0 <= T - acc <= tot fs -> acc + 2 * zlen fs < 65536 ->
  let '(k, q) := cut fs (T - acc) in
  cpop (map (fun x => T <=? x) (iota acc (slots fs))) = 2 * (zlen fs - k) - (T - acc - q) /\ 0 <= T - acc - q <= 1.
Proof.
  induction fs as [|f fs IH]; intros acc H1 H2 H3.
  - change (tot []) with 0 in H2. cbn [cut]. change (zlen (@nil bool)) with 0. cbn [slots flat_map iota map cpop]. lia.
  - rewrite tot_cons in H2. rewrite zlen_cons in *. pose proof (zlen_nonneg fs). pose proof (wid_range f).
    assert (Hz : zlen (slots fs) = 2 * zlen fs).
    { clear. induction fs as [|f fs IH]; [reflexivity|]. rewrite slots_cons, !zlen_cons, IH. lia. }
    rewrite slots_cons. cbn [cut iota map cpop]. rewrite !Z.mod_small by (destruct f; lia).
    destruct (T - acc <? wid f) eqn:E.
    + (* the slots of the first character *)
      rewrite discard_all by (destruct f; cbn [wid] in *; lia). rewrite Hz.
      destruct f; cbn [wid] in *; repeat match goal with |- context [?a <=? ?b] => destruct (a <=? b) eqn:? end; lia.
    + specialize (IH (acc + wid f)). replace (acc + (if f then 1 else 0) + 1) with (acc + wid f) by (destruct f; cbn [wid]; lia).
      replace (T - acc - wid f) with (T - (acc + wid f)) by lia.
      destruct (cut fs (T - (acc + wid f))) as [k q]. destruct IH as [IH1 IH2]; try lia. rewrite IH1.
      destruct f; cbn [wid] in *; repeat match goal with |- context [?a <=? ?b] => destruct (a <=? b) eqn:? end; lia.
Qed.

(** ** Masked stores *)

Lemma msbf_none n : msbf (repeat false n) = repeat true n.
Proof. induction n as [|n IH]; [reflexivity|]. cbn [repeat msbf]. rewrite IH. reflexivity. Qed.
Lemma msbf_one n k : msbf (repeat false n ++ true :: repeat false k) = repeat true n ++ repeat false (S k).
Proof.
  induction n as [|n IH]; [|cbn [repeat app msbf]; rewrite IH; reflexivity]. cbn [repeat app msbf map]. f_equal.
  induction k as [|k IH]; [reflexivity|]. cbn [repeat map]. rewrite IH. reflexivity.
Qed.

Lemma store_true B n : forall a v m, length v = n -> wlo B <= a -> a + zlen v <= whi B ->
  store_masked B a (repeat true n) v m = Ok (tt, put m a v).
Proof.
  induction n as [|n IH]; intros a [|c v] m H1 H2 H3; try discriminate; [reflexivity|]. rewrite zlen_cons in H3. pose proof (zlen_nonneg v).
  cbn [repeat store_masked put]. erewrite bind_ok by (apply store_w; lia). apply IH; cbn in H1; lia.
Qed.
Lemma store_false B n : forall a v m, store_masked B a (repeat false n) v m = Ok (tt, m).
Proof. induction n as [|n IH]; intros a [|c v] m; try reflexivity. cbn [repeat store_masked]. erewrite bind_ok by reflexivity. apply IH. Qed.
Lemma store_masked_app B m1 : forall a m2 v1 v2 m, length m1 = length v1 ->
  store_masked B a (m1 ++ m2) (v1 ++ v2) m = (store_masked B a m1 v1 ;;; store_masked B (a + zlen v1) m2 v2) m.
Proof.
  induction m1 as [|b m1 IH]; intros a m2 [|c v1] v2 m H; try discriminate.
  - cbn [app store_masked]. erewrite bind_ok by reflexivity. change (zlen (@nil byte)) with 0. rewrite Z.add_0_r. reflexivity.
  - cbn [app store_masked]. rewrite zlen_cons. unfold bind at 1 2 3. destruct ((if b then store B a c else ret tt) m) as [[u m']| |]; try reflexivity.
    rewrite IH by (cbn in H; lia). unfold bind. replace (a + 1 + zlen v1) with (a + (zlen v1 + 1)) by lia. reflexivity.
Qed.

Lemma weave_none : forall d, weave (repeat false (length d)) d = d.
Proof. induction d as [|c d IH]; [reflexivity|]. cbn [length repeat weave app]. rewrite IH. reflexivity. Qed.
Lemma weave_app f1 : forall f2 d1 d2, length f1 = length d1 -> weave (f1 ++ f2) (d1 ++ d2) = weave f1 d1 ++ weave f2 d2.
Proof. induction f1 as [|f f1 IH]; intros f2 [|c d1] d2 H; try discriminate; [reflexivity|]. cbn [app weave]. rewrite IH by (cbn in H; lia). apply app_assoc. Qed.

Lemma negb_repeat b n : map negb (repeat b n) = repeat (negb b) n.
Proof. induction n as [|n IH]; [reflexivity|]. cbn [repeat map]. rewrite IH. reflexivity. Qed.
Lemma cpop_repeat b n : cpop (repeat b n) = if b then Z.of_nat n else 0.
Proof. induction n as [|n IH]; [destruct b; reflexivity|]. cbn [repeat cpop]. rewrite IH. destruct b; lia. Qed.
Lemma cpop_app a b : cpop (a ++ b) = cpop a + cpop b.
Proof. induction a as [|x a IH]; [reflexivity|]. cbn [app cpop]. rewrite IH. lia. Qed.

(** ** A block *)

Section Block.
Variable rv : rvv.
Variable B : bufs.
Let n := Z.of_nat (vl2 rv).

Lemma slow_ok i p col fs d m :
  (r_units rv < 512)%nat -> length fs = vl2 rv -> length d = vl2 rv -> 1 < cpop fs -> col < 0 ->
  wlo B <= p -> p + tot fs + n <= whi B ->
  exists junk m', zlen junk <= n /\ (forall x, m' x = put m p (weave fs d ++ junk) x) /\
    rvv_slow rv B (i + n) p col fs d m =
      Ok (if col + tot fs <? 0 then Next (p + tot fs) (col + tot fs)
          else let '(k, q) := cut fs (- col) in Eol (i + k) (p + q), m').
Proof.
  intros Hu Hf Hd Hc Hcol Hp Hw. unfold rvv_slow. cbv zeta. rewrite expand_mask_ok, pairs_ok, compress_slots by congruence.
  assert (Hz : zlen fs = n) by (unfold zlen; lia). rewrite cpop_tot in *. fold n.
  pose proof (tot_range fs).
  assert (Hwl : zlen (weave fs d) = tot fs).
  { clear - Hf Hd. rewrite <- Hd in Hf. clear Hd. revert d Hf. induction fs as [|f fs IH]; intros [|c d] H; try discriminate; [reflexivity|].
    cbn [weave]. rewrite zlen_app, tot_cons, IH by (cbn in H; lia). destruct f; reflexivity. }
  set (junk := map (r_tail rv) _).
  assert (Hj : zlen junk = 2 * n - tot fs).
  { unfold junk, zlen in *. rewrite map_length, seq_length. lia. }
  exists junk. eexists. split; [lia|]. split; [reflexivity|].
  erewrite bind_ok by (apply store_n_put; auto; rewrite zlen_app; lia).
  replace (p + n + (tot fs - zlen fs)) with (p + tot fs) by lia. replace (col + n + (tot fs - zlen fs)) with (col + tot fs) by lia.
  replace (n + (tot fs - zlen fs) - (col + tot fs)) with (- col) by lia.
  destruct (0 <=? col + tot fs) eqn:E1; destruct (col + tot fs <? 0) eqn:E2; try lia; [|reflexivity].
  unfold vl2 in n. rewrite (Z.mod_small (- col)) by lia.
  pose proof (discard_cut (- col) fs 0) as HD. rewrite Z.sub_0_r in HD. destruct (cut fs (- col)) as [k q].
  destruct HD as [HD1 HD2]; try lia. rewrite HD1. unfold ret. do 3 f_equal.
  - rewrite Z.shiftr_div_pow2 by lia. change (2 ^ 1) with 2. lia.
  - change 1 with (Z.ones 1) at 1. rewrite Z.land_ones by lia. change (2 ^ 1) with 2. lia.
Qed.

Lemma fast_ok i p col fs d m :
  length fs = vl2 rv -> length d = vl2 rv -> cpop fs <= 1 -> col < 0 ->
  wlo B <= p -> p + tot fs + n <= whi B ->
  exists junk m', zlen junk <= n /\ (forall x, m' x = put m p (weave fs d ++ junk) x) /\
    rvv_fast rv B (i + n) p col fs d m =
      Ok (if col + tot fs <? 0 then Next (p + tot fs) (col + tot fs)
          else let '(k, q) := cut fs (- col) in Eol (i + k) (p + q), m').
Proof.
  intros Hf Hd Hc Hcol Hp Hw. unfold rvv_fast. cbv zeta. fold n.
  assert (Hz : zlen fs = n) by (unfold zlen; lia). assert (Hzd : zlen d = n) by (unfold zlen; lia).
  assert (Hn : 32 <= n) by (unfold n, vl2; lia).
  rewrite (cpop_tot fs) in *. pose proof (tot_range fs).
  replace (p + n + (tot fs - zlen fs)) with (p + tot fs) by lia. replace (col + n + (tot fs - zlen fs)) with (col + tot fs) by lia.
  destruct (Z.eq_dec (tot fs) (zlen fs)) as [E|E].
  - (* no character is escaped *)
    rewrite E, Hz, Z.sub_diag. change (0 <? 0) with false. cbv iota.
    apply tot_none in E. rewrite E, Hf. rewrite msbf_none, negb_repeat, cpop_repeat. cbn [negb]. rewrite <- Hd, weave_none.
    exists [u8 61]. eexists. split; [change (zlen [u8 61]) with 1; lia|]. split; [|].
    2:{ erewrite bind_ok by (apply store_true; auto; lia).
        erewrite bind_ok by (apply store_w; lia).
        erewrite bind_ok by apply store_false.
        clear E.
        destruct (0 <=? col + n) eqn:E1; destruct (col + n <? 0) eqn:E2; try lia; [|reflexivity].
        rewrite cut_repeat by (unfold zlen in *; lia). unfold ret. do 3 f_equal; lia. }
    intro x. cbv beta. rewrite put_app. unfold zlen. cbn [put]. reflexivity.
  - (* one is *)
    assert (E' : tot fs = zlen fs + 1) by lia. rewrite E', Hz. replace (n + 1 - n) with 1 by lia. change (0 <? 1) with true. cbv iota.
    apply tot_one in E'. destruct E' as (j & Hj & Ef). remember (length fs - j - 1)%nat as l eqn:El.
    rewrite Ef, msbf_one, map_app, !negb_repeat, cpop_app, !cpop_repeat. cbn [negb].
    set (d1 := firstn j d). set (d2 := skipn j d).
    assert (Ed : d = d1 ++ d2) by (symmetry; apply firstn_skipn).
    assert (Hd1 : length d1 = j) by (unfold d1; rewrite firstn_length; lia).
    assert (Hd2 : length d2 = S l) by (unfold d2; rewrite skipn_length; lia).
    assert (Ew : weave (repeat false j ++ true :: repeat false l) d = d1 ++ EQS :: d2).
    { rewrite Ed, weave_app by (rewrite repeat_length; congruence). rewrite <- Hd1, weave_none. f_equal.
      destruct d2 as [|c d2]; [discriminate|]. cbn [weave app]. injection Hd2 as Hd2. rewrite <- Hd2, weave_none. reflexivity. }
    rewrite Ew. exists []. eexists. split; [change (zlen (@nil byte)) with 0; lia|].
    assert (Hz1 : zlen d1 = Z.of_nat j) by (unfold zlen; lia).
    assert (Hz2 : zlen d2 = Z.of_nat l + 1) by (unfold zlen; lia).
    split; [|].
    2:{ erewrite bind_ok.
        2:{ rewrite Ed at 1. rewrite store_masked_app by (rewrite repeat_length; congruence).
            erewrite bind_ok by (apply store_true; auto; lia). apply store_false. }
        erewrite bind_ok by (apply store_w; lia).
        erewrite bind_ok.
        2:{ rewrite Ed at 1. rewrite store_masked_app by (rewrite repeat_length; congruence).
            erewrite bind_ok by apply store_false. apply store_true; auto; lia. }
        cbv zeta.
        destruct (0 <=? col + (n + 1)) eqn:E1; destruct (col + (n + 1) <? 0) eqn:E2; try lia; [|reflexivity].
        rewrite cut_single by lia. unfold ret.
        repeat match goal with |- context [if ?b then _ else _] => destruct b eqn:? end; do 3 f_equal; lia. }
    intro x. cbv beta. rewrite app_nil_r, put_app. cbn [put]. rewrite Hz1. replace (p + 1 + Z.of_nat j) with (p + Z.of_nat j + 1) by lia.
    replace (Z.of_nat j + 0) with (Z.of_nat j) by lia. reflexivity.
Qed.

Lemma rvv_block_ok es : (r_units rv < 512)%nat -> block_at_ok B false (rvv_block rv B es) es n n 0.
Proof.
  intros Hu i p col ds m Hds Hb Hr1 Hr2 Hdis Hcol fs o Hp Hw. unfold rvv_block.
  assert (Hl : length ds = vl2 rv) by (unfold n, zlen in *; lia).
  erewrite bind_ok.
  2:{ rewrite <- Hl. apply load_n_ok; auto; lia. }
  cbv zeta. rewrite cmp_ok. fold n. subst fs o. rewrite esc_flags_mid in *. rewrite data_weave.
  rewrite expand_len in Hw by apply map_length.
  destruct (1 <? cpop (map (must_escape false false) ds)) eqn:E.
  - apply slow_ok; auto; rewrite ?map_length, ?data_len; auto; lia.
  - apply fast_ok; auto; rewrite ?map_length, ?data_len; auto; lia.
Qed.

End Block.

(** ** The end of a line *)

Lemma rvv_eol_ok B L es off : 8 <= L -> eol_ok B (rvv_eol B L es) es off L 2.
Proof.
  intros HL all c0 dest i p col m o e rest Hr G I Hlen Hc Hcase HC Hroom. unfold rvv_eol.
  destruct rest as [|c rest]; [cbv in Hlen; congruence|]. rewrite !zlen_cons in Hlen. pose proof (zlen_nonneg rest).
  assert (Hrl := inv_len _ _ _ _ _ _ _ I). rewrite !zlen_cons in Hrl. assert (Hp := inv_p _ _ _ _ _ _ _ I). pose proof (zlen_nonneg o).
  assert (HC1 : cont L c0 all 0 (o ++ (enc_char false true e ++ [CR; LF])) (c :: rest)).
  { eapply cont_trans; [exact HC|]. apply cont_last; try lia; [discriminate|].
    destruct Hcase as [?|[? ?]]; [left; lia|right; split; [lia|assumption]]. }
  assert (HC2 : cont L 0 (c :: rest) (0 + zlen (enc_char true false c)) (enc_char true false c) rest).
  { pose proof (enc_char_len true false c).
    apply (cont_intro L _ _ _ [c] rest); cbn [app]; [rewrite (yenc_cons L false 0)|rewrite (ret_col_cons L false 0)]; cbv zeta;
      (destruct (L <=? 0) eqn:E1; [lia|]); (destruct (0 =? L - 1) eqn:E2; [lia|]); reflexivity. }
  pose proof (cont_trans _ _ _ _ _ _ _ _ _ HC1 HC2) as HC3. clear HC1 HC2. rewrite Z.add_0_l in HC3.
  pose proof (cont_room _ _ _ _ _ _ HC3) as Hrm. rewrite !zlen_app in Hrm. change (zlen [CR; LF]) with 2 in Hrm.
  pose proof (zlen_nonneg (yenc L false (zlen (enc_char true false c)) rest)).
  pose proof (enc_char_len false true e). pose proof (enc_char_len true false c).
  assert (He : m (es + i) = e /\ m (es + (i + 1)) = c).
  { destruct I as [J1 _ _ _]. cbn [bytes_at] in J1. destruct J1 as (J1 & J2 & _).
    replace (es + off + (i - off)) with (es + i) in * by lia. replace (es + (i + 1)) with (es + i + 1) by lia. auto. }
  destruct He as [He1 He2].
  erewrite bind_ok by (apply load_r; destruct G; lia). rewrite He1.
  erewrite bind_ok.
  2:{ instantiate (1 := put m p (enc_char false true e)). instantiate (1 := p + zlen (enc_char false true e)).
      rewrite lut_last. rewrite lut_last in *. destruct (negb (escapedLUT e =? 0) && negb (bz e =? 46 - 42)); autorewrite with zlen in *.
      - erewrite bind_ok by (apply store16_run; destruct G; lia). reflexivity.
      - erewrite bind_ok by (apply store_w; destruct G; lia). reflexivity. }
  pose proof (inv_put B m (es + off) (i - off) p dest o [e] (c :: rest) (enc_char false true e) G I) as I1.
  specialize (I1 ltac:(lia)). replace (i - off + zlen [e]) with (i + 1 - off) in I1 by (change (zlen [e]) with 1; lia).
  assert (G1 : geom B (es + off) (i + 1 - off) dest) by (eapply geom_mono; [exact G|lia]).
  erewrite bind_ok.
  2:{ apply load_r. destruct G; lia. }
  assert (He3 : put m p (enc_char false true e) (es + (i + 1)) = c).
  { destruct I1 as [J1 _ _ _]. cbn [bytes_at] in J1. destruct J1 as (J1 & _). rewrite <- J1. f_equal. lia. }
  rewrite He3.
  destruct (enc_eol_run B c (p + zlen (enc_char false true e)) (put m p (enc_char false true e))) as (m1 & El & Hm1); [destruct G; lia|lia|].
  cbv zeta in El. erewrite bind_ok by exact El. cbv beta iota. clear El.
  assert (Ix : exists x, m1 = put (put m p (enc_char false true e)) (p + zlen (enc_char false true e)) ((CR :: LF :: enc_char true false c) ++ x) /\ zlen x <= 1).
  { destruct Hm1 as [->|[y ->]]; [exists []; rewrite app_nil_r|exists [y]]; split; auto; cbv; congruence. }
  destruct Ix as (x & -> & Hx).
  do 6 eexists. split; [reflexivity|]. split; [|split; [|split; [|split]]].
  5:{ replace (- L + 1 + zlen (enc_char true false c) + L - 1) with (zlen (enc_char true false c)) by lia. exact HC3. }
  2-4: lia.
  replace (i + 2 - off) with (i + 1 - off + zlen [c]) by (change (zlen [c]) with 1; lia).
  replace (p + zlen (enc_char false true e) + 2 + zlen (enc_char true false c)) with (p + zlen (enc_char false true e) + zlen (CR :: LF :: enc_char true false c)) by (rewrite !zlen_cons; lia).
  replace ((o ++ enc_char false true e ++ [CR; LF]) ++ enc_char true false c) with ((o ++ enc_char false true e) ++ CR :: LF :: enc_char true false c)
    by (rewrite <- !app_assoc; reflexivity).
  apply inv_put_junk with (B := B) (r1 := [c]); [exact G1|exact I1|]. cbn [app]. rewrite !zlen_cons, zlen_app. lia.
Qed.

Lemma rvv_good rv : (r_units rv < 512)%nat -> good_kernel (do_encode_rvv rv).
Proof.
  intros Hu B L fin col src dest data m H1 H2 H3 H4 H5 H6 H7 H8.
  set (n := Z.of_nat (vl2 rv)). assert (Hn : 32 <= n) by (unfold n, vl2; lia).
  apply kernel_loop with (fin := fin) (block := rvv_block rv B) (eol := rvv_eol B L) (width := n) (slack := n) (off := n * 2 - 1) (need := 2) (minL := n * 2); auto; try lia.
  - intro es. apply rvv_block_ok. exact Hu.
  - intros HL es. apply rvv_eol_ok. lia.
  - intro H. unfold do_encode_rvv. fold n. cbv zeta. destruct ((zlen data <=? n * 2 - 1) || (L <? n * 2)) eqn:E; [reflexivity|lia].
  - intros H H'. unfold do_encode_rvv. fold n. cbv zeta. destruct ((zlen data <=? n * 2 - 1) || (L <? n * 2)) eqn:E; [lia|]. reflexivity.
Qed.
