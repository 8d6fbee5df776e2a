(** The NEON encode kernel writes the text of the specification. *)
From Verif Require Import Base BaseLemmas DecMaskSpec DecMaskModel DecMaskProofs DecVec DecVecProofs DecSseModel EncModel EncSpec EncProofs EncEnd EncSseModel
  EncLoopModel EncNeonModel EncBlock EncVec EncFlags EncSseProofs EncLoop EncRvvProofs EncNeonVec.
From Coq Require Import ZifyBool ZifyNat ZifyN.
Ltac Zify.zify_post_hook ::= Z.div_mod_to_equations.

(** ** Several characters to escape *)

Lemma piece (x : vec) fs d : firstn (Z.to_nat (tot fs)) x = weave fs d -> length x = 16%nat -> length fs = 8%nat -> length d = 8%nat ->
  exists junk, x = weave fs d ++ junk /\ zlen junk = 16 - tot fs.
Proof.
  intros E Hx Hf Hd. exists (skipn (Z.to_nat (tot fs)) x). rewrite <- E, firstn_skipn. split; [reflexivity|].
  unfold zlen. rewrite skipn_length. pose proof (tot_range fs) as T. unfold zlen in T. lia.
Qed.

Lemma halves_weave f1 f2 d : length d = 16%nat -> length f1 = 8%nat -> length f2 = 8%nat ->
  weave (f1 ++ f2) d = weave f1 (part 0 8 d) ++ weave f2 (part 8 8 d).
Proof.
  intros Hd H1 H2. rewrite <- weave_app by (rewrite part_len; lia). f_equal. rewrite part_split. unfold part. cbn [skipn]. symmetry. apply firstn_all2. cbn. lia.
Qed.

Lemma pow31 l : (exists l', l = l' ++ [false]) -> forall k, zlen l + k <= 32 -> 0 <= k -> Z.of_N (N.shiftl (mask_of l) (Z.to_N k)) < 2 ^ 31.
Proof.
  intros (l' & ->) k Hk H0. change [false] with (repeat false 1). rewrite (mask_pad l' 1). rewrite zlen_app in Hk. change (zlen [false]) with 1 in Hk.
  rewrite N.shiftl_mul_pow2. pose proof (mask_lt l') as Hm.
  assert (H : (mask_of l' * 2 ^ Z.to_N k < 2 ^ 31)%N).
  { eapply N.lt_le_trans.
    - apply N.mul_lt_mono_pos_r; [|exact Hm]. apply N.neq_0_lt_0, N.pow_nonzero. discriminate.
    - rewrite <- N.pow_add_r. apply N.pow_le_mono_r; [discriminate|]. unfold zlen in Hk. lia. }
  change (2 ^ 31)%N with 2147483648%N in H. change (2 ^ 31) with 2147483648. lia.
Qed.

Lemma eqs_end fs : fs <> [] -> exists l, eqs fs = l ++ [false].
Proof.
  intro H. destruct (exists_last H) as (a & f & ->). rewrite eqs_app. destruct f.
  - exists (eqs a ++ [true]). rewrite <- app_assoc. reflexivity.
  - exists (eqs a). reflexivity.
Qed.

Lemma join_int fa fb n m : n = tot fa -> zlen fa = 8 -> zlen fb = 8 ->
  (hi <- shl_int (mask_of (eqs fb)) n ;; ret (N.lor hi (mask_of (eqs fa)))) m = Ok (mask_of (eqs (fa ++ fb)), m).
Proof.
  intros -> Ha Hb. unfold shl_int. pose proof (tot_range fa). pose proof (tot_range fb).
  assert (Hp : Z.of_N (N.shiftl (mask_of (eqs fb)) (Z.to_N (tot fa))) < 2 ^ 31).
  { apply pow31; [apply eqs_end|rewrite eqs_len; lia|lia]. intros ->. cbv in Hb. congruence. }
  destruct ((0 <=? tot fa) && (tot fa <? 32) && (Z.of_N (N.shiftl (mask_of (eqs fb)) (Z.to_N (tot fa))) <? 2 ^ 31)) eqn:E; [|lia].
  unfold bind, ret. rewrite eqs_app, <- mask_app, N.lor_comm. do 4 f_equal. pose proof (eqs_len fa). unfold zlen in *. lia.
Qed.

Lemma expand_lut fs : length fs = 8%nat -> expandLUT (mask_of fs) = mask_of (eqs fs).
Proof. intro H. bits8 fs H; vm_compute; reflexivity. Qed.

Lemma cnt8 n : popcount (N.land n 0xff) = bits_set_plus8 (N.land n 0xff) - 8.
Proof.
  assert (H : (N.land n 0xff < 256)%N).
  { change 0xff%N with (N.ones 8). rewrite N.land_ones. change (2 ^ 8)%N with 256%N. lia. }
  revert H. generalize (N.land n 0xff). intros k H.
  assert (F : forallb (fun j => popcount (N.of_nat j) =? bits_set_plus8 (N.of_nat j) - 8) (seq 0 256) = true) by (vm_compute; reflexivity).
  rewrite forallb_forall in F. specialize (F (N.to_nat k)). rewrite N2Nat.id in F. apply Z.eqb_eq, F, in_seq. lia.
Qed.

Lemma byte_low n k : Z.to_N (bz (u8 (Z.of_N (N.shiftr n k)))) = N.land (N.shiftr n k) 0xff.
Proof. rewrite bz_u8. change 0xff%N with (N.ones 8). rewrite N.land_ones. change (2 ^ 8)%N with 256%N. lia. Qed.

Lemma popcount_bound n : 0 <= popcount (N.land n 0xff) <= 8.
Proof.
  assert (H : (N.land n 0xff < 256)%N).
  { change 0xff%N with (N.ones 8). rewrite N.land_ones. change (2 ^ 8)%N with 256%N. lia. }
  revert H. generalize (N.land n 0xff). intros k H.
  assert (F : forallb (fun j => (0 <=? popcount (N.of_nat j)) && (popcount (N.of_nat j) <=? 8)) (seq 0 256) = true) by (vm_compute; reflexivity).
  rewrite forallb_forall in F. specialize (F (N.to_nat k)). rewrite N2Nat.id in F. assert (I : In (N.to_nat k) (seq 0 256)) by (apply in_seq; lia).
  apply F in I. lia.
Qed.

Lemma count_int l : (length l <= 32)%nat ->
  Z.of_N (N.shiftr (uint 32 (lane (v_cnt (bytes4 (mask_of l))) * 0x1010101)) 24) = tot l - zlen l.
Proof.
  intro H. rewrite <- count_bytes by exact H. unfold v_cnt, bytes4. cbn [map lane]. rewrite !byte_low, N.shiftr_0_r.
  set (m := mask_of l). pose proof (popcount_bound m) as P0. pose proof (popcount_bound (N.shiftr m 8)) as P1. pose proof (popcount_bound (N.shiftr m 16)) as P2.
  pose proof (popcount_bound (N.shiftr m 24)) as P3. pose proof (cnt8 m) as C0. pose proof (cnt8 (N.shiftr m 8)) as C1.
  pose proof (cnt8 (N.shiftr m 16)) as C2. pose proof (cnt8 (N.shiftr m 24)) as C3.
  rewrite !bz_u8.
  generalize dependent (popcount (N.land m 0xff)). intros a Ha Ca. generalize dependent (popcount (N.land (N.shiftr m 8) 0xff)). intros b Hb Cb.
  generalize dependent (popcount (N.land (N.shiftr m 16) 0xff)). intros c Hc Cc. generalize dependent (popcount (N.land (N.shiftr m 24) 0xff)). intros d Hd Cd.
  rewrite !Z.mod_small by lia.
  assert (E : Z.of_N (N.shiftr (uint 32 ((Z.to_N a + 256 * (Z.to_N b + 256 * (Z.to_N c + 256 * (Z.to_N d + 256 * 0)))) * 0x1010101)) 24) = a + b + c + d).
  { unfold uint. rewrite N.shiftr_div_pow2. change (2 ^ 24)%N with 16777216%N. change (2 ^ 32)%N with 4294967296%N.
    assert (E : ((Z.to_N a + 256 * (Z.to_N b + 256 * (Z.to_N c + 256 * (Z.to_N d + 256 * 0)))) * 16843009 =
      (Z.to_N a + 256 * Z.to_N (a + b) + 65536 * Z.to_N (a + b + c) + 16777216 * Z.to_N (a + b + c + d)) + Z.to_N (b + c + d + 256 * (c + d) + 65536 * d) * 4294967296)%N) by lia.
    rewrite E, N.mod_add by lia. rewrite N.mod_small by lia.
    replace ((Z.to_N a + 256 * Z.to_N (a + b) + 65536 * Z.to_N (a + b + c) + 16777216 * Z.to_N (a + b + c + d)) / 16777216)%N with (Z.to_N (a + b + c + d)); [lia|].
    apply N.div_unique with (r := (Z.to_N a + 256 * Z.to_N (a + b) + 65536 * Z.to_N (a + b + c))%N); lia. }
  rewrite E. lia.
Qed.

Lemma bind_two (X : M N) (g : N -> M N) (f : N -> M N) v w m (a : Z) :
  (hi <- X ;; ret (N.lor hi v)) m = Ok (w, m) -> (forall h, g h = f (N.lor h v)) -> 
  (hi <- X ;; h <- g hi ;; ret (h, a)) m = (h <- f w ;; ret (h, a)) m.
Proof.
  unfold bind, ret. intros H G. destruct (X m) as [[y m1]| |]; try discriminate. injection H as <- ->. rewrite G. reflexivity.
Qed.

Lemma slow_eol_ok i p col f1 f2 f3 f4 m :
  length f1 = 8%nat -> length f2 = 8%nat -> length f3 = 8%nat -> length f4 = 8%nat ->
  let fs := (f1 ++ f2) ++ f3 ++ f4 in
  col < 0 -> 0 <= col + tot fs ->
  neon_slow_eol (i + 32) (p + tot fs) (col + tot fs) (mask_of f1) (mask_of f2) (mask_of f3) (mask_of f4) (tot f1) (tot f3) (tot f4) (tot fs) m =
  Ok (let '(k, q) := cut fs (- col) in Eol (i + k) (p + q), m).
Proof.
  intros H1 H2 H3 H4 fs Hc Hc'. unfold neon_slow_eol. rewrite !expand_lut by assumption.
  assert (Ht : tot fs = tot (f1 ++ f2) + tot (f3 ++ f4)) by (unfold fs; apply tot_app).
  assert (Ht2 : tot (f3 ++ f4) = tot f3 + tot f4) by apply tot_app.
  assert (Hr12 := tot_range (f1 ++ f2)). assert (Hr34 := tot_range (f3 ++ f4)).
  assert (L12 : zlen (f1 ++ f2) = 16) by (unfold zlen; rewrite app_length; lia).
  assert (L34 : zlen (f3 ++ f4) = 16) by (unfold zlen; rewrite app_length; lia).
  assert (Z1 : zlen f1 = 8) by (unfold zlen; lia). assert (Z2 : zlen f2 = 8) by (unfold zlen; lia).
  assert (Z3 : zlen f3 = 8) by (unfold zlen; lia). assert (Z4 : zlen f4 = 8) by (unfold zlen; lia).
  unfold fs. rewrite cut_app by lia. fold fs.
  set (inA := - col <=? tot (f1 ++ f2)).
  set (fh := if inA then f1 ++ f2 else f3 ++ f4).
  set (T := if inA then - col else - col - tot (f1 ++ f2)).
  assert (HT : 1 <= T <= tot fh) by (unfold T, fh, inA; destruct (- col <=? tot (f1 ++ f2)) eqn:E; lia).
  assert (Lh : zlen fh = 16) by (unfold fh; destruct inA; assumption).
  assert (Th := tot_range fh).
  set (r := skipn (Z.to_nat (T - 1)) (eqs fh)).
  cbv zeta.
  erewrite bind_ok.
  2:{ instantiate (1 := m). instantiate (1 := (mask_of r, i + 32 - (if inA then 16 - tot (f3 ++ f4) else 0))).
      unfold r, fh, T, inA in *. destruct (- col <=? tot (f1 ++ f2)) eqn:E.
      - destruct (tot f3 + tot f4 - (col + tot fs) - 1 <? 0) eqn:E2; [|lia].
        rewrite (bind_two _ _ (fun h => shr32 h (tot fs - (col + tot fs) - 1)) _ _ _ _ (join_int f1 f2 (tot f1) m eq_refl Z1 Z2) (fun h => eq_refl)).
        erewrite bind_ok by (apply shr_run; lia). unfold ret. f_equal. f_equal. f_equal; [|lia]. do 3 f_equal. lia.
      - destruct (tot f3 + tot f4 - (col + tot fs) - 1 <? 0) eqn:E2; [lia|].
        rewrite (bind_two _ _ (fun h => shr32 h (tot f3 + tot f4 - (col + tot fs) - 1)) _ _ _ _ (join_int f3 f4 (tot f3) m eq_refl Z3 Z4) (fun h => eq_refl)).
        erewrite bind_ok by (apply shr_run; lia). unfold ret. f_equal. f_equal. f_equal; [|lia]. do 3 f_equal. lia. }
  cbv beta iota.
  assert (Er : exists n, (if inA then cut (f1 ++ f2) (- col) else let '(k, q) := cut (f3 ++ f4) (- col - tot (f1 ++ f2)) in (zlen (f1 ++ f2) + k, tot (f1 ++ f2) + q))
     = (let '(k, q) := cut fh T in (n + k, (if inA then 0 else tot (f1 ++ f2)) + q)) /\ n = if inA then 0 else 16).
  { exists (if inA then 0 else 16). split; [|reflexivity]. unfold fh, T. destruct inA.
    - destruct (cut (f1 ++ f2) (- col)) as [k q]. reflexivity.
    - rewrite L12. reflexivity. }
  destruct Er as (n & Er & Hn). rewrite Er. clear Er.
  destruct (cut_eqs fh T HT) as [C1 C2]. cbv zeta in C1, C2. fold r in C1, C2. rewrite C2. cbv iota beta. clear C2.
  rewrite land1_mask, count_int by (unfold zlen in C1; lia). unfold ret.
  replace (Z.of_N (N.b2n (nth 0 r false))) with (bz1 (nth 0 r false)) by (destruct (nth 0 r false); reflexivity).
  generalize (bz1 (nth 0 r false)). intro b. f_equal. f_equal. apply eol_eq.
  - rewrite Hn, Lh. unfold fh, T in *. destruct inA; lia.
  - unfold T. destruct inA; lia.
Qed.

Section Kernel.
Variable v8 : bool.
Variable B : bufs.

Lemma four_stores m p x1 x2 x3 x4 w1 w2 w3 w4 k1 :
  (exists j, x1 = w1 ++ j /\ zlen j <= k1) -> (exists j, x2 = w2 ++ j /\ zlen j <= 8) ->
  (exists j, x3 = w3 ++ j /\ zlen j <= 8) -> (exists j, x4 = w4 ++ j /\ zlen j <= 8) ->
  zlen x1 = 16 -> zlen x2 = 16 -> zlen x3 = 16 -> zlen x4 = 16 -> k1 <= 16 ->
  8 <= zlen w2 -> 8 <= zlen w3 -> 8 <= zlen w4 ->
  wlo B <= p -> p + zlen w1 + zlen w2 + zlen w3 + zlen w4 + 8 <= whi B ->
  exists m1 m2 m3 m4, store_n B p x1 m = Ok (tt, m1) /\ store_n B (p + zlen w1) x2 m1 = Ok (tt, m2) /\
    store_n B (p + zlen w1 + zlen w2) x3 m2 = Ok (tt, m3) /\ store_n B (p + zlen w1 + zlen w2 + zlen w3) x4 m3 = Ok (tt, m4) /\
    wrote m m4 p (w1 ++ w2 ++ w3 ++ w4) 8.
Proof.
  intros (j1 & E1 & J1) (j2 & E2 & J2) (j3 & E3 & J3) (j4 & E4 & J4) X1 X2 X3 X4 Hk W2 W3 W4 Hlo Hhi.
  pose proof (zlen_nonneg w1).
  assert (A1 : zlen x1 = zlen w1 + zlen j1) by (rewrite E1; apply zlen_app). assert (A2 : zlen x2 = zlen w2 + zlen j2) by (rewrite E2; apply zlen_app).
  assert (A3 : zlen x3 = zlen w3 + zlen j3) by (rewrite E3; apply zlen_app). assert (A4 : zlen x4 = zlen w4 + zlen j4) by (rewrite E4; apply zlen_app).
  destruct (wrote_store B m m p p [] x1 w1 j1 0 (wrote_nil m p) E1) as (m1 & S1 & V1); auto; try lia; [change (zlen (@nil byte)) with 0; lia|].
  destruct (wrote_store B m m1 p (p + zlen w1) _ x2 w2 j2 _ V1 E2) as (m2 & S2 & V2); auto; try lia.
  destruct (wrote_store B m m2 p (p + zlen w1 + zlen w2) _ x3 w3 j3 _ V2 E3) as (m3 & S3 & V3); auto; try lia; [rewrite !zlen_app; change (zlen (@nil byte)) with 0; lia|].
  destruct (wrote_store B m m3 p (p + zlen w1 + zlen w2 + zlen w3) _ x4 w4 j4 _ V3 E4) as (m4 & S4 & V4); auto; try lia; [rewrite !zlen_app; change (zlen (@nil byte)) with 0; lia|].
  exists m1, m2, m3, m4. do 4 (split; [assumption|]). eapply wrote_weaken; [exact J4|]. rewrite <- !app_assoc in V4. exact V4.
Qed.

Lemma slow_ok i p col f1 f2 f3 f4 da db merged m :
  length f1 = 8%nat -> length f2 = 8%nat -> length f3 = 8%nat -> length f4 = 8%nat ->
  let fs := (f1 ++ f2) ++ f3 ++ f4 in
  length da = 16%nat -> length db = 16%nat -> packs v8 f1 f2 f3 f4 merged ->
  col < 0 -> wlo B <= p -> p + tot fs + 8 <= whi B ->
  exists m', neon_slow v8 B (i + 32) p col da db (mask_of (flat v8 f1 f2 f3 f4)) merged m =
      Ok (if col + tot fs <? 0 then Next (p + tot fs) (col + tot fs) else let '(k, q) := cut fs (- col) in Eol (i + k) (p + q), m') /\
    wrote m m' p (weave fs (da ++ db)) 8.
Proof.
  intros H1 H2 H3 H4 fs Ha Hb HP Hc Hlo Hhi. unfold neon_slow.
  destruct (quarters_ok v8 f1 f2 f3 f4 H1 H2 H3 H4 merged HP) as (packed & -> & Hpk).
  destruct (neon_halves v8 da (mask_of f1) (mask_of f2)) as [x1 x2] eqn:Ea.
  destruct (neon_halves v8 db (mask_of f3) (mask_of f4)) as [x3 x4] eqn:Eb.
  change 0x08080808%N with (0x08080808 - Z.to_N 0)%N. rewrite (lens_ok f1 f2 f3 f4 H1 H2 H3 H4 packed 0 Hpk) by auto. rewrite !Z.sub_0_r. fold fs.
  destruct (half_text v8 da f1 f2 x1 x2 H1 H2 Ha Ea) as [[A1 A2] [A3 A4]]. destruct (half_text v8 db f3 f4 x3 x4 H3 H4 Hb Eb) as [[B1 B2] [B3 B4]].
  assert (PA : length (part 0 8 da) = 8%nat) by (apply part_len; lia). assert (PA' : length (part 8 8 da) = 8%nat) by (apply part_len; lia).
  assert (PB : length (part 0 8 db) = 8%nat) by (apply part_len; lia). assert (PB' : length (part 8 8 db) = 8%nat) by (apply part_len; lia).
  assert (R : forall o, length o = 8%nat -> 8 <= tot o <= 16) by (intros o Ho; pose proof (tot_range o) as T; unfold zlen in T; lia).
  pose proof (R f1 H1). pose proof (R f2 H2). pose proof (R f3 H3). pose proof (R f4 H4).
  destruct (piece x1 f1 _ A1 A2 H1 PA) as (j1 & J1 & J1'). destruct (piece x2 f2 _ A3 A4 H2 PA') as (j2 & J2 & J2').
  destruct (piece x3 f3 _ B1 B2 H3 PB) as (j3 & J3 & J3'). destruct (piece x4 f4 _ B3 B4 H4 PB') as (j4 & J4 & J4').
  assert (W1 : zlen (weave f1 (part 0 8 da)) = tot f1) by (apply weave_len; lia). assert (W2 : zlen (weave f2 (part 8 8 da)) = tot f2) by (apply weave_len; lia).
  assert (W3 : zlen (weave f3 (part 0 8 db)) = tot f3) by (apply weave_len; lia). assert (W4 : zlen (weave f4 (part 8 8 db)) = tot f4) by (apply weave_len; lia).
  assert (Ht : tot fs = tot f1 + tot f2 + tot f3 + tot f4) by (unfold fs; rewrite !tot_app; lia).
  destruct (four_stores m p x1 x2 x3 x4 (weave f1 (part 0 8 da)) (weave f2 (part 8 8 da)) (weave f3 (part 0 8 db)) (weave f4 (part 8 8 db)) 8)
    as (m1 & m2 & m3 & m4 & S1 & S2 & S3 & S4 & W); try (eexists; split; [eassumption|lia]); try (unfold zlen; lia); try lia.
  rewrite W1, W2, W3 in *.
  erewrite bind_ok by exact S1. erewrite bind_ok by exact S2. erewrite bind_ok by exact S3. erewrite bind_ok by exact S4. cbv zeta.
  exists m4. split.
  - replace (p + tot f1 + tot f2 + tot f3 + tot f4) with (p + tot fs) by lia.
    destruct (col + tot fs <? 0) eqn:E; (destruct (0 <=? col + tot fs) eqn:E2; [try lia|try lia]); [reflexivity|].
    apply slow_eol_ok; auto. fold fs. lia.
  - unfold fs. rewrite weave_app by (rewrite app_length; lia). rewrite !halves_weave by assumption. rewrite <- app_assoc. exact W.
Qed.

(** ** At most one character to escape *)

Definition flat32 (fs : list bool) : list bool := flat v8 (firstn 8 fs) (firstn 8 (skipn 8 fs)) (firstn 8 (skipn 16 fs)) (firstn 8 (skipn 24 fs)).
Definition single (n : nat) : list bool := repeat false n ++ true :: repeat false (31 - n).

(** [neon_one] with the masks as flags. *)
Lemma one_sel bi fa fb a b :
  neon_one v8 bi (vm fa) (vm fb) a b =
  (sel (map2 (fun x y => bz y <=? bz x) (fst (blend_tables v8)) (neon_vclz v8 bi)) (sel fa (v_set1 61) a) (v_ext a a 15),
   sel (map2 (fun x y => bz y <=? bz x) (snd (blend_tables v8)) (neon_vclz v8 bi)) (sel fb (v_set1 61) b) (v_ext a b 15)).
Proof. unfold neon_one. rewrite !cge_vm, !bsl_vm. reflexivity. Qed.

Lemma one_none a b : length a = 16%nat -> length b = 16%nat ->
  neon_one v8 (clz_n v8 (mask_of (flat32 (repeat false 32)))) (vm (repeat false 16)) (vm (repeat false 16)) a b = (a, b).
Proof. intros Ha Hb. rewrite one_sel. sixteen a Ha. sixteen b Hb. unfold flat32; destruct v8; vm_compute; reflexivity. Qed.

Lemma one_single n a b : (n < 32)%nat -> length a = 16%nat -> length b = 16%nat ->
  let '(x, y) := neon_one v8 (clz_n v8 (mask_of (flat32 (single n)))) (vm (firstn 16 (single n))) (vm (skipn 16 (single n))) a b in
  (x ++ y) ++ [nth 15 b x00] = weave (single n) (a ++ b) /\ length x = 16%nat /\ length y = 16%nat.
Proof.
  intros Hn Ha Hb. rewrite one_sel. sixteen a Ha. sixteen b Hb.
  do 32 (destruct n as [|n]; [unfold flat32; destruct v8; vm_compute; repeat split; reflexivity|]). lia.
Qed.

Lemma index_single n : (n < 32)%nat ->
  (let bi := clz_n v8 (mask_of (flat32 (single n))) in if v8 then bi - Z.shiftl (Z.shiftr (bi + 4) 4) 3 else bi) = 31 - Z.of_nat n /\
  N.eqb (mask_of (flat32 (single n))) 0 = false.
Proof. intro Hn. do 32 (destruct n as [|n]; [unfold flat32; destruct v8; vm_compute; split; reflexivity|]). lia. Qed.

Lemma fast_ok i p col fs da db m :
  length fs = 32%nat -> length da = 16%nat -> length db = 16%nat -> tot fs <= 33 ->
  col < 0 -> wlo B <= p -> p + tot fs + 8 <= whi B ->
  exists m', neon_fast v8 B (i + 32) p col (vm (firstn 16 fs)) (vm (skipn 16 fs)) da db (mask_of (flat32 fs)) m =
      Ok (if col + tot fs <? 0 then Next (p + tot fs) (col + tot fs) else let '(k, q) := cut fs (- col) in Eol (i + k) (p + q), m') /\
    wrote m m' p (weave fs (da ++ db)) 8.
Proof.
  intros Hf Ha Hb Ht Hc Hlo Hhi. unfold neon_fast. cbv zeta.
  pose proof (tot_range fs) as T. assert (Zf : zlen fs = 32) by (unfold zlen; lia). rewrite Zf in T.
  assert (Zab : zlen (da ++ db) = 32) by (rewrite zlen_app; unfold zlen; lia).
  destruct (Z.eq_dec (tot fs) 32) as [E|E].
  - assert (Ef : fs = repeat false 32) by (rewrite <- Hf; apply tot_none; lia). rewrite Ef in *. clear fs Ef.
    change (firstn 16 (repeat false 32)) with (repeat false 16). change (skipn 16 (repeat false 32)) with (repeat false 16).
    rewrite one_none by assumption.
    erewrite bind_ok by (apply store_n_put; lia). erewrite bind_ok by (apply store_w; lia).
    assert (Em : mask_of (flat32 (repeat false 32)) = 0%N) by (unfold flat32; destruct v8; vm_compute; reflexivity). rewrite Em. cbn [N.eqb].
    assert (Eb : (if v8 then clz_n v8 0 - Z.shiftl (Z.shiftr (clz_n v8 0 + 4) 4) 3 else clz_n v8 0) = 32) by (unfold flat32; destruct v8; vm_compute; reflexivity). rewrite Eb.
    rewrite E, !Z.add_0_r in *.
    eexists. split.
    + destruct (col + 32 <? 0) eqn:E1; (destruct (0 <=? col + 32) eqn:E2; [try lia|try lia]); [reflexivity|].
      rewrite cut_repeat by lia. destruct (col + 32 =? 32 + 1) eqn:E3; [lia|]. destruct (32 + 1 <? col + 32) eqn:E4; [lia|]. unfold ret. f_equal. f_equal. apply eol_eq; lia.
    + exists [nth 15 db x00]. split; [cbv; congruence|]. intro x.
      replace (weave (repeat false 32) (da ++ db)) with (da ++ db); [rewrite (put_app m p (da ++ db)), Zab; reflexivity|].
      replace 32%nat with (length (da ++ db)) by (rewrite app_length; lia). symmetry. apply weave_none.
  - destruct (tot_one fs) as (n & Hn & Ef); [lia|]. rewrite Hf in Hn, Ef. replace (32 - n - 1)%nat with (31 - n)%nat in Ef by lia. fold (single n) in Ef.
    rewrite Ef in *. clear fs Ef Hf.
    pose proof (one_single n da db Hn Ha Hb) as O. destruct (neon_one v8 _ _ _ da db) as [x y]. destruct O as (O1 & O2 & O3).
    assert (Zxy : zlen (x ++ y) = 32) by (rewrite zlen_app; unfold zlen; lia).
    destruct (index_single n Hn) as [I1 I2]. cbv zeta in I1. rewrite I1, I2.
    erewrite bind_ok by (apply store_n_put; lia). erewrite bind_ok by (apply store_w; lia).
    assert (Et : tot (single n) = 33) by lia. rewrite Et in *.
    replace (p + 32 + 1) with (p + 33) by lia. replace (col + 1 + 32) with (col + 33) by lia.
    eexists. split.
    + destruct (col + 33 <? 0) eqn:E1; (destruct (0 <=? col + 33) eqn:E2; [try lia|try lia]); [reflexivity|].
      unfold single. rewrite cut_single by lia. unfold ret.
      destruct (col + 33 =? 31 - Z.of_nat n + 1) eqn:E3.
      * destruct (- col <=? Z.of_nat n) eqn:E4; [lia|]. destruct (- col =? Z.of_nat n + 1) eqn:E5; [|lia]. f_equal. f_equal. apply eol_eq; lia.
      * destruct (31 - Z.of_nat n + 1 <? col + 33) eqn:E6; destruct (- col <=? Z.of_nat n) eqn:E4; try lia;
          [|destruct (- col =? Z.of_nat n + 1) eqn:E5; [lia|]]; f_equal; f_equal; apply eol_eq; lia.
    + exists []. split; [cbv; congruence|]. intro z. rewrite app_nil_r, <- O1, (put_app m p (x ++ y)), Zxy. reflexivity.
Qed.

Lemma parts32 (fs : list bool) : length fs = 32%nat ->
  fs = (firstn 8 fs ++ firstn 8 (skipn 8 fs)) ++ firstn 8 (skipn 16 fs) ++ firstn 8 (skipn 24 fs) /\
  firstn 16 fs = firstn 8 fs ++ firstn 8 (skipn 8 fs) /\ skipn 16 fs = firstn 8 (skipn 16 fs) ++ firstn 8 (skipn 24 fs) /\
  length (firstn 8 fs) = 8%nat /\ length (firstn 8 (skipn 8 fs)) = 8%nat /\ length (firstn 8 (skipn 16 fs)) = 8%nat /\ length (firstn 8 (skipn 24 fs)) = 8%nat.
Proof.
  intro H. do 32 (destruct fs as [|? fs]; [discriminate|]). destruct fs; [|discriminate]. repeat split; reflexivity.
Qed.

Lemma neon_block_ok es : block_at_ok B false (neon_block v8 B es) es 32 8 0.
Proof.
  intros i p col ds m Hd Hb Hr1 Hr2 Hdis Hc fs o Hw1 Hw2.
  assert (Hdl : length ds = 32%nat) by (unfold zlen in Hd; lia).
  set (da := part 0 16 ds). set (db := part 16 16 ds).
  assert (Hda : length da = 16%nat) by (apply part_len; lia). assert (Hdb : length db = 16%nat) by (apply part_len; lia).
  assert (Eds : ds = da ++ db).
  { unfold da, db. rewrite part_split. unfold part. cbn [skipn]. symmetry. apply firstn_all2. cbn. lia. }
  assert (Hfl : length fs = 32%nat) by (unfold fs; rewrite esc_flags_len; exact Hdl).
  assert (Hol : zlen o = tot fs) by (apply expand_len; lia). rewrite Hol in Hw2.
  assert (Hwr : exists m', neon_block v8 B es i p col m =
      Ok (if col + tot fs <? 0 then Next (p + tot fs) (col + tot fs) else let '(k, q) := cut fs (- col) in Eol (i + k) (p + q), m') /\ wrote m m' p o 8).
  2:{ destruct Hwr as (m' & E & junk & Hj & Hm). exists junk, m'. auto. }
  assert (Efs : fs = map (must_escape false false) da ++ map (must_escape false false) db) by (unfold fs; rewrite esc_flags_mid, Eds; apply map_app).
  assert (EA : map (must_escape false false) da = firstn 16 fs).
  { rewrite Efs, firstn_app, map_length, Hda, Nat.sub_diag, firstn_O, app_nil_r. symmetry. apply firstn_all2. rewrite map_length. lia. }
  assert (EB : map (must_escape false false) db = skipn 16 fs).
  { rewrite Efs, skipn_app, map_length, Hda, Nat.sub_diag, skipn_O, skipn_all2 by (rewrite map_length; lia). reflexivity. }
  unfold neon_block.
  assert (Hla : load_n B (es + i) 16 m = Ok (da, m)) by (apply load_part with (a := es + i) (t := ds); auto; lia).
  assert (Hlb : load_n B (es + i + 16) 16 m = Ok (db, m)) by (apply load_part with (a := es + i) (t := ds); auto; lia).
  erewrite bind_ok by exact Hla. erewrite bind_ok by exact Hlb. cbv zeta. clear Hla Hlb.
  rewrite !cmp_ok, !data_ok by assumption. rewrite EA, EB.
  destruct (parts32 fs Hfl) as (P0 & PA & PB & L1 & L2 & L3 & L4).
  set (f1 := firstn 8 fs) in *. set (f2 := firstn 8 (skipn 8 fs)) in *. set (f3 := firstn 8 (skipn 16 fs)) in *. set (f4 := firstn 8 (skipn 24 fs)) in *.
  assert (Hpk := merge_ok v8 f1 f2 f3 f4 L1 L2 L3 L4). rewrite <- PA, <- PB in Hpk.
  rewrite (mask_ok v8 f1 f2 f3 f4 L1 L2 L3 L4 _ Hpk). rewrite (many_ok v8 f1 f2 f3 f4 L1 L2 L3 L4), <- P0.
  assert (Eo : o = weave fs (outd (firstn 16 fs) da ++ outd (skipn 16 fs) db)).
  { unfold o. rewrite expand_weave. f_equal. rewrite Eds. rewrite <- outd_app by (rewrite firstn_length; lia). rewrite firstn_skipn. reflexivity. }
  rewrite Eo.
  assert (La : length (outd (firstn 16 fs) da) = 16%nat) by (rewrite outd_len; [exact Hda|rewrite firstn_length; lia]).
  assert (Lb : length (outd (skipn 16 fs) db) = 16%nat) by (rewrite outd_len; [exact Hdb|rewrite skipn_length; lia]).
  destruct (1 <? tot fs - 32) eqn:Em.
  - pose proof (slow_ok i p col f1 f2 f3 f4 _ _ _ m L1 L2 L3 L4 La Lb Hpk) as S. rewrite <- P0 in S. apply S; assumption.
  - apply fast_ok; auto. lia.
Qed.

(** ** The end of a line *)

Lemma ext1 (c : byte) t : v_ext (c :: t) (c :: t) 1 = t ++ [c].
Proof.
  unfold v_ext. cbn [app skipn]. change (t ++ c :: t) with (t ++ [c] ++ t). rewrite app_assoc.
  rewrite firstn_app, app_length. cbn [length]. replace (S (length t) - (length t + 1))%nat with 0%nat by lia. rewrite firstn_O, app_nil_r.
  apply firstn_all2. rewrite app_length. cbn [length]. lia.
Qed.

Lemma eol_slow_ok L p g1 f2 f3 f4 c0 da db merged m :
  length g1 = 7%nat -> length f2 = 8%nat -> length f3 = 8%nat -> length f4 = 8%nat ->
  let r := (g1 ++ f2) ++ f3 ++ f4 in
  length da = 15%nat -> length db = 16%nat -> packs v8 (false :: g1) f2 f3 f4 merged ->
  wlo B <= p -> p + tot r + 9 <= whi B ->
  exists m', eol_slow v8 B L p (c0 :: da) db (mask_of (flat v8 (false :: g1) f2 f3 f4)) merged m = Ok ((p + tot r, tot r - L + 1), m') /\
    wrote m m' p (weave r (da ++ db)) 9.
Proof.
  intros G1 H2 H3 H4 r Ha Hb HP Hlo Hhi. unfold eol_slow.
  set (f1 := false :: g1) in *. assert (H1 : length f1 = 8%nat) by (unfold f1; cbn [length]; lia).
  destruct (quarters_ok v8 f1 f2 f3 f4 H1 H2 H3 H4 merged HP) as (packed & -> & Hpk).
  assert (Ha' : length (c0 :: da) = 16%nat) by (cbn [length]; lia).
  destruct (neon_halves v8 (c0 :: da) (mask_of f1) (mask_of f2)) as [x1 x2] eqn:Ea.
  destruct (neon_halves v8 db (mask_of f3) (mask_of f4)) as [x3 x4] eqn:Eb.
  change 0x08080807%N with (0x08080808 - Z.to_N 1)%N. rewrite (lens_ok f1 f2 f3 f4 H1 H2 H3 H4 packed 1 Hpk) by auto.
  destruct (half_text v8 (c0 :: da) f1 f2 x1 x2 H1 H2 Ha' Ea) as [[A1 A2] [A3 A4]]. destruct (half_text v8 db f3 f4 x3 x4 H3 H4 Hb Eb) as [[B1 B2] [B3 B4]].
  assert (PA : length (part 0 8 (c0 :: da)) = 8%nat) by (apply part_len; lia). assert (PA' : length (part 8 8 (c0 :: da)) = 8%nat) by (apply part_len; lia).
  assert (PB : length (part 0 8 db) = 8%nat) by (apply part_len; lia). assert (PB' : length (part 8 8 db) = 8%nat) by (apply part_len; lia).
  assert (R : forall o, length o = 8%nat -> 8 <= tot o <= 16) by (intros o Ho; pose proof (tot_range o) as T; unfold zlen in T; lia).
  pose proof (R f1 H1). pose proof (R f2 H2). pose proof (R f3 H3). pose proof (R f4 H4).
  destruct (piece x1 f1 _ A1 A2 H1 PA) as (j1 & J1 & J1'). destruct (piece x2 f2 _ A3 A4 H2 PA') as (j2 & J2 & J2').
  destruct (piece x3 f3 _ B1 B2 H3 PB) as (j3 & J3 & J3'). destruct (piece x4 f4 _ B3 B4 H4 PB') as (j4 & J4 & J4').
  assert (Ep : part 0 8 (c0 :: da) = c0 :: part 0 7 da) by reflexivity.
  assert (Ep' : part 8 8 (c0 :: da) = part 7 8 da) by reflexivity.
  rewrite Ep in *. rewrite Ep' in *. unfold f1 in J1. cbn [weave app] in J1.
  assert (Et1 : tot f1 = 1 + tot g1) by reflexivity.
  assert (W1 : zlen (weave g1 (part 0 7 da)) = tot f1 - 1) by (rewrite weave_len; [lia|]; cbn [length] in PA; lia).
  assert (W2 : zlen (weave f2 (part 7 8 da)) = tot f2) by (apply weave_len; congruence).
  assert (W3 : zlen (weave f3 (part 0 8 db)) = tot f3) by (apply weave_len; congruence). assert (W4 : zlen (weave f4 (part 8 8 db)) = tot f4) by (apply weave_len; congruence).
  assert (Ht : tot r = tot g1 + tot f2 + tot f3 + tot f4) by (unfold r; rewrite !tot_app; lia).
  rewrite J1, ext1. rewrite J1 in A2. cbn [length] in A2.
  destruct (four_stores m p ((weave g1 (part 0 7 da) ++ j1) ++ [c0]) x2 x3 x4 (weave g1 (part 0 7 da)) (weave f2 (part 7 8 da)) (weave f3 (part 0 8 db)) (weave f4 (part 8 8 db)) 9)
    as (m1 & m2 & m3 & m4 & S1 & S2 & S3 & S4 & W); try (eexists; split; [eassumption|lia]); try (unfold zlen; lia); try lia.
  { exists (j1 ++ [c0]). split; [symmetry; apply app_assoc|]. rewrite zlen_app. change (zlen [c0]) with 1. lia. }
  { unfold zlen. rewrite app_length. cbn [length]. lia. }
  rewrite W1, W2, W3 in *.
  erewrite bind_ok by exact S1. erewrite bind_ok by exact S2. erewrite bind_ok by exact S3. erewrite bind_ok by exact S4. cbv zeta.
  exists m4. split.
  - unfold ret. rewrite !tot_app. f_equal. f_equal. apply f_equal2; lia.
  - eapply wrote_weaken with (k := 8); [lia|]. unfold r. rewrite weave_app by (rewrite app_length; lia). rewrite (halves_weave f3 f4) by assumption.
    assert (Ed : weave (g1 ++ f2) da = weave g1 (part 0 7 da) ++ weave f2 (part 7 8 da)).
    { rewrite <- weave_app by (cbn [length] in PA; lia). f_equal. rewrite part_split. unfold part. cbn [skipn]. symmetry. apply firstn_all2. cbn. lia. }
    rewrite Ed, <- app_assoc. exact W.
Qed.

Lemma eol_one_sel bi fa fb a b :
  eol_one v8 bi (vm fa) (vm fb) a b =
  (sel (map2 (fun x y => bz y <? bz x) (fst (blend_tables v8)) (neon_vclz v8 bi)) (v_ext (sel fa (v_set1 61) a) (sel fb (v_set1 61) b) 1) a,
   sel (map2 (fun x y => bz y <? bz x) (snd (blend_tables v8)) (neon_vclz v8 bi)) (v_ext (sel fb (v_set1 61) b) (sel fb (v_set1 61) b) 1) b).
Proof. unfold eol_one. rewrite !cgt_vm, !bsl_vm. reflexivity. Qed.

Lemma eol_one_none f0 c0 a b : length a = 15%nat -> length b = 16%nat ->
  let '(x, y) := eol_one v8 (clz_n v8 (mask_of (flat32 (repeat false 32)))) (vm (f0 :: repeat false 15)) (vm (repeat false 16)) (c0 :: a) b in
  firstn 31 (x ++ y) = a ++ b /\ length (x ++ y) = 32%nat.
Proof.
  intros Ha Hb. rewrite eol_one_sel. do 15 (destruct a as [|? a]; [discriminate Ha|]). destruct a; [|discriminate]. sixteen b Hb.
  unfold flat32. destruct v8, f0; vm_compute; split; reflexivity.
Qed.

Definition single31 (n : nat) : list bool := repeat false n ++ true :: repeat false (30 - n).

Lemma eol_one_single f0 n c0 a b : (n < 31)%nat -> length a = 15%nat -> length b = 16%nat ->
  let '(x, y) := eol_one v8 (clz_n v8 (mask_of (flat32 (false :: single31 n)))) (vm (f0 :: firstn 15 (single31 n))) (vm (skipn 15 (single31 n))) (c0 :: a) b in
  x ++ y = weave (single31 n) (a ++ b) /\ N.eqb (mask_of (flat32 (false :: single31 n))) 0 = false.
Proof.
  intros Hn Ha Hb. rewrite eol_one_sel. do 15 (destruct a as [|? a]; [discriminate Ha|]). destruct a; [|discriminate]. sixteen b Hb.
  do 31 (destruct n as [|n]; [unfold flat32; destruct v8, f0; vm_compute; split; reflexivity|]). lia.
Qed.

Lemma eol_fast_ok L p f0 r c0 da db m :
  length r = 31%nat -> length da = 15%nat -> length db = 16%nat -> tot r <= 32 ->
  wlo B <= p -> p + tot r + 9 <= whi B ->
  exists m', eol_fast v8 B L p (vm (f0 :: firstn 15 r)) (vm (skipn 15 r)) (c0 :: da) db (mask_of (flat32 (false :: r))) m = Ok ((p + tot r, tot r - L + 1), m') /\
    wrote m m' p (weave r (da ++ db)) 9.
Proof.
  intros Hf Ha Hb Ht Hlo Hhi. unfold eol_fast.
  pose proof (tot_range r) as T. assert (Zf : zlen r = 31) by (unfold zlen; lia). rewrite Zf in T.
  destruct (Z.eq_dec (tot r) 31) as [E|E].
  - assert (Ef : r = repeat false 31) by (rewrite <- Hf; apply tot_none; lia). rewrite Ef in *. clear r Ef.
    change (firstn 15 (repeat false 31)) with (repeat false 15). change (skipn 15 (repeat false 31)) with (repeat false 16). change (false :: repeat false 31) with (repeat false 32).
    pose proof (eol_one_none f0 c0 da db Ha Hb) as O. destruct (eol_one v8 _ _ _ (c0 :: da) db) as [x y]. destruct O as [O1 O2].
    assert (Zxy : zlen (x ++ y) = 32) by (unfold zlen; lia).
    erewrite bind_ok by (apply store_n_put; lia).
    assert (Em : mask_of (flat32 (repeat false 32)) = 0%N) by (unfold flat32; destruct v8; vm_compute; reflexivity). rewrite Em. cbn [N.eqb]. cbv zeta.
    eexists. split; [unfold ret; f_equal; f_equal; apply f_equal2; lia|].
    exists (skipn 31 (x ++ y)). split; [unfold zlen; rewrite skipn_length; lia|]. intro z.
    replace (weave (repeat false 31) (da ++ db)) with (da ++ db).
    + rewrite <- O1, firstn_skipn. reflexivity.
    + replace 31%nat with (length (da ++ db)) by (rewrite app_length; lia). symmetry. apply weave_none.
  - destruct (tot_one r) as (n & Hn & Ef); [lia|]. rewrite Hf in Hn, Ef. replace (31 - n - 1)%nat with (30 - n)%nat in Ef by lia. fold (single31 n) in Ef.
    rewrite Ef in *. clear r Ef Hf.
    pose proof (eol_one_single f0 n c0 da db Hn Ha Hb) as O. destruct (eol_one v8 _ _ _ (c0 :: da) db) as [x y]. destruct O as (O1 & O2).
    assert (Zxy : zlen (x ++ y) = tot (single31 n)).
    { rewrite O1. apply weave_len. rewrite app_length. unfold zlen in Zf. lia. }
    erewrite bind_ok by (apply store_n_put; lia). rewrite O2. cbv zeta.
    eexists. split; [unfold ret; f_equal; f_equal; apply f_equal2; lia|].
    exists []. split; [cbv; congruence|]. intro z. rewrite app_nil_r, <- O1. reflexivity.
Qed.

Lemma mask_xor1 r : N.lxor (mask_of (true :: r)) 1 = mask_of (false :: r).
Proof.
  cbn [mask_of N.b2n]. apply N.bits_inj. intro k. rewrite N.lxor_spec, N.add_0_l. destruct (N.eq_dec k 0) as [->|Hk].
  - rewrite N.testbit_even_0, N.add_comm, N.testbit_odd_0. reflexivity.
  - replace k with (N.succ (N.pred k)) by lia. rewrite N.add_comm, N.testbit_odd_succ, N.testbit_even_succ by lia.
    change 1%N with (2 * 0 + 1)%N. rewrite N.testbit_odd_succ, N.bits_0 by lia. apply xorb_false_r.
Qed.

Lemma flat_cons g1 f2 f3 f4 : exists r, forall b, flat v8 (b :: g1) f2 f3 f4 = b :: r.
Proof.
  exists (tl (flat v8 (false :: g1) f2 f3 f4)). unfold flat, octs. destruct v8; reflexivity.
Qed.

Lemma bo_clear g : length g = 7%nat -> b_andnot (u8 1) (bo (true :: g)) = bo (false :: g).
Proof.
  intro H. do 7 (destruct g as [|[] g]; [discriminate H| |]; try discriminate H); (destruct g; [|discriminate H]); vm_compute; reflexivity.
Qed.
Lemma bo_clear4 a b c : b_andnot (u8 1) (bo [true; a; b; c; false; false; false; false]) = bo [false; a; b; c; false; false; false; false].
Proof. apply bo_clear. reflexivity. Qed.

Lemma bic_firstn n : forall (l : vec) c, firstn n (v_bic l c) = v_bic (firstn n l) (firstn n c).
Proof. unfold v_bic. induction n as [|n IH]; intros [|x l] [|y c]; try reflexivity. cbn [map2 firstn]. rewrite IH. reflexivity. Qed.
Lemma bic_zero l : forall n, (length l <= n)%nat -> v_bic l (repeat x00 n) = l.
Proof.
  unfold v_bic. induction l as [|x l IH]; intros [|n] H; try reflexivity; cbn in H; [lia|]. cbn [repeat map2]. rewrite IH by lia. destruct x; reflexivity.
Qed.

Lemma packs_clear g1 f2 f3 f4 merged : length g1 = 7%nat -> length f2 = 8%nat -> length f3 = 8%nat -> length f4 = 8%nat ->
  packs v8 (true :: g1) f2 f3 f4 merged -> packs v8 (false :: g1) f2 f3 f4 (v_bic merged (u8 1 :: repeat x00 15)).
Proof.
  unfold packs. intros G1 H2 H3 H4 P. rewrite bic_firstn, P. unfold octs. destruct v8.
  - cbn [flat_map app map firstn repeat]. set (t := bo (z4 ++ skipn 4 (true :: g1)) :: _).
    change (u8 1 :: [x00; x00; x00; x00; x00; x00; x00]) with (u8 1 :: repeat x00 7). unfold v_bic. cbn [map2]. fold (v_bic t (repeat x00 7)).
    rewrite bic_zero by (cbn; lia). unfold t. cbn [skipn]. f_equal.
    do 3 (destruct g1 as [|? g1]; [discriminate|]). apply bo_clear4.
  - cbn [map firstn repeat]. set (t := bo f2 :: _).
    change (u8 1 :: [x00; x00; x00]) with (u8 1 :: repeat x00 3). unfold v_bic. cbn [map2]. fold (v_bic t (repeat x00 3)).
    rewrite bic_zero by (cbn; lia). f_equal. apply bo_clear. exact G1.
Qed.

Lemma neon_eol_ok L es : 64 <= L -> eol_ok B (neon_eol v8 B L es) es 63 L 32.
Proof.
  intros HL all c0 dest i p col m o e rest Hr G I Hlen Hc Hcase HC Hroom. unfold neon_eol.
  (* the characters *)
  set (ds := firstn 31 rest). set (rest' := skipn 31 rest).
  assert (Er : rest = ds ++ rest') by (symmetry; apply firstn_skipn).
  rewrite zlen_cons in Hlen.
  assert (Hds : length ds = 31%nat) by (unfold ds; rewrite firstn_length; unfold zlen in Hlen; lia).
  set (fs := must_escape false true e :: esc_flags true ds).
  set (r := esc_flags true ds) in *.
  assert (Hrl : length r = 31%nat) by (unfold r; rewrite esc_flags_len; exact Hds).
  assert (Hxl : zlen (expand r ds) = tot r) by (apply expand_len; lia).
  pose proof (tot_range r) as Tr. assert (Zr : zlen r = 31) by (unfold zlen; lia). rewrite Zr in Tr.
  assert (Hne : rest <> []) by (intros ->; discriminate Hds).
  assert (HC1 : cont L c0 all 0 (o ++ (enc_char false true e ++ [CR; LF])) (ds ++ rest')).
  { eapply cont_trans; [exact HC|]. rewrite <- Er. apply cont_last; try lia; [exact Hne|].
    destruct Hcase as [?|[? ?]]; [left; lia|right; split; [lia|assumption]]. }
  assert (HC2 : cont L 0 (ds ++ rest') (0 + zlen (expand r ds)) (expand r ds) rest').
  { unfold r. apply cont_block; try lia. change (0 =? 0) with true. fold r. lia. }
  pose proof (cont_trans _ _ _ _ _ _ _ _ _ HC1 HC2) as HC3. clear HC1 HC2. rewrite Z.add_0_l, Hxl in HC3.
  pose proof (cont_room _ _ _ _ _ _ HC3) as Hrm. rewrite !zlen_app, Hxl in Hrm. change (zlen [CR; LF]) with 2 in Hrm.
  pose proof (zlen_nonneg (yenc L false (tot r) rest')). pose proof (zlen_nonneg o).
  assert (Hil := inv_len _ _ _ _ _ _ _ I). rewrite zlen_cons in Hil. assert (Hp := inv_p _ _ _ _ _ _ _ I).
  pose proof (enc_char_len false true e) as Hel.
  (* loads *)
  set (v := e :: ds). set (da := part 0 16 v). set (db := part 16 16 v).
  assert (Hv : length v = 32%nat) by (unfold v; cbn [length]; lia).
  assert (Hda : length da = 16%nat) by (apply part_len; lia). assert (Hdb : length db = 16%nat) by (apply part_len; lia).
  assert (Ev : v = da ++ db).
  { unfold da, db. rewrite part_split. unfold part. cbn [skipn]. symmetry. apply firstn_all2. rewrite Hv. apply le_n. }
  assert (Hb : bytes_at m (es + i) v).
  { destruct I as [J1 _ _ _]. replace (es + 63 + (i - 63)) with (es + i) in J1 by lia. rewrite Er in J1.
    change (e :: ds ++ rest') with (v ++ rest') in J1. apply bytes_at_app in J1. apply J1. }
  assert (Hvz : zlen v = 32) by (unfold zlen; lia).
  assert (Hla : load_n B (es + i) 16 m = Ok (da, m)) by (apply load_part with (a := es + i) (t := v); auto; destruct G; lia).
  assert (Hlb : load_n B (es + i + 16) 16 m = Ok (db, m)) by (apply load_part with (a := es + i) (t := v); auto; destruct G; lia).
  erewrite bind_ok by exact Hla. erewrite bind_ok by exact Hlb. cbv zeta. clear Hla Hlb.
  (* flags *)
  assert (Hfl : length fs = 32%nat) by (unfold fs; cbn [length]; lia).
  assert (Da : da = e :: firstn 15 ds) by reflexivity. assert (Db : db = skipn 15 ds).
  { unfold db, part, v. change (skipn 16 (e :: ds)) with (skipn 15 ds). apply firstn_all2. rewrite skipn_length. lia. }
  assert (Fa : eol_flags da = firstn 16 fs).
  { rewrite Da. cbn [eol_flags]. unfold fs. rewrite firstn_cons. f_equal. unfold r. rewrite esc_flags_firstn. reflexivity. }
  assert (Fb : map (must_escape false false) db = skipn 16 fs).
  { rewrite Db. unfold fs, r. destruct ds as [|d0 ds0]; [discriminate|].
    change (map (must_escape false false) (skipn 14 ds0) = skipn 14 (map (must_escape false false) ds0)). symmetry. apply skipn_map. }
  rewrite eol_cmp_ok, eol_data_ok, cmp_ok, data_ok by assumption. rewrite Fa, Fb.
  set (oa := outd (firstn 16 fs) da). set (ob := outd (skipn 16 fs) db).
  assert (Eo : oa ++ ob = outd fs v).
  { unfold oa, ob. rewrite <- outd_app by (rewrite firstn_length; lia). rewrite firstn_skipn, <- Ev. reflexivity. }
  assert (Lob : length ob = 16%nat) by (unfold ob; rewrite outd_len; [exact Hdb|rewrite skipn_length; lia]).
  assert (Loa : length oa = 16%nat) by (unfold oa; rewrite outd_len; [exact Hda|rewrite firstn_length; lia]).
  destruct oa as [|a0 oa'] eqn:Eoa; [discriminate|]. cbn [length] in Loa.
  assert (Eo2 : a0 = fin1 (must_escape false true e) e /\ oa' ++ ob = outd r ds).
  { unfold fs, v, outd in Eo. cbn [app map2] in Eo. injection Eo as E1 E2. split; [exact E1|exact E2]. }
  destruct Eo2 as [Ea0 Eo2]. cbn [nth].
  assert (Etext : expand r ds = weave r (oa' ++ ob)) by (rewrite Eo2; apply expand_weave).
  destruct (parts32 fs Hfl) as (P0 & PA & PB & L1 & L2 & L3 & L4).
  set (g1 := firstn 7 r). assert (E1 : firstn 8 fs = must_escape false true e :: g1) by reflexivity.
  assert (Lg : length g1 = 7%nat) by (unfold g1; rewrite firstn_length; lia).
  set (f2 := firstn 8 (skipn 8 fs)) in *. set (f3 := firstn 8 (skipn 16 fs)) in *. set (f4 := firstn 8 (skipn 24 fs)) in *.
  assert (Erp : r = (g1 ++ f2) ++ f3 ++ f4).
  { rewrite E1 in P0. unfold fs in P0. cbn [app] in P0. injection P0 as P0. exact P0. }
  assert (Efl : flat32 (false :: r) = flat v8 (false :: g1) f2 f3 f4) by reflexivity.
  assert (Hpk := merge_ok v8 (firstn 8 fs) f2 f3 f4 L1 L2 L3 L4). rewrite <- PA, <- PB in Hpk.
  rewrite (mask_ok v8 (firstn 8 fs) f2 f3 f4 L1 L2 L3 L4 _ Hpk).
  set (merged := neon_merge v8 (vm (firstn 16 fs)) (vm (skipn 16 fs))) in *. rewrite E1 in Hpk |- *.
  destruct (flat_cons g1 f2 f3 f4) as (rr & Err).
  (* the last character *)
  set (w := enc_char false true e ++ [CR; LF]).
  assert (Hw : zlen w = zlen (enc_char false true e) + 2) by (unfold w; rewrite zlen_app; reflexivity).
  assert (Hfirst : exists merged' x, zlen x <= 1 /\ packs v8 (false :: g1) f2 f3 f4 merged' /\
    (if N.eqb (N.land (mask_of (flat v8 (must_escape false true e :: g1) f2 f3 f4)) 1) 1
     then store32 B p (bz a0 * 256 + 168624189) ;;; ret (p + 4, N.lxor (mask_of (flat v8 (must_escape false true e :: g1) f2 f3 f4)) 1, v_bic merged (u8 1 :: repeat x00 15))
     else store32 B p (bz a0 + 658688) ;;; ret (p + 3, mask_of (flat v8 (must_escape false true e :: g1) f2 f3 f4), merged)) m =
    Ok ((p + zlen w, mask_of (flat v8 (false :: g1) f2 f3 f4), merged'), put m p (w ++ x))).
  { rewrite Ea0. unfold fin1. rewrite !Err. rewrite land1_mask. cbn [nth].
    destruct (must_escape false true e) eqn:Ee.
    - cbn [N.b2n N.eqb Pos.eqb]. exists (v_bic merged (u8 1 :: repeat x00 15)), [].
      split; [cbv; congruence|]. split; [apply packs_clear; assumption|].
      erewrite bind_ok by (apply store32_run; destruct G; lia). rewrite mask_xor1, app_nil_r. unfold ret.
      assert (Ew : [u8 (bz (u8 (bz e + 106)) * 256 + 168624189); u8 ((bz (u8 (bz e + 106)) * 256 + 168624189) / 256); u8 ((bz (u8 (bz e + 106)) * 256 + 168624189) / 65536); u8 ((bz (u8 (bz e + 106)) * 256 + 168624189) / 16777216)] = w).
      { unfold w, enc_char. rewrite Ee. clear. destruct e; vm_compute; reflexivity. }
      rewrite Ew. f_equal. f_equal. f_equal. f_equal. assert (zlen w = 4) by (unfold w, enc_char; rewrite Ee; reflexivity). lia.
    - cbn [N.b2n N.eqb]. exists merged, [NUL].
      split; [cbv; congruence|]. split; [exact Hpk|].
      erewrite bind_ok by (apply store32_run; destruct G; lia). unfold ret.
      assert (Ew : [u8 (bz (u8 (bz e + 42)) + 658688); u8 ((bz (u8 (bz e + 42)) + 658688) / 256); u8 ((bz (u8 (bz e + 42)) + 658688) / 65536); u8 ((bz (u8 (bz e + 42)) + 658688) / 16777216)] = w ++ [NUL]).
      { unfold w, enc_char. rewrite Ee. clear. destruct e; vm_compute; reflexivity. }
      rewrite Ew. f_equal. f_equal. f_equal. f_equal. assert (zlen w = 3) by (unfold w, enc_char; rewrite Ee; reflexivity). lia. }
  destruct Hfirst as (merged' & x & Hx & Hpk' & Ef).
  erewrite bind_ok by exact Ef. cbv beta iota. clear Ef.
  (* the other characters *)
  set (m1 := put m p (w ++ x)).
  assert (Hnx : exists m2, (if neon_many v8 (mask_of (flat v8 (false :: g1) f2 f3 f4))
      then eol_slow v8 B L (p + zlen w) (a0 :: oa') ob (mask_of (flat v8 (false :: g1) f2 f3 f4)) merged'
      else eol_fast v8 B L (p + zlen w) (vm (firstn 16 fs)) (vm (skipn 16 fs)) (a0 :: oa') ob (mask_of (flat v8 (false :: g1) f2 f3 f4))) m1 =
      Ok ((p + zlen w + tot r, tot r - L + 1), m2) /\ wrote m1 m2 (p + zlen w) (expand r ds) 9).
  { assert (L1' : length (false :: g1) = 8%nat) by (cbn [length]; lia). rewrite (many_ok v8 _ f2 f3 f4 L1' L2 L3 L4). rewrite Etext.
    replace (tot (((false :: g1) ++ f2) ++ f3 ++ f4) - 32) with (tot r - 31) by (rewrite Erp; cbn [app]; rewrite tot_cons; cbn [wid]; lia).
    destruct (1 <? tot r - 31) eqn:Em.
    - rewrite Erp. apply eol_slow_ok; auto; rewrite <- ?Erp; destruct G; try lia.
    - rewrite <- Efl. apply eol_fast_ok; auto; try lia; destruct G; lia. }
  destruct Hnx as (m2 & En & junk & Hj & Hm2). erewrite bind_ok by exact En. cbv beta iota. clear En.
  exists m2, (i + 32), (p + zlen w + tot r), (tot r - L + 1), ((o ++ w) ++ expand r ds), rest'.
  split; [reflexivity|]. split; [|do 3 (split; [lia|])].
  2:{ replace (tot r - L + 1 + L - 1) with (tot r) by lia. exact HC3. }
  apply inv_ext with (m := put m1 (p + zlen w) (expand r ds ++ junk)); [exact Hm2|].
  assert (I1 : inv m1 (es + 63) (i + 1 - 63) (p + zlen w) dest (o ++ w) rest).
  { replace (i + 1 - 63) with (i - 63 + zlen [e]) by (change (zlen [e]) with 1; lia). unfold m1.
    apply inv_put_junk with (B := B) (r1 := [e]); [exact G|exact I|]. rewrite zlen_app. destruct G; lia. }
  rewrite Er in I1.
  replace (i + 32 - 63) with (i + 1 - 63 + zlen ds) by (unfold zlen; lia). rewrite <- Hxl.
  apply inv_put_junk with (B := B) (r1 := ds); [eapply geom_mono; [exact G|lia]|exact I1|]. rewrite zlen_app. destruct G; lia.
Qed.

End Kernel.

Lemma neon_good v8 : good_kernel (do_encode_neon v8).
Proof.
  intros B L fin col src dest data m H1 H2 H3 H4 H5 H6 H7 H8.
  apply kernel_loop with (fin := fin) (block := neon_block v8 B) (eol := neon_eol v8 B L) (width := 32) (slack := 8) (off := 63) (need := 32) (minL := 64); auto; try lia.
  - intro es. apply neon_block_ok.
  - intros HL es. apply neon_eol_ok. exact HL.
  - intro H. unfold do_encode_neon. cbv zeta. destruct ((zlen data <=? 63) || (L <? 64)) eqn:E; [reflexivity|lia].
  - intros H H'. unfold do_encode_neon. cbv zeta. destruct ((zlen data <=? 63) || (L <? 64)) eqn:E; [lia|]. reflexivity.
Qed.
