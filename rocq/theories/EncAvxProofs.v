(** The blocks of the AVX2 and VBMI2 encoders write the text of 64 characters. *)
From Verif Require Import Base BaseLemmas EncNode EncNodeSpec EncNodeProofs EncSize DecMaskSpec DecMaskModel DecMaskProofs DecVec DecVecProofs DecCompact DecSseModel
  EncModel EncSpec EncProofs EncEnd EncSseModel EncBlock EncVec EncFlags EncSpread EncSseProofs EncAvxModel.
From Coq Require Import ZifyBool ZifyNat ZifyN.
Ltac Zify.zify_post_hook ::= Z.div_mod_to_equations.

(** ** Finding the characters to escape *)

Lemma y_shuffle_dup v idx : length v = 16%nat -> y_shuffle (v ++ v) idx = v_shuffle v idx.
Proof.
  intro H. unfold y_shuffle, y_lo, y_hi. rewrite firstn_app, skipn_app, H, Nat.sub_diag, firstn_O, skipn_O, app_nil_r, (firstn_all2 v), (skipn_all2 v) by lia.
  cbn [app]. unfold v_shuffle. rewrite <- map_app, firstn_skipn. reflexivity.
Qed.

Lemma avx_cmp_ok first v : length v = 32%nat -> avx_cmp first v = vm (esc_flags first v).
Proof.
  intro Hv. unfold avx_cmp. cbv zeta. rewrite y_shuffle_dup by reflexivity. change (v_shuffle esc_table) with (map look). destruct first.
  - destruct v as [|c v]; [discriminate|]. unfold v_adds, v_abs. cbn [map]. cbn [map2]. rewrite adds_zero by (cbn in Hv; lia).
    cbn [map]. unfold v_cmpeq. cbn [map2]. rewrite map_map. fold v_cmpeq. unfold esc_flags, vm. cbn [map]. f_equal.
    + f_equal. apply look_first.
    + apply cmp_map. exact look_mid0.
  - rewrite esc_flags_mid. unfold v_abs. rewrite map_map. apply cmp_map. exact look_mid.
Qed.

Lemma shift_blend (g : byte -> bool) v : forall n, (length v <= n)%nat ->
  v_add v (v_blendv (repeat (u8 42) n) (repeat (u8 (42 + 64)) n) (vm (map g v))) = adj (map g v) v.
Proof.
  induction v as [|c v IH]; intros [|n] H; try reflexivity; [cbn in H; lia|].
  specialize (IH n). unfold adj, v_blendv, v_add in *. cbn [map vm repeat map2]. fold (vm (map g v)).
  rewrite <- IH by (cbn in H; lia). f_equal. rewrite b_top_bm. destruct (g c); cbn [fst snd]; [apply add_106|apply add_42].
Qed.

Lemma avx_shift_ok isa first v : length v = 32%nat -> avx_shift isa v (vm (esc_flags first v)) = adj (esc_flags first v) v.
Proof.
  intro Hv. unfold avx_shift, y_set1. destruct (a_avx3 isa); [apply shift_flags; lia|]. destruct v as [|c v]; [discriminate|]. cbn [esc_flags].
  pose proof (shift_blend (must_escape false false) v 31 ltac:(cbn in Hv; lia)) as E.
  pose proof (shift_blend (must_escape first false) [c] 1 ltac:(cbn; lia)) as E1.
  unfold adj, v_blendv, v_add in *. cbn [map vm repeat map2] in *. fold (vm (map (must_escape false false) v)).
  rewrite <- E. injection E1 as E1. exact (f_equal2 cons E1 eq_refl).
Qed.

(** ** Expanding 16 characters into 32 bytes *)

Fixpoint srow (fs : list bool) (j : nat) : vec :=
  match fs with
  | [] => []
  | f :: fs => (if f then [u8 0xff] else []) ++ u8 (Z.of_nat j) :: srow fs (S j)
  end.

Lemma shuf_fill16_ok fs : forall j, shuf_fill16 (length fs) (Z.of_nat j) (mask_of fs) = srow fs j.
Proof.
  induction fs as [|f fs IH]; intro j; [reflexivity|]. cbn [length shuf_fill16 srow].
  rewrite land1_mask. cbn [nth]. change 1%N with (N.of_nat 1). rewrite mask_shiftr. change (skipn 1 (f :: fs)) with fs.
  replace (Z.of_nat j + 1) with (Z.of_nat (S j)) by lia. rewrite IH. destruct f; reflexivity.
Qed.

Lemma srow_len fs : forall j, zlen (srow fs j) = tot fs.
Proof. induction fs as [|f fs IH]; intro j; [reflexivity|]. cbn [srow]. rewrite zlen_app, zlen_cons, IH, tot_cons. destruct f; cbn [wid]; change (zlen (@nil byte)) with 0; change (zlen [u8 255]) with 1; lia. Qed.

Lemma top_small j : (j < 16)%nat -> b_top (u8 (Z.of_nat j)) = false /\ Z.to_nat (Z.land (bz (u8 (Z.of_nat j))) 15) = j.
Proof. intro H. do 16 (destruct j as [|j]; [split; reflexivity|]). lia. Qed.

Lemma srow_tops fs : forall j, (j + length fs <= 16)%nat -> map b_top (srow fs j) = eqs fs.
Proof.
  induction fs as [|f fs IH]; intros j H; [reflexivity|]. cbn [srow eqs flat_map length] in *. fold (eqs fs). rewrite map_app. cbn [map].
  rewrite IH by lia. destruct (top_small j) as [-> _]; [lia|]. destruct f; reflexivity.
Qed.

(** What the shuffle and the blend make of an entry. *)
Definition pick (lo : vec) (r : byte) : byte := if b_top r then EQS else nth (Z.to_nat (Z.land (bz r) 15)) lo x00.

Lemma srow_pick lo fs : forall j, (j + length fs <= 16)%nat -> length lo = 16%nat -> map (pick lo) (srow fs j) = spread fs (skipn j lo).
Proof.
  induction fs as [|f fs IH]; intros j H Hl; [reflexivity|]. cbn [srow length] in *.
  assert (E : skipn j lo = nth j lo x00 :: skipn (S j) lo).
  { assert (Hj : (j < length lo)%nat) by lia. clear - Hj. revert lo Hj. induction j as [|j IH]; intros [|c l] H; cbn in H; try lia; [reflexivity|]. apply (IH l). lia. }
  rewrite E. cbn [spread]. rewrite map_app. cbn [map]. rewrite IH by (auto; lia).
  assert (Ep : pick lo (u8 (Z.of_nat j)) = nth j lo x00) by (unfold pick; destruct (top_small j) as [-> ->]; [lia|reflexivity]).
  rewrite Ep. destruct f; reflexivity.
Qed.

Lemma blend_pick lo r : forall n, (length r <= n)%nat -> v_blendv (v_shuffle lo r) (repeat (u8 61) n) r = map (pick lo) r.
Proof.
  unfold v_blendv, v_shuffle. induction r as [|b r IH]; intros [|n] H; try reflexivity; [cbn in H; lia|].
  cbn [map repeat map2]. rewrite IH by (cbn in H; lia). f_equal. unfold pick. destruct (b_top b); reflexivity.
Qed.

Lemma row16 fs : length fs = 16%nat -> exists k, shuf_row16 (mask_of fs) = srow fs 0 ++ repeat (u8 0x40) k /\ Z.of_nat k = 32 - tot fs.
Proof.
  intro H. unfold shuf_row16. cbv zeta. pose proof (shuf_fill16_ok fs 0) as E. rewrite H in E. change (Z.of_nat 0) with 0 in E. rewrite E.
  exists (32 - length (srow fs 0))%nat. split; [reflexivity|]. pose proof (srow_len fs 0). pose proof (tot_range fs). unfold zlen in *. lia.
Qed.

Lemma row16_eqs fs : length fs = 16%nat -> v_movemask (shuf_row16 (mask_of fs)) = mask_of (eqs fs).
Proof.
  intro H. destruct (row16 fs H) as (k & -> & _). unfold v_movemask. rewrite map_app, srow_tops by lia.
  assert (E : map b_top (repeat (u8 64) k) = repeat false k) by (clear; induction k as [|k IH]; [reflexivity|]; cbn [repeat map]; rewrite IH; reflexivity).
  rewrite E. apply mask_pad.
Qed.

Lemma shuf16_ok fs lo : length fs = 16%nat -> length lo = 16%nat ->
  exists junk, v_blendv (y_shuffle (lo ++ lo) (shuf_row16 (mask_of fs))) (y_set1 61) (shuf_row16 (mask_of fs)) = spread fs lo ++ junk /\ zlen junk = 32 - tot fs.
Proof.
  intros Hf Hl. destruct (row16 fs Hf) as (k & E & Hk). pose proof (srow_len fs 0) as Hs. pose proof (tot_range fs).
  assert (zlen fs = 16) by (unfold zlen; lia).
  rewrite y_shuffle_dup by exact Hl. unfold y_set1. rewrite E, blend_pick, map_app, srow_pick by (rewrite ?app_length, ?repeat_length; unfold zlen in *; lia).
  exists (map (pick lo) (repeat (u8 64) k)). split; [reflexivity|]. unfold zlen. rewrite map_length, repeat_length. lia.
Qed.

Lemma expand16_eqs fs : length fs = 16%nat -> expand16 (mask_of fs) = mask_of (map negb (eqs fs)).
Proof. intro H. unfold expand16. rewrite <- H at 1. rewrite expand_fill_ok. apply N.shiftl_0_r. Qed.

Lemma expand16_ok fs a : length fs = 16%nat -> (16 <= length a)%nat ->
  exists junk, y_expand (y_set1 61) (expand16 (mask_of fs)) a = spread fs (firstn 16 a) ++ junk /\ zlen junk = 32 - tot fs.
Proof.
  intros Hf Ha. rewrite expand16_eqs by exact Hf. pose proof (tot_range fs) as Ht. assert (zlen fs = 16) by (unfold zlen; lia).
  assert (E : map negb (eqs fs) = firstn 32 (map negb (eqs fs))).
  { symmetry. apply firstn_all2. rewrite map_length. pose proof (eqs_len fs). unfold zlen in *. lia. }
  rewrite E. change (y_set1 61) with (repeat EQS 32). rewrite y_expand_ok with (k := 32%nat) by lia.
  assert (Es : spread fs a = spread fs (firstn 16 a)).
  { rewrite <- (firstn_skipn 16 a) at 1. apply spread_more. rewrite firstn_length. lia. }
  rewrite Es.
  assert (Hs : zlen (spread fs (firstn 16 a)) = tot fs) by (apply spread_len; rewrite firstn_length; lia).
  rewrite firstn_app, firstn_all2 by (unfold zlen in *; lia). eexists. split; [reflexivity|].
  unfold zlen in *. rewrite firstn_length, repeat_length. lia.
Qed.

Lemma mask_half16 f1 f2 : length f1 = 16%nat -> length f2 = 16%nat ->
  N.land (mask_of (f1 ++ f2)) 0xffff = mask_of f1 /\ N.shiftr (mask_of (f1 ++ f2)) 16 = mask_of f2 /\
  N.shiftr (N.land (N.shiftr (mask_of (f1 ++ f2)) 11) 0x1fffe0) 5 = mask_of f2.
Proof.
  intros H1 H2.
  assert (A : N.land (mask_of (f1 ++ f2)) 0xffff = mask_of f1).
  { change 0xffff%N with (N.ones (N.of_nat 16)). rewrite mask_low, firstn_app, H1, Nat.sub_diag, firstn_O, app_nil_r, firstn_all2 by lia. reflexivity. }
  assert (C : N.shiftr (mask_of (f1 ++ f2)) 16 = mask_of f2).
  { change 16%N with (N.of_nat 16). rewrite mask_shiftr, skipn_app, H1, Nat.sub_diag, skipn_O, skipn_all2 by lia. reflexivity. }
  split; [exact A|]. split; [exact C|]. rewrite N.shiftr_land, N.shiftr_shiftr. change (11 + 5)%N with 16%N. rewrite C.
  change (N.shiftr 0x1fffe0 5) with (N.ones (N.of_nat 16)). rewrite mask_low, firstn_all2 by lia. reflexivity.
Qed.

(** ** The slow path *)

Section Block.
Variable isa : avx_isa.
Variable B : bufs.

Lemma slow_vectors_ok a f1 f2 : length a = 32%nat -> length f1 = 16%nat -> length f2 = 16%nat ->
  exists v1 v2 j1 j2, avx_slow_vectors isa a (mask_of (f1 ++ f2)) = (v1, v2) /\
    v1 = spread f1 (firstn 16 a) ++ j1 /\ zlen j1 = 32 - tot f1 /\ v2 = spread f2 (skipn 16 a) ++ j2 /\ zlen j2 = 32 - tot f2.
Proof.
  intros Ha H1 H2. unfold avx_slow_vectors. cbv zeta. destruct (mask_half16 f1 f2 H1 H2) as (-> & -> & ->).
  assert (Hh : length (skipn 16 a) = 16%nat) by (rewrite skipn_length; lia).
  destruct (a_vbmi2 isa).
  - destruct (expand16_ok f1 a H1) as (j1 & E1 & L1); [lia|].
    destruct (expand16_ok f2 (y_hi a ++ y_hi a) H2) as (j2 & E2 & L2); [rewrite app_length; unfold y_hi; lia|].
    do 4 eexists. split; [reflexivity|]. split; [exact E1|]. split; [exact L1|]. split; [|exact L2].
    rewrite E2. unfold y_hi. rewrite firstn_app, Hh, firstn_O, app_nil_r, firstn_all2 by lia. reflexivity.
  - destruct (shuf16_ok f1 (y_lo a) H1) as (j1 & E1 & L1); [unfold y_lo; rewrite firstn_length; lia|].
    destruct (shuf16_ok f2 (y_hi a) H2 Hh) as (j2 & E2 & L2).
    do 4 eexists. split; [reflexivity|]. repeat split; eassumption.
Qed.

Lemma store32_piece m m1 p q o v e junk : wrote m m1 p o 16 -> v = e ++ junk -> zlen junk = 32 - zlen e -> 16 <= zlen e <= 32 ->
  q = p + zlen o -> wlo B <= q -> q + zlen e + 16 <= whi B ->
  exists m2, store_n B q v m1 = Ok (tt, m2) /\ wrote m m2 p (o ++ e) 16.
Proof.
  intros Hw E Hj He Hq H1 H2.
  assert (zlen v = zlen e + zlen junk) by (rewrite E; apply zlen_app).
  destruct (wrote_store B m m1 p q o v e junk 16 Hw E) as (m2 & S & W); auto; try lia.
  exists m2. split; [exact S|]. eapply wrote_weaken; [|exact W]. lia.
Qed.

Lemma spread_halves f1 f2 (a : list byte) : length f1 = 16%nat -> length a = 32%nat -> spread (f1 ++ f2) a = spread f1 (firstn 16 a) ++ spread f2 (skipn 16 a).
Proof. intros H Ha. rewrite <- (firstn_skipn 16 a) at 1. apply spread_app. rewrite firstn_length. lia. Qed.

Definition ebits (fh : list bool) : list bool := if a_vbmi2 isa then map negb (eqs fh) else eqs fh.

Lemma ebits_app a b : ebits (a ++ b) = ebits a ++ ebits b.
Proof. unfold ebits. rewrite eqs_app, map_app. destruct (a_vbmi2 isa); reflexivity. Qed.
Lemma ebits_len fs : zlen (ebits fs) = tot fs.
Proof. rewrite <- (eqs_len fs). unfold ebits, zlen. destruct (a_vbmi2 isa); rewrite ?map_length; reflexivity. Qed.

Lemma join64 a b n m : n = zlen a -> zlen a + zlen b <= 64 -> n < 64 ->
  (hi <- shl64 (mask_of b) n ;; ret (N.lor (mask_of a) hi)) m = Ok (mask_of (a ++ b), m).
Proof.
  intros -> Hl Hn. unfold shl64. pose proof (zlen_nonneg a). destruct ((0 <=? zlen a) && (zlen a <? 64)) eqn:E; [|lia].
  assert (Eu : uint 64 (N.shiftl (mask_of b) (Z.to_N (zlen a))) = N.shiftl (mask_of b) (N.of_nat (length a))).
  { replace (Z.to_N (zlen a)) with (N.of_nat (length a)) by (unfold zlen; lia). rewrite mask_shiftl.
    change 64%N with (N.of_nat 64). rewrite mask_uint, firstn_all2; [reflexivity|]. rewrite app_length, repeat_length. unfold zlen in *. lia. }
  unfold bind, ret. rewrite Eu, mask_app. reflexivity.
Qed.

Lemma eq_mask_run fa fb n m : length fa = 16%nat -> length fb = 16%nat -> n = tot fa ->
  avx_eq_mask isa (mask_of (fa ++ fb)) n m = Ok (mask_of (ebits (fa ++ fb)), m).
Proof.
  intros Ha Hb ->. unfold avx_eq_mask. cbv zeta. destruct (mask_half16 fa fb Ha Hb) as (-> & -> & ->).
  pose proof (tot_range fa). pose proof (tot_range fb). assert (zlen fa = 16) by (unfold zlen; lia). assert (zlen fb = 16) by (unfold zlen; lia).
  assert (E : forall f, length f = 16%nat -> (if a_vbmi2 isa then expand16 (mask_of f) else v_movemask (shuf_row16 (mask_of f))) = mask_of (ebits f)).
  { intros f Hf. unfold ebits. destruct (a_vbmi2 isa); [apply expand16_eqs|apply row16_eqs]; exact Hf. }
  pose proof (E fa Ha) as Ea. pose proof (E fb Hb) as Eb. rewrite ebits_app.
  assert (Ep : (if a_vbmi2 isa then (expand16 (mask_of fa), expand16 (mask_of fb)) else (v_movemask (shuf_row16 (mask_of fa)), v_movemask (shuf_row16 (mask_of fb)))) = (mask_of (ebits fa), mask_of (ebits fb))).
  { rewrite <- Ea, <- Eb. destruct (a_vbmi2 isa); reflexivity. }
  rewrite Ep. apply join64; rewrite ?ebits_len; lia.
Qed.

Lemma shr64_run l n m : 0 <= n < 64 -> shr64 (mask_of l) n m = Ok (mask_of (skipn (Z.to_nat n) l), m).
Proof.
  intro H. unfold shr64. destruct ((0 <=? n) && (n <? 64)) eqn:E; [|lia]. unfold ret.
  replace (Z.to_N n) with (N.of_nat (Z.to_nat n)) by lia. rewrite mask_shiftr. reflexivity.
Qed.

Lemma avx_slow_eol_run i p col f1 f2 f3 f4 m :
  length f1 = 16%nat -> length f2 = 16%nat -> length f3 = 16%nat -> length f4 = 16%nat ->
  let fs := (f1 ++ f2) ++ f3 ++ f4 in
  col < 0 -> 0 <= col + tot fs ->
  avx_slow_eol isa (i + 64) (p + tot fs) (col + tot fs) (mask_of (f1 ++ f2)) (mask_of (f3 ++ f4)) m =
  Ok (let '(k, q) := cut fs (- col) in Eol (i + k) (p + q), m).
Proof.
  intros H1 H2 H3 H4 fs Hc Hc'. unfold avx_slow_eol. cbv zeta.
  destruct (mask_half16 f1 f2 H1 H2) as (-> & _ & _). destruct (mask_half16 f3 f4 H3 H4) as (-> & _ & _).
  assert (Ht : tot fs = tot (f1 ++ f2) + tot (f3 ++ f4)) by (unfold fs; apply tot_app).
  assert (Hr12 := tot_range (f1 ++ f2)). assert (Hr34 := tot_range (f3 ++ f4)).
  assert (L12 : zlen (f1 ++ f2) = 32) by (unfold zlen; rewrite app_length; lia).
  assert (L34 : zlen (f3 ++ f4) = 32) by (unfold zlen; rewrite app_length; lia).
  rewrite !popcount_tot, L12, L34. replace (zlen f1) with 16 by (unfold zlen; lia). replace (zlen f3) with 16 by (unfold zlen; lia).
  unfold fs. rewrite cut_app by lia. fold fs.
  set (inA := - col <=? tot (f1 ++ f2)).
  set (fh := if inA then f1 ++ f2 else f3 ++ f4).
  set (T := if inA then - col else - col - tot (f1 ++ f2)).
  match goal with |- (bind ?X _) m = _ => assert (Em : X m = Ok ((mask_of (ebits fh), i + 64 - (if inA then if a_vbmi2 isa then 32 else 32 - tot (f3 ++ f4) else 0), T - 1), m)) end.
  { pose proof (eq_mask_run f1 f2 (tot f1 - 16 + 16) m H1 H2 ltac:(lia)) as Ea.
    pose proof (eq_mask_run f3 f4 (tot f3 - 16 + 16) m H3 H4 ltac:(lia)) as Eb.
    unfold fh, T, inA. destruct (- col <=? tot (f1 ++ f2)) eqn:E; (destruct (tot (f3 ++ f4) - 32 + 32 - 1 - (col + tot fs) <? 0) eqn:E2; [try lia|try lia]).
    - erewrite bind_ok by exact Ea. unfold ret. f_equal. f_equal. apply tri; destruct (a_vbmi2 isa); lia.
    - erewrite bind_ok by exact Eb. unfold ret. f_equal. f_equal. apply tri; lia. }
  erewrite bind_ok by exact Em. cbv beta iota. clear Em.
  assert (HT : 1 <= T <= tot fh) by (unfold T, fh, inA; destruct (- col <=? tot (f1 ++ f2)) eqn:E; lia).
  assert (Lh : zlen fh = 32) by (unfold fh; destruct inA; assumption).
  assert (Th := tot_range fh).
  assert (Er : exists n, (if inA then cut (f1 ++ f2) (- col) else let '(k, q) := cut (f3 ++ f4) (- col - tot (f1 ++ f2)) in (zlen (f1 ++ f2) + k, tot (f1 ++ f2) + q))
     = (let '(k, q) := cut fh T in (n + k, (if inA then 0 else tot (f1 ++ f2)) + q)) /\ n = if inA then 0 else 32).
  { exists (if inA then 0 else 32). split; [|reflexivity]. unfold fh, T. destruct inA.
    - destruct (cut (f1 ++ f2) (- col)) as [k q]. reflexivity.
    - rewrite L12. reflexivity. }
  destruct Er as (n & Er & Hn). rewrite Er. clear Er.
  destruct (cut_eqs fh T HT) as [C1 C2]. cbv zeta in C1, C2. rewrite C2. cbv iota beta. clear C2.
  set (r := skipn (Z.to_nat (T - 1)) (eqs fh)) in *.
  destruct r as [|b0 r0] eqn:Er0; [change (zlen (@nil bool)) with 0 in C1; lia|].
  cbn [nth]. rewrite tot_cons. rewrite !zlen_cons in *. unfold ebits.
  assert (Ht0 : tot fs = tot (f1 ++ f2) + tot (f3 ++ f4)) by exact Ht.
  destruct (a_vbmi2 isa) eqn:Ev; cbn [andb].
  - (* a set bit marks a character *)
    assert (Hk : skipn (Z.to_nat (T - 1)) (map negb (eqs fh)) = negb b0 :: map negb r0) by (rewrite skipn_map; fold r; rewrite Er0; reflexivity).
    assert (Hz : zlen (map negb r0) = zlen r0) by (unfold zlen; rewrite map_length; reflexivity).
    destruct (a_asm isa).
    + replace (N.shiftr (mask_of (map negb (eqs fh))) 1) with (mask_of (skipn 1 (map negb (eqs fh)))) by (change 1%N with (N.of_nat 1); rewrite mask_shiftr; reflexivity).
      erewrite bind_ok by (apply shr64_run; lia).
      assert (Es : skipn (Z.to_nat (T - 1)) (skipn 1 (map negb (eqs fh))) = map negb r0).
      { apply skipn_S in Hk. rewrite <- Hk. destruct (map negb (eqs fh)); [rewrite !skipn_nil; reflexivity|reflexivity]. }
      rewrite Es, popcount_tot, tot_negb, Hz.
      assert (Ec : (if T - 1 =? 0 then N.odd (mask_of (map negb (eqs fh))) else N.testbit (mask_of (skipn 1 (map negb (eqs fh)))) (Z.to_N (T - 1 - 1))) = negb b0).
      { apply nth_skip in Hk. destruct (T - 1 =? 0) eqn:E0.
        - replace (Z.to_nat (T - 1)) with 0%nat in Hk by lia. rewrite <- N.bit0_odd. change 0%N with (N.of_nat 0). rewrite mask_bit. exact Hk.
        - replace (Z.to_N (T - 1 - 1)) with (N.of_nat (Z.to_nat (T - 2))) by lia. rewrite mask_bit.
          replace (Z.to_nat (T - 1)) with (S (Z.to_nat (T - 2))) in Hk by lia.
          destruct (map negb (eqs fh)); [destruct (Z.to_nat (T - 2)); exact Hk|exact Hk]. }
      rewrite Ec. unfold ret. destruct b0; cbv beta iota delta [bz1 negb wid]; f_equal; f_equal; apply eol_eq; rewrite ?Hn, ?Lh; unfold fh, T in C1 |- *; destruct inA; lia.
    + erewrite bind_ok by (apply shr64_run; lia). rewrite Hk, popcount_tot, land1_mask, tot_cons, zlen_cons, tot_negb, Hz. cbn [nth].
      replace (N.eqb (N.b2n (negb b0)) 1) with (negb b0) by (destruct b0; reflexivity). rewrite negb_involutive.
      unfold ret. destruct b0; cbv beta iota delta [bz1 negb wid]; f_equal; f_equal; apply eol_eq; rewrite ?Hn, ?Lh; unfold fh, T in C1 |- *; destruct inA; lia.
  - erewrite bind_ok by (apply shr64_run; lia). fold r. rewrite Er0, popcount_tot, land1_mask, tot_cons, zlen_cons. cbn [nth]. unfold ret.
    destruct b0; cbv beta iota delta [bz1 wid N.b2n]; f_equal; f_equal; apply eol_eq; rewrite ?Hn, ?Lh; unfold fh, T in C1 |- *; destruct inA; lia.
Qed.

Lemma avx_slow_run i p col da db fa fb m :
  length da = 32%nat -> length db = 32%nat -> length fa = 32%nat -> length fb = 32%nat ->
  (forall f d, In (f, d) [(fa, da); (fb, db)] -> avx_shift isa d (vm f) = adj f d) ->
  let fs := fa ++ fb in
  col < 0 -> wlo B <= p -> p + tot fs + 16 <= whi B ->
  exists m', avx_slow isa B (i + 64) p col da db (vm fa) (vm fb) (mask_of fa) (mask_of fb) m =
      Ok (if col + tot fs <? 0 then Next (p + tot fs) (col + tot fs) else let '(k, q) := cut fs (- col) in Eol (i + k) (p + q), m') /\
    wrote m m' p (expand fs (da ++ db)) 16.
Proof.
  intros Hda Hdb Hfa Hfb Hsh fs Hc Hlo Hhi. unfold avx_slow.
  rewrite (Hsh fa da), (Hsh fb db) by (cbn; tauto). clear Hsh.
  set (f1 := firstn 16 fa). set (f2 := skipn 16 fa). set (f3 := firstn 16 fb). set (f4 := skipn 16 fb).
  assert (E1 : fa = f1 ++ f2) by (symmetry; apply firstn_skipn). assert (E2 : fb = f3 ++ f4) by (symmetry; apply firstn_skipn).
  assert (L1 : length f1 = 16%nat) by (unfold f1; rewrite firstn_length; lia). assert (L2 : length f2 = 16%nat) by (unfold f2; rewrite skipn_length; lia).
  assert (L3 : length f3 = 16%nat) by (unfold f3; rewrite firstn_length; lia). assert (L4 : length f4 = 16%nat) by (unfold f4; rewrite skipn_length; lia).
  assert (Ha : length (adj fa da) = 32%nat) by (rewrite adj_len; lia). assert (Hb : length (adj fb db) = 32%nat) by (rewrite adj_len; lia).
  assert (Ex : expand fs (da ++ db) = (spread f1 (firstn 16 (adj fa da)) ++ spread f2 (skipn 16 (adj fa da))) ++ spread f3 (firstn 16 (adj fb db)) ++ spread f4 (skipn 16 (adj fb db))).
  { unfold fs. rewrite expand_app, !expand_spread by lia. f_equal.
    - rewrite E1 at 1. apply spread_halves; assumption.
    - rewrite E2 at 1. apply spread_halves; assumption. }
  assert (S1 : zlen (spread f1 (firstn 16 (adj fa da))) = tot f1) by (apply spread_len; rewrite firstn_length; lia).
  assert (S2 : zlen (spread f2 (skipn 16 (adj fa da))) = tot f2) by (apply spread_len; rewrite skipn_length; lia).
  assert (S3 : zlen (spread f3 (firstn 16 (adj fb db))) = tot f3) by (apply spread_len; rewrite firstn_length; lia).
  assert (S4 : zlen (spread f4 (skipn 16 (adj fb db))) = tot f4) by (apply spread_len; rewrite skipn_length; lia).
  destruct (slow_vectors_ok (adj fa da) f1 f2 Ha L1 L2) as (v1 & v2 & j1 & j2 & V1 & V2 & V3 & V4 & V5).
  destruct (slow_vectors_ok (adj fb db) f3 f4 Hb L3 L4) as (v3 & v4 & j3 & j4 & W1 & W2 & W3 & W4 & W5).
  rewrite <- E1 in V1. rewrite <- E2 in W1. rewrite V1, W1. cbv iota beta zeta.
  pose proof (tot_range f1). pose proof (tot_range f2). pose proof (tot_range f3). pose proof (tot_range f4).
  assert (zlen f1 = 16) by (unfold zlen; lia). assert (zlen f2 = 16) by (unfold zlen; lia).
  assert (zlen f3 = 16) by (unfold zlen; lia). assert (zlen f4 = 16) by (unfold zlen; lia).
  assert (Hpa : popcount (mask_of fa) + 32 = tot f1 + tot f2) by (rewrite popcount_tot, E1, tot_app, zlen_app; lia).
  assert (Hpb : popcount (mask_of fb) + 32 = tot f3 + tot f4) by (rewrite popcount_tot, E2, tot_app, zlen_app; lia).
  assert (Hp1 : popcount (N.land (mask_of fa) 0xffff) + 16 = tot f1).
  { rewrite E1. destruct (mask_half16 f1 f2 L1 L2) as (-> & _). rewrite popcount_tot. lia. }
  assert (Hp3 : popcount (N.land (mask_of fb) 0xffff) + 16 = tot f3).
  { rewrite E2. destruct (mask_half16 f3 f4 L3 L4) as (-> & _). rewrite popcount_tot. lia. }
  assert (Htf : tot fs = tot f1 + tot f2 + tot f3 + tot f4) by (unfold fs; rewrite E1, E2, !tot_app; lia).
  rewrite Hp1, Hp3, Hpa. replace (32 + (tot f1 + tot f2) + popcount (mask_of fb)) with (tot fs) by lia.
  assert (Hw : wrote m m p [] 16) by (eapply wrote_weaken; [|apply wrote_nil]; lia).
  destruct (store32_piece m m p p [] v1 _ j1 Hw V2) as (m1 & T1 & X1); try lia. { change (zlen (@nil byte)) with 0. lia. }
  destruct (store32_piece m m1 p (p + tot f1) _ v2 _ j2 X1 V4) as (m2 & T2 & X2); try lia. { rewrite !zlen_app. change (zlen (@nil byte)) with 0. lia. }
  destruct (store32_piece m m2 p (p + (tot f1 + tot f2)) _ v3 _ j3 X2 W2) as (m3 & T3 & X3); try lia. { rewrite !zlen_app. change (zlen (@nil byte)) with 0. lia. }
  destruct (store32_piece m m3 p (p + (tot f1 + tot f2) + tot f3) _ v4 _ j4 X3 W4) as (m4 & T4 & X4); try lia. { rewrite !zlen_app. change (zlen (@nil byte)) with 0. lia. }
  erewrite bind_ok by exact T1. erewrite bind_ok by exact T2. erewrite bind_ok by exact T3. erewrite bind_ok by exact T4.
  exists m4. split.
  - destruct (0 <=? col + tot fs) eqn:E; (destruct (col + tot fs <? 0) eqn:E'; [try lia|try lia]); [|reflexivity].
    pose proof (avx_slow_eol_run i p col f1 f2 f3 f4 m4 L1 L2 L3 L4) as Q. cbv zeta in Q. rewrite <- E1, <- E2 in Q. apply Q; [exact Hc|fold fs; lia].
  - rewrite Ex. rewrite app_nil_l in X4. rewrite <- !app_assoc in X4. rewrite <- !app_assoc. exact X4.
Qed.

(** ** The fast path *)

Definition few (fs : list bool) : Prop :=
  fs = repeat false 32 \/ exists n, (n < 32)%nat /\ fs = repeat false n ++ true :: repeat false (31 - n).

Lemma few_tot fs : length fs = 32%nat -> tot fs <= 33 -> few fs.
Proof.
  intros Hl Ht. pose proof (tot_range fs). assert (Hz : zlen fs = 32) by (unfold zlen; lia).
  destruct (Z.eq_dec (tot fs) 32) as [E|E].
  - left. rewrite <- Hl. apply tot_none. lia.
  - right. destruct (tot_one fs ltac:(lia)) as (n & Hn & E2). exists n. split; [lia|].
    replace (31 - n)%nat with (length fs - n - 1)%nat by lia. exact E2.
Qed.

Lemma single_tot n : (n < 32)%nat -> tot (repeat false n ++ true :: repeat false (31 - n)) = 33.
Proof. intro H. rewrite tot_app, tot_cons, !tot_repeat. cbn [wid]. lia. Qed.

Lemma lz_none : lzcnt32 (mask_of (repeat false 32)) = 32. Proof. reflexivity. Qed.
Lemma lz_single n : (n < 32)%nat -> lzcnt32 (mask_of (repeat false n ++ true :: repeat false (31 - n))) = 31 - Z.of_nat n.
Proof.
  intro H. rewrite mask_single. unfold lzcnt32. assert (E : N.eqb (2 ^ N.of_nat n) 0 = false) by (apply N.eqb_neq, N.pow_nonzero; discriminate).
  rewrite E, N.log2_pow2 by lia. lia.
Qed.

Lemma fast_eol_run i p col fa fb : few fa -> few fb -> let fs := fa ++ fb in col < 0 -> 0 <= col + tot fs ->
  avx_fast_eol (i + 64) (p + tot fs) (col + tot fs) (mask_of fa) (mask_of fb) (tot fb) = let '(k, q) := cut fs (- col) in Eol (i + k) (p + q).
Proof.
  intros Ha Hb fs Hc Hc'. unfold avx_fast_eol, fs in *. rewrite tot_app in *. rewrite cut_app by lia.
  assert (Hza : zlen fa = 32).
  { destruct Ha as [->|(n & Hn & ->)]; [reflexivity|]. unfold zlen. rewrite app_length. cbn [length]. rewrite !repeat_length. lia. }
  rewrite Hza.
  assert (C : forall f, few f -> (tot f = 32 /\ lzcnt32 (mask_of f) = 32 /\ forall T, 0 <= T <= tot f -> cut f T = (T, T)) \/
    exists n, (n < 32)%nat /\ tot f = 33 /\ lzcnt32 (mask_of f) = 31 - Z.of_nat n /\
      forall T, 0 <= T <= tot f -> cut f T = if T <=? Z.of_nat n then (T, T) else if T =? Z.of_nat n + 1 then (T - 1, T - 1) else (T - 1, T)).
  { intros f [->|(n & Hn & ->)].
    - left. split; [reflexivity|]. split; [reflexivity|]. intros T HT. change (tot (repeat false 32)) with 32 in HT. apply cut_repeat. lia.
    - right. exists n. rewrite single_tot, lz_single by exact Hn. repeat split; auto. intros T HT. apply cut_single. lia. }
  apply C in Ha. apply C in Hb. clear C.
  destruct Ha as [(Ta & La & Ca)|(na & Hna & Ta & La & Ca)], Hb as [(Tb & Lb & Cb)|(nb & Hnb & Tb & Lb & Cb)];
    rewrite ?Ta, ?Tb, ?La, ?Lb in *;
  match goal with |- context [- col <=? ?t] => destruct (- col <=? t) eqn:E1; [rewrite Ca by lia; clear Ca Cb|rewrite Cb by lia; clear Ca Cb] end;
  repeat match goal with |- context [if ?b then _ else _] => destruct b eqn:? end; apply eol_eq; lia.
Qed.

(** The last of the bytes. *)
Lemma expand_final fs ds : length fs = 32%nat -> length ds = 32%nat ->
  exists X c, expand fs ds = X ++ [c] /\ nth 31 (adj fs ds) x00 = c /\ c = u8 (bz (nth 31 ds x00) + if nth 31 fs false then 106 else 42).
Proof.
  intros Hf Hd. destruct (@exists_last _ fs) as (f0 & f & ->); [intros ->; discriminate|].
  destruct (@exists_last _ ds) as (d0 & c & ->); [intros ->; discriminate|].
  rewrite app_length in Hf, Hd. cbn [length] in Hf, Hd. assert (Hf0 : length f0 = 31%nat) by lia. assert (Hd0 : length d0 = 31%nat) by lia.
  rewrite expand_last by lia. rewrite !app_nth2, Hf0, Hd0 by lia. cbn [nth Nat.sub].
  exists (expand f0 d0 ++ if f then [EQS] else []), (u8 (bz c + if f then 106 else 42)). split; [|split; [|reflexivity]].
  - rewrite <- app_assoc. destruct f; reflexivity.
  - unfold adj. assert (E : map2 (fun (f1 : bool) c0 => u8 (bz c0 + (if f1 then 106 else 42))) (f0 ++ [f]) (d0 ++ [c]) = adj f0 d0 ++ adj [f] [c]).
    { clear Hf Hd. assert (H : length f0 = length d0) by lia. clear Hf0 Hd0. unfold adj. revert d0 H. induction f0 as [|x f0 IH]; intros [|y d0] H; try discriminate; [reflexivity|].
      cbn [app map2]. rewrite IH by (cbn in H; lia). reflexivity. }
    rewrite E, app_nth2; rewrite adj_len, Hd0 by lia; [reflexivity|lia].
Qed.

(** 32 bytes of the text and its last byte make up the text, and a byte too many if
    nothing is escaped. *)
Lemma text33 fs ds v last : length fs = 32%nat -> length ds = 32%nat -> tot fs <= 33 ->
  v = firstn 32 (expand fs ds) -> last = u8 (bz (nth 31 ds x00) + if nth 31 fs false then 106 else 42) ->
  exists junk, zlen junk <= 1 /\ v ++ [last] = expand fs ds ++ junk.
Proof.
  intros Hf Hd Ht -> ->. destruct (expand_final fs ds Hf Hd) as (X & c & E & _ & <-).
  pose proof (expand_len fs ds ltac:(lia)) as El. pose proof (tot_range fs). assert (zlen fs = 32) by (unfold zlen; lia).
  destruct (Z.eq_dec (tot fs) 32) as [T|T].
  - exists [c]. split; [cbv; congruence|]. rewrite firstn_all2; [reflexivity|unfold zlen in *; lia].
  - exists []. split; [cbv; congruence|]. rewrite E, app_nil_r in *. rewrite zlen_app in El. change (zlen [c]) with 1 in El.
    rewrite firstn_app. replace (32 - length X)%nat with 0%nat by (unfold zlen in El; lia). rewrite firstn_O, app_nil_r, firstn_all2 by (unfold zlen in El; lia). reflexivity.
Qed.

Lemma few_eqs fs : few fs -> map negb fs = firstn 32 (map negb (eqs fs)).
Proof.
  intros [->|(n & Hn & ->)]; [reflexivity|]. do 32 (destruct n as [|n]; [reflexivity|]). lia.
Qed.

Lemma few_last fs : few fs -> Z.of_N (N.land 64 (N.shiftr (mask_of fs) (32 - 1 - 6))) = if nth 31 fs false then 64 else 0.
Proof.
  intros [->|(n & Hn & ->)]; [reflexivity|]. do 32 (destruct n as [|n]; [reflexivity|]). lia.
Qed.

Definition s_fast (bi : Z) (fs : list bool) : list sym :=
  s_blend (singles_at 0 32) (s_andnot fs (singles_at 1 32)) (map (fun j => j <=? merge_n bi) js32).

Lemma few_fast fs : few fs -> combine (s_fast (lzcnt32 (mask_of fs)) fs) (merge_mix (lzcnt32 (mask_of fs))) = firstn 32 (plan fs 1).
Proof.
  intros [->|(n & Hn & ->)]; [vm_compute; reflexivity|]. do 32 (destruct n as [|n]; [vm_compute; reflexivity|]). lia.
Qed.

Lemma fast_vector fs ds x : few fs -> length fs = 32%nat -> length ds = 32%nat ->
  v_add (v_blendv (firstn 32 (x :: ds)) (v_andnot (vm fs) ds) (merge_mask (lzcnt32 (mask_of fs)))) (merge_mix (lzcnt32 (mask_of fs)))
  = firstn 32 (expand fs ds).
Proof.
  intros Hfew Hf Hd. set (d := x :: ds).
  assert (E0 : firstn 32 d = map (V d) (singles_at 0 32)) by (unfold singles_at; rewrite V_seq by (unfold d; cbn [length]; lia); reflexivity).
  assert (E1 : ds = map (V d) (singles_at 1 32)).
  { unfold singles_at. rewrite V_seq by (unfold d; cbn [length]; lia). unfold d. cbn [skipn]. symmetry. apply firstn_all2. lia. }
  assert (Ev : v_blendv (firstn 32 d) (v_andnot (vm fs) ds) (merge_mask (lzcnt32 (mask_of fs))) = map (V d) (s_fast (lzcnt32 (mask_of fs)) fs)).
  { assert (E2 : v_andnot (vm fs) ds = map (V d) (s_andnot fs (singles_at 1 32))) by (rewrite <- v_andnot_s, <- E1; reflexivity).
    rewrite E0, E2. unfold merge_mask. rewrite mask_if_vm, v_blend_s. reflexivity. }
  rewrite Ev, run_plan_add, few_fast by exact Hfew.
  rewrite <- (plan_ok fs 1 d ds) by (unfold d; cbn [skipn]; rewrite ?Hf; auto; apply firstn_all2; lia).
  unfold run_plan. symmetry. apply firstn_map.
Qed.

Lemma alignr_15 ds : length ds = 32%nat -> y_alignr ds (y_lo ds ++ y_lo ds) 15 = firstn 32 (nth 15 ds x00 :: ds).
Proof.
  intro H. do 32 (destruct ds as [|? ds]; [discriminate H|]). destruct ds; [|discriminate H]. reflexivity.
Qed.

Lemma avx3_vector fs a : few fs -> length fs = 32%nat -> length a = 32%nat ->
  v_tern_b8 (k_blend (uint 32 (2 ^ 32 - mask_of fs)) a (y_alignr a (y_hi a ++ y_lo a) 15)) (vm fs) (y_set1 61) = firstn 32 (spread fs a).
Proof.
  intros Hfew Hf Ha. unfold y_set1. rewrite tern_b8_ok by lia.
  do 32 (destruct a as [|? a]; [discriminate Ha|]). destruct a; [|discriminate Ha].
  destruct Hfew as [->|(n & Hn & ->)]; [vm_compute; reflexivity|]. do 32 (destruct n as [|n]; [vm_compute; reflexivity|]). lia.
Qed.

Lemma fast_half_run es j q p0 o k m0 m1 ds fs :
  length ds = 32%nat -> length fs = 32%nat -> few fs -> avx_shift isa ds (vm fs) = adj fs ds ->
  wrote m0 m1 p0 o k -> k <= 33 -> q = p0 + zlen o -> wlo B <= q -> q + 33 <= whi B ->
  bytes_at m1 (es + j) ds -> rlo B + (if a_zen isa then 0 else 1) <= es + j -> es + j + 32 <= rhi B -> (rhi B <= wlo B \/ whi B <= rlo B) ->
  exists m', avx_fast_half isa B es j q ds (vm fs) (mask_of fs) m1 = Ok (tt, m') /\ wrote m0 m' p0 (o ++ expand fs ds) 1.
Proof.
  intros Hd Hf Hfew Hsh Hw Hk Hq Hw1 Hw2 Hb Hr1 Hr2 Hdis.
  assert (Hr0 : rlo B <= es + j) by (destruct (a_zen isa); lia).
  assert (Ht : tot fs <= 33).
  { destruct Hfew as [->|(n & Hn & ->)]; [cbv; congruence|rewrite single_tot by exact Hn; lia]. }
  set (v := firstn 32 (expand fs ds)). set (last := u8 (bz (nth 31 ds x00) + if nth 31 fs false then 106 else 42)).
  destruct (text33 fs ds v last Hf Hd Ht eq_refl eq_refl) as (junk & Hj & Et).
  assert (Lv : zlen v = 32).
  { unfold v, zlen. rewrite firstn_length. pose proof (expand_len fs ds ltac:(lia)) as E. pose proof (tot_range fs). unfold zlen in *. lia. }
  assert (Hz : zlen (v ++ [last]) = 33) by (rewrite zlen_app, Lv; reflexivity).
  assert (Hst : store_n B q v m1 = Ok (tt, put m1 q v)) by (apply store_n_put; lia).
  assert (Hmo : forall x, (x < wlo B \/ whi B <= x) -> put m1 q v x = m1 x) by (intros x Hx; apply put_out; lia).
  assert (Hs2 : store B (q + 32) last (put m1 q v) = Ok (tt, put m1 q (v ++ [last]))).
  { rewrite store_w by lia. rewrite put_app, Lv. reflexivity. }
  exists (put m1 q (v ++ [last])). split.
  - assert (El : nth 15 (y_hi (adj fs ds)) x00 = last).
    { destruct (expand_final fs ds Hf Hd) as (X & c & _ & E2 & E3). unfold last. rewrite <- E3, <- E2. unfold y_hi.
      generalize (adj fs ds). intro l. do 16 (destruct l as [|? l]; [reflexivity|]). reflexivity. }
    unfold avx_fast_half. destruct (a_vbmi2 isa) eqn:Ev; cbv zeta.
    + rewrite Hsh. assert (E : y_expand (y_set1 61) (N.lxor (mask_of fs) 0xffffffff) (adj fs ds) = v).
      { pose proof (mask_not 32 fs Hf) as Em. unfold unot in Em. change (N.of_nat 32) with 32%N in Em. change (N.ones 32) with 0xffffffff%N in Em.
        assert (Eu : uint 32 (mask_of fs) = mask_of fs) by (change 32%N with (N.of_nat 32); rewrite mask_uint, firstn_all2 by lia; reflexivity).
        rewrite Eu in Em. rewrite Em, few_eqs by exact Hfew. change (y_set1 61) with (repeat EQS 32).
        rewrite y_expand_ok with (k := 32%nat) by (rewrite ?adj_len; lia). unfold v. rewrite expand_spread.
        rewrite firstn_app. replace (32 - length (spread fs (adj fs ds)))%nat with 0%nat; [rewrite firstn_O, app_nil_r; reflexivity|].
        pose proof (spread_len fs (adj fs ds) ltac:(rewrite adj_len; lia)) as Es. pose proof (tot_range fs). unfold zlen in *. lia. }
      rewrite E. erewrite bind_ok by exact Hst.
      rewrite El. exact Hs2.
    + destruct (a_avx3 isa) eqn:E3.
      { rewrite Hsh. assert (Ha : length (adj fs ds) = 32%nat) by (rewrite adj_len; lia).
        rewrite avx3_vector by (auto; lia). rewrite <- expand_spread. fold v. erewrite bind_ok by exact Hst.
        assert (Eh : y_lo (y_hi (adj fs ds) ++ y_lo (adj fs ds)) = y_hi (adj fs ds)).
        { unfold y_lo at 1. assert (length (y_hi (adj fs ds)) = 16%nat) by (unfold y_hi; rewrite skipn_length; lia).
          rewrite firstn_app, firstn_all2 by lia. replace (16 - length (y_hi (adj fs ds)))%nat with 0%nat by lia. rewrite firstn_O. apply app_nil_r. }
        rewrite Eh, El. exact Hs2. }
      assert (Esh : exists x, (if a_zen isa then ret (y_alignr ds (y_lo ds ++ y_lo ds) 15) else y_loadu B (es + j - 1)) m1 = Ok (firstn 32 (x :: ds), m1)).
      { destruct (a_zen isa).
        - eexists. rewrite alignr_15 by exact Hd. reflexivity.
        - exists (m1 (es + j - 1)). unfold y_loadu. change (firstn 32 (m1 (es + j - 1) :: ds)) with (part 0 32 (m1 (es + j - 1) :: ds)).
          apply load_part with (a := es + j - 1); [| |rewrite zlen_cons; unfold zlen; lia|cbn [length]; lia|lia].
          + cbn [bytes_at]. split; [reflexivity|]. replace (es + j - 1 + 1) with (es + j) by lia. exact Hb.
          + lia. }
      destruct Esh as (x & Esh). erewrite bind_ok by exact Esh. rewrite fast_vector by assumption. fold v.
      erewrite bind_ok by exact Hst.
      assert (Hl : load B (es + (j + 32 - 1)) (put m1 q v) = Ok (nth 31 ds x00, put m1 q v)).
      { rewrite load_r by lia. f_equal. f_equal. rewrite Hmo by (destruct (a_zen isa); lia). symmetry.
        destruct (@exists_last _ ds) as (d0 & c & E); [intros ->; discriminate|]. rewrite E in *. rewrite app_length in Hd. cbn [length] in Hd.
        rewrite app_nth2 by lia. replace (31 - length d0)%nat with 0%nat by lia. cbn [nth].
        apply bytes_at_app in Hb as [_ [Hb _]]. rewrite <- Hb. f_equal. unfold zlen. lia. }
      erewrite bind_ok by exact Hl. rewrite few_last by exact Hfew.
      replace (bz (nth 31 ds x00) + 42 + (if nth 31 fs false then 64 else 0)) with (bz (nth 31 ds x00) + if nth 31 fs false then 106 else 42) by (destruct (nth 31 fs false); lia).
      exact Hs2.
  - destruct (wrote_store B m0 m1 p0 q o (v ++ [last]) (expand fs ds) junk k Hw Et) as (m2 & S & W); try lia.
    rewrite store_n_put in S by lia. injection S as <-. eapply wrote_weaken; [|exact W]. lia.
Qed.

Lemma lor_gt1 a b : 0 <= a -> 0 <= b -> (1 <? Z.lor a b) = (1 <? a) || (1 <? b).
Proof.
  intros Ha Hb. destruct ((1 <? a) || (1 <? b)) eqn:E.
  - pose proof (Z.log2_lor a b Ha Hb) as L. assert (1 <= Z.log2 (Z.lor a b)).
    { rewrite L. destruct (1 <? a) eqn:Ea.
      - pose proof (Z.log2_le_mono 2 a ltac:(lia)). change (Z.log2 2) with 1 in *. lia.
      - pose proof (Z.log2_le_mono 2 b ltac:(lia)). change (Z.log2 2) with 1 in *. lia. }
    destruct (Z.lt_ge_cases 1 (Z.lor a b)); [lia|]. pose proof (Z.log2_le_mono (Z.lor a b) 1 ltac:(lia)) as Q. change (Z.log2 1) with 0 in Q. lia.
  - assert (a = 0 \/ a = 1) as [-> | ->] by lia; assert (b = 0 \/ b = 1) as [-> | ->] by lia; reflexivity.
Qed.

End Block.

Lemma wrote_frame B m m' p o k a ds : wrote m m' p o k -> wlo B <= p -> p + zlen o + k <= whi B -> (rhi B <= wlo B \/ whi B <= rlo B) ->
  rlo B <= a -> a + zlen ds <= rhi B -> bytes_at m a ds -> bytes_at m' a ds.
Proof.
  intros (junk & Hj & Hm) H1 H2 Hd H3 H4. apply bytes_at_ext. intros x Hx. rewrite Hm. apply put_out. rewrite zlen_app. lia.
Qed.

Lemma avx_block_ok isa B es : block_ok B (avx_block isa B es) es 64 16 (if a_zen isa then 0 else 1).
Proof.
  intros first i p col ds m Hd Hb Hr1 Hr2 Hdis Hc fs o Hw1 Hw2.
  assert (Hr0 : rlo B <= es + i) by (destruct (a_zen isa); lia).
  assert (Hdl : length ds = 64%nat) by (unfold zlen in Hd; lia).
  set (da := part 0 32 ds). set (db := part 32 32 ds).
  assert (Hda : length da = 32%nat) by (apply part_len; lia). assert (Hdb : length db = 32%nat) by (apply part_len; lia).
  assert (Eds : ds = da ++ db).
  { unfold da, db. rewrite part_split. unfold part. rewrite skipn_O. symmetry. apply firstn_all2. lia. }
  set (fa := esc_flags first da). set (fb := esc_flags false db).
  assert (Efs : fs = fa ++ fb).
  { unfold fs. rewrite Eds. unfold fa, fb. rewrite esc_flags_mid. destruct da as [|c da']; [discriminate|]. cbn [app esc_flags]. rewrite map_app. reflexivity. }
  assert (Hfa : length fa = 32%nat) by (unfold fa; rewrite esc_flags_len; exact Hda).
  assert (Hfb : length fb = 32%nat) by (unfold fb; rewrite esc_flags_len; exact Hdb).
  assert (Hfl : length fs = 64%nat) by (rewrite Efs, app_length; lia).
  assert (Hol : zlen o = tot fs) by (apply expand_len; lia). rewrite Hol in Hw2.
  assert (Sa : avx_shift isa da (vm fa) = adj fa da) by (apply avx_shift_ok; exact Hda).
  assert (Sb : avx_shift isa db (vm fb) = adj fb db) by (apply avx_shift_ok; exact Hdb).
  assert (Hwr : exists m', avx_block isa B es first i p col m =
      Ok (if col + tot fs <? 0 then Next (p + tot fs) (col + tot fs) else let '(k, q) := cut fs (- col) in Eol (i + k) (p + q), m') /\ wrote m m' p o 16).
  2:{ destruct Hwr as (m' & E & junk & Hj & Hm). exists junk, m'. auto. }
  unfold avx_block.
  assert (Hla : y_loadu B (es + i) m = Ok (da, m)).
  { unfold y_loadu. apply load_part with (a := es + i) (t := ds); auto; lia. }
  assert (Hlb : y_loadu B (es + i + 32) m = Ok (db, m)).
  { unfold y_loadu. apply load_part with (a := es + i) (t := ds); auto; lia. }
  erewrite bind_ok by exact Hla. erewrite bind_ok by exact Hlb. cbv zeta. clear Hla Hlb.
  rewrite !avx_cmp_ok by assumption. fold fa fb. rewrite !movemask_vm.
  assert (Pa := popcount_tot fa). assert (Pb := popcount_tot fb).
  assert (Za : zlen fa = 32) by (unfold zlen; lia). assert (Zb : zlen fb = 32) by (unfold zlen; lia).
  pose proof (tot_range fa). pose proof (tot_range fb).
  assert (Tf : tot fs = tot fa + tot fb) by (rewrite Efs; apply tot_app).
  rewrite lor_gt1 by lia.
  destruct ((1 <? popcount (mask_of fa)) || (1 <? popcount (mask_of fb))) eqn:Em.
  - destruct (avx_slow_run isa B i p col da db fa fb m) as (m' & S & W); auto.
    { intros f d [E|[E|[]]]; injection E as <- <-; assumption. }
    { rewrite <- Efs. lia. }
    exists m'. rewrite Efs. split; [exact S|]. unfold o. rewrite Efs, Eds. exact W.
  - assert (Fa : few fa) by (apply few_tot; [exact Hfa|lia]). assert (Fb : few fb) by (apply few_tot; [exact Hfb|lia]).
    unfold avx_fast. cbv zeta. replace (popcount (mask_of fa) + 32) with (tot fa) by lia. replace (popcount (mask_of fb) + 32) with (tot fb) by lia.
    replace (i + 64 - 64) with i by lia. replace (i + 64 - 32) with (i + 32) by lia.
    pose proof Hb as Hb'. rewrite Eds in Hb'. apply bytes_at_app in Hb' as [Ba Bb].
    assert (Zda : zlen da = 32) by (unfold zlen; lia). assert (Zdb : zlen db = 32) by (unfold zlen; lia).
    destruct (fast_half_run isa B es i p p [] 33 m m da fa) as (m1 & S1 & W1); auto; try lia.
    { eapply wrote_weaken; [|apply wrote_nil]. lia. }
    { change (zlen (@nil byte)) with 0. lia. }
    erewrite bind_ok by exact S1. clear S1. rewrite app_nil_l in W1.
    pose proof (expand_len fa da ltac:(lia)) as Ea. pose proof (expand_len fb db ltac:(lia)) as Eb.
    destruct (fast_half_run isa B es (i + 32) (p + tot fa) p (expand fa da) 1 m m1 db fb) as (m2 & S2 & W2); auto; try lia.
    { eapply wrote_frame with (B := B) (m := m); [exact W1|lia|lia|exact Hdis|lia|lia|]. replace (es + (i + 32)) with (es + i + zlen da) by lia. exact Bb. }
    erewrite bind_ok by exact S2. clear S2. exists m2. split.
    + rewrite <- Tf. replace (p + tot fa + tot fb) with (p + tot fs) by lia.
      destruct (0 <=? col + tot fs) eqn:E; (destruct (col + tot fs <? 0) eqn:E'; [try lia|try lia]); [|reflexivity].
      unfold ret. rewrite Efs. rewrite fast_eol_run; auto. rewrite <- Efs. lia.
    + unfold o. rewrite Efs, Eds, expand_app by lia. eapply wrote_weaken; [|exact W2]. lia.
Qed.

(** ** The whole kernel *)

Lemma pre_char c : ((bz c =? 214) || (bz c =? 10 + 214) || (bz c =? 13 + 214) || (bz c =? 61 - 42)) = must_escape false false c.
Proof. destruct c; reflexivity. Qed.

Lemma pre_word c : [u8 (0x6a3d + 256 * bz c); u8 ((0x6a3d + 256 * bz c) / 256)] = [EQS; u8 (bz c + 106)].
Proof. destruct c; reflexivity. Qed.

Lemma pre_run isa B L es i p col off all c0 dest m o rest :
  16 <= L -> 16 <= zlen rest -> rlo B <= es + i -> geom B (es + off) (i - off) dest ->
  inv m (es + off) (i - off) p dest o rest ->
  dest + zlen (yenc L false c0 all) + 32 <= whi B ->
  0 <= col + L - 1 -> cont L c0 all (col + L - 1) o rest ->
  exists m' i' p' col' o' rest',
    avx_pre isa B L es i p col m = Ok ((i', p', col'), m') /\
    inv m' (es + off) (i' - off) p' dest o' rest' /\
    i <= i' <= i + 1 /\ (i' = i -> col' = col /\ (a_zen isa = false -> 0 <= col \/ col = - L + 1)) /\ 0 <= col' + L - 1 /\ cont L c0 all (col' + L - 1) o' rest'.
Proof.
  intros HL Hlen Hr G I Hroom Hc HC. unfold avx_pre.
  destruct (negb (a_zen isa) && (col <? 0) && negb (col =? - L + 1)) eqn:E.
  2:{ do 6 eexists. split; [reflexivity|]. split; [exact I|]. split; [lia|]. split; [|split; [lia|exact HC]].
      intros _. split; [reflexivity|]. intro Ez. rewrite Ez in E. cbn [negb andb] in E. lia. }
  assert (Ecol : col < 0 /\ col <> - L + 1) by lia.
  destruct rest as [|c rest]; [cbv in Hlen; congruence|]. rewrite zlen_cons in Hlen.
  assert (Hrl := inv_len _ _ _ _ _ _ _ I). rewrite zlen_cons in Hrl. pose proof (zlen_nonneg rest).
  pose proof (cont_room _ _ _ _ _ _ HC) as Hlen2. assert (Hp := inv_p _ _ _ _ _ _ _ I).
  assert (Hld : load B (es + i) m = Ok (c, m)).
  { rewrite load_r by (destruct G; lia). f_equal. f_equal.
    destruct I as [J1 _ _ _]. cbn [bytes_at] in J1. destruct J1 as [J1 _]. rewrite <- J1. f_equal. lia. }
  erewrite bind_ok by exact Hld. rewrite pre_char. clear Hld.
  pose proof (zlen_nonneg o). pose proof (zlen_nonneg (yenc L false (col + L - 1) (c :: rest))).
  assert (Hput : (if must_escape false false c then store16 B p (0x6a3d + 256 * bz c) ;;; ret (i + 1, p + 2, col + 2)
      else store B p (u8 (bz c + 42)) ;;; ret (i + 1, p + 1, col + 1)) m =
    Ok ((i + 1, p + zlen (enc_char false false c), col + zlen (enc_char false false c)), put m p (enc_char false false c))).
  { rewrite <- expand1_enc. destruct (must_escape false false c); cbn [expand1].
    - erewrite bind_ok by (apply store16_run; destruct G; lia). rewrite pre_word. reflexivity.
    - erewrite bind_ok by (apply store_w; destruct G; lia). reflexivity. }
  rewrite Hput. pose proof (enc_char_len false false c) as He.
  do 6 eexists. split; [reflexivity|]. split.
  - replace (i + 1 - off) with (i - off + zlen [c]) by (change (zlen [c]) with 1; lia).
    apply (inv_put B m _ _ _ _ o [c] rest (enc_char false false c) G I). lia.
  - split; [lia|]. split; [lia|]. split; [lia|]. eapply cont_trans; [exact HC|].
    replace (col + zlen (enc_char false false c) + L - 1) with (col + L - 1 + zlen (enc_char false false c)) by lia.
    apply (cont_intro L _ _ _ [c] rest); cbn [app]; [rewrite (yenc_cons L false)|rewrite (ret_col_cons L false)]; cbv zeta;
      (destruct (L <=? col + L - 1) eqn:E1; [lia|]); (destruct (col + L - 1 =? 0) eqn:E2; [lia|]); (destruct (col + L - 1 =? L - 1) eqn:E3; [lia|]); reflexivity.
Qed.

Lemma bind_assoc {A C D} (x : M A) (f : A -> M C) (g : C -> M D) m : (z <- (y <- x ;; f y) ;; g z) m = (y <- x ;; z <- f y ;; g z) m.
Proof. unfold bind. destruct (x m) as [[a m']| |]; reflexivity. Qed.

Lemma avx_good isa : good_kernel (do_encode_avx2 isa).
Proof.
  intros B L fin col src dest data m H1 H2 H3 H4 H5 H6 H7 H8.
  apply kernel_blocks with (start := fun es i p col => '(i, p, col) <- avx_pre isa B L es i p col ;; enc_start B L es i p col) (fin := fin) (block := fun es => avx_block isa B es)
    (width := 64) (slack := 16) (back := if a_zen isa then 0 else 1) (off := 128); auto; try lia; try (destruct (a_zen isa); lia).
  - intro es. apply avx_block_ok.
  - intro H. unfold do_encode_avx2. destruct ((zlen data <=? 128) || (L <? 16)) eqn:E; [reflexivity|lia].
  - intros H H'. unfold do_encode_avx2. destruct ((zlen data <=? 128) || (L <? 16)) eqn:E; [lia|]. cbv zeta.
    rewrite bind_assoc. apply bind_same. intros [[i p] c] m'. reflexivity.
  - intros es i I1 I2 I3 I4 I5 I6.
    destruct (pre_run isa B L es i dest (col - L + 1) 128 data col dest m [] data) as (m1 & i1 & p1 & c1 & o1 & r1 & E1 & J1 & J2 & J3 & J4 & J5); auto; try lia.
    { replace (col - L + 1 + L - 1) with col by lia. apply cont_refl. }
    pose proof (inv_len _ _ _ _ _ _ _ I5) as Hl0. pose proof (inv_len _ _ _ _ _ _ _ J1) as Hl1.
    destruct (start_run B L es i1 p1 c1 128 data col dest m1 o1 r1) as (m' & i' & p' & c' & o' & r' & E & K1 & K2 & K3 & K4 & K5 & K6); auto; try lia.
    { eapply geom_mono; [exact I4|lia]. }
    do 6 eexists. split; [erewrite bind_ok by exact E1; exact E|]. split; [exact K1|]. split; [|do 2 (split; [lia|]); exact K6].
    split; [|lia]. destruct (a_zen isa) eqn:Ez; [lia|].
    destruct (Z.eq_dec i1 i) as [->|N]; [|lia]. destruct (J3 eq_refl) as [-> J3']. specialize (J3' eq_refl). lia.
Qed.
