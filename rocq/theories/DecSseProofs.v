(** The SSE kernel: unescaping and storing a block. *)
From Verif Require Import Base BaseLemmas DecSpec DecMaskSpec DecMaskModel DecMaskProofs DecVec DecBlock DecVecProofs DecKernel
  DecKernelModel DecSseModel DecCompact.
From Coq Require Import ZifyBool ZifyNat ZifyN.
Ltac Zify.zify_post_hook ::= Z.div_mod_to_equations.

(** ** Storing *)

Lemma two_stores B p xa za xb zb m : wlo B <= p -> p + zlen xa + zlen (xb ++ zb) <= whi B -> p + zlen (xa ++ za) <= whi B ->
  exists m1 m2, store_n B p (xa ++ za) m = Ok (tt, m1) /\ store_n B (p + zlen xa) (xb ++ zb) m1 = Ok (tt, m2) /\
    bytes_at m2 p (xa ++ xb) /\
    (forall q, ~ (p <= q < p + zlen (xa ++ za)) -> ~ (p + zlen xa <= q < p + zlen xa + zlen (xb ++ zb)) -> m2 q = m q).
Proof.
  intros H1 H2 H3. pose proof (zlen_nonneg xa).
  destruct (store_n_ok B (xa ++ za) p m) as (m1 & E1 & B1 & F1); [lia|lia|].
  destruct (store_n_ok B (xb ++ zb) (p + zlen xa) m1) as (m2 & E2 & B2 & F2); [lia|lia|].
  exists m1, m2. split; [exact E1|]. split; [exact E2|]. split.
  - apply bytes_at_app in B1 as [B1 _]. apply bytes_at_app in B2 as [B2 _]. apply bytes_at_app. split; [|exact B2].
    eapply bytes_at_ext; [|exact B1]. intros q Hq. apply F2. lia.
  - intros q Hq1 Hq2. rewrite F2, F1; auto.
Qed.

Lemma pick_lut15 l v : length l = 16%nat -> length v = 16%nat ->
  exists z, pick (firstn 15 l ++ [false]) v = pick l v ++ z.
Proof.
  intros Hl Hv.
  assert (Hls : length (skipn 15 l) = 1%nat) by (rewrite skipn_length; lia).
  assert (Hvs : length (skipn 15 v) = 1%nat) by (rewrite skipn_length; lia).
  pose proof (firstn_skipn 15 l) as El. pose proof (firstn_skipn 15 v) as Ev.
  assert (H15 : length (firstn 15 l) = length (firstn 15 v)) by (rewrite !firstn_length; lia).
  set (k := firstn 15 l) in *. clearbody k.
  destruct (skipn 15 l) as [|b [|? ?]]; try discriminate. destruct (skipn 15 v) as [|y [|? ?]]; try discriminate.
  rewrite <- El, <- Ev, !pick_app by exact H15.
  cbn [pick]. destruct b; [exists [y]; rewrite app_nil_r; reflexivity|exists []; rewrite app_nil_r; reflexivity].
Qed.

Lemma lut15 l v : (16 <= length l)%nat -> length v = 16%nat ->
  exists z, v_shuffle v (compact_lut (N.land (mask_of l) 0x7fff)) = pick (firstn 16 l) v ++ z /\ length (pick (firstn 16 l) v ++ z) = 16%nat.
Proof.
  intros Hl Hv. change 0x7fff%N with (N.ones (N.of_nat 15)). rewrite mask_low.
  replace (mask_of (firstn 15 l)) with (mask_of (firstn 15 l ++ [false])) by (rewrite mask_snoc; cbn [N.b2n]; rewrite N.mul_0_l, N.add_0_r; reflexivity).
  destruct (compact_lut_ok (firstn 15 l ++ [false]) v) as (z & E & Hz); [rewrite app_length, firstn_length; cbn [length]; lia|exact Hv|].
  destruct (pick_lut15 (firstn 16 l) v) as [y Ey]; [rewrite firstn_length; lia|exact Hv|].
  rewrite firstn_firstn in Ey. change (Nat.min 15 16) with 15%nat in Ey.
  exists (y ++ z). rewrite E. rewrite Ey in *. rewrite <- app_assoc in *. auto.
Qed.

Lemma compact_store_ok isa B p rm a b m : length rm = 32%nat -> length a = 16%nat -> length b = 16%nat ->
  wlo B <= p -> p + 32 <= whi B ->
  exists m', sse_compact_store isa B p (mask_of rm) a b m = Ok (p + zlen (pick rm (a ++ b)), m') /\
    bytes_at m' p (pick rm (a ++ b)) /\ (forall q, ~ (p <= q < p + 32) -> m' q = m q).
Proof.
  intros Hrm Ha Hb Hp1 Hp2.
  assert (E : pick rm (a ++ b) = pick (firstn 16 rm) a ++ pick (skipn 16 rm) b).
  { rewrite <- (firstn_skipn 16 rm) at 1. apply pick_app. rewrite firstn_length. lia. }
  rewrite E. clear E.
  assert (Hka : zlen (pick (firstn 16 rm) a) = nkeep (firstn 16 rm)) by (apply pick_len; rewrite firstn_length; lia).
  assert (Hkb : zlen (pick (skipn 16 rm) b) = nkeep (skipn 16 rm)) by (apply pick_len; rewrite skipn_length; lia).
  pose proof (nkeep_range (firstn 16 rm)) as Hr1. pose proof (nkeep_range (skipn 16 rm)) as Hr2.
  assert (Hz1 : zlen (firstn 16 rm) = 16) by (unfold zlen; rewrite firstn_length; lia).
  assert (Hz2 : zlen (skipn 16 rm) = 16) by (unfold zlen; rewrite skipn_length; lia).
  assert (Eks : kept16 (mask_of rm) = nkeep (firstn 16 rm)) by (apply kept16_ok; lia).
  assert (Esh : N.shiftr (mask_of rm) 16 = mask_of (skipn 16 rm)) by (change 16%N with (N.of_nat 16); apply mask_shiftr).
  assert (Ekb : kept16 (mask_of (skipn 16 rm)) = nkeep (skipn 16 rm)).
  { rewrite kept16_ok by (rewrite skipn_length; lia). f_equal. apply firstn_all2. rewrite skipn_length. lia. }
  rewrite zlen_app, Hka, Hkb.
  assert (Main : forall va vb za zb, va = pick (firstn 16 rm) a ++ za -> vb = pick (skipn 16 rm) b ++ zb ->
    length va = 16%nat -> length vb = 16%nat ->
    exists m1 m2, store_n B p va m = Ok (tt, m1) /\ store_n B (p + nkeep (firstn 16 rm)) vb m1 = Ok (tt, m2) /\
      bytes_at m2 p (pick (firstn 16 rm) a ++ pick (skipn 16 rm) b) /\ (forall q, ~ (p <= q < p + 32) -> m2 q = m q)).
  { intros va vb za zb -> -> Hva Hvb.
    destruct (two_stores B p (pick (firstn 16 rm) a) za (pick (skipn 16 rm) b) zb m) as (m1 & m2 & E1 & E2 & E3 & E4).
    - exact Hp1.
    - unfold zlen at 2. rewrite Hvb. lia.
    - unfold zlen. rewrite Hva. lia.
    - exists m1, m2. rewrite Hka in E2. repeat split; try assumption. intros q Hq. apply E4; unfold zlen at 1; rewrite ?Hva, ?Hvb; try lia.
      unfold zlen at 2. rewrite Hvb. lia. }
  unfold sse_compact_store. destruct (has_ssse3 isa).
  - destruct (lut15 rm a) as (za & Ea & Hla); [lia|exact Ha|].
    destruct (lut15 (skipn 16 rm) b) as (zb & Eb & Hlb); [rewrite skipn_length; lia|exact Hb|].
    rewrite (firstn_all2 (skipn 16 rm)) in Eb, Hlb by (rewrite skipn_length; lia).
    assert (Eo : N.shiftr (N.land (N.shiftr (mask_of rm) 12) 0x7fff0) 4 = N.land (mask_of (skipn 16 rm)) 0x7fff).
    { rewrite N.shiftr_land, N.shiftr_shiftr. change (12 + 4)%N with 16%N. rewrite Esh. reflexivity. }
    rewrite Eo, Ea, Eb. destruct (Main _ _ za zb eq_refl eq_refl Hla Hlb) as (m1 & m2 & S1 & S2 & Hb2 & Hf2).
    erewrite bind_ok by exact S1. destruct (has_popcnt isa).
    + replace (popcount (N.land (mask_of rm) 0xffff)) with (16 - nkeep (firstn 16 rm)).
      2:{ change 0xffff%N with (N.ones (N.of_nat 16)). rewrite mask_low, popcount_ok, Hz1. reflexivity. }
      replace (popcount (N.land (mask_of rm) 0xffff0000)) with (16 - nkeep (skipn 16 rm)).
      2:{ replace (N.land (mask_of rm) 0xffff0000) with (mask_of (repeat false 16 ++ skipn 16 rm)).
          - rewrite popcount_ok, zlen_app, Hz2, nkeep_app. change (zlen (repeat false 16)) with 16. change (nkeep (repeat false 16)) with 16. lia.
          - change 0xffff0000%N with (mask_of (repeat false 16 ++ repeat true 16)). rewrite mask_and by (rewrite app_length, !repeat_length; lia).
            f_equal. rewrite <- (firstn_skipn 16 rm) at 2. rewrite map2_app by (rewrite firstn_length, repeat_length; lia).
            f_equal.
            + assert (length (firstn 16 rm) = 16%nat) as H by (rewrite firstn_length; lia). revert H. generalize (firstn 16 rm) as k. generalize 16%nat as n.
              intros n k <-. induction k as [|x k IH]; [reflexivity|]. cbn [length repeat map2]. rewrite <- IH, andb_false_r. reflexivity.
            + assert (length (skipn 16 rm) = 16%nat) as H by (rewrite skipn_length; lia). revert H. generalize (skipn 16 rm) as k. generalize 16%nat as n.
              intros n k <-. induction k as [|x k IH]; [reflexivity|]. cbn [length repeat map2]. rewrite <- IH, andb_true_r. reflexivity. }
      cbv zeta. replace (p - (16 - nkeep (firstn 16 rm)) + 16) with (p + nkeep (firstn 16 rm)) by lia.
      erewrite bind_ok by exact S2. exists m2. split; [|auto]. unfold ret. do 2 f_equal. lia.
    + cbv zeta. rewrite Eks, Esh, Ekb. erewrite bind_ok by exact S2. exists m2. split; [|auto]. unfold ret. do 2 f_equal. lia.
  - cbv zeta. rewrite Eks, Esh, Ekb.
    change 0xffff%N with (N.ones (N.of_nat 16)). rewrite mask_low.
    assert (Hfl : length (firstn 16 rm) = 16%nat) by (rewrite firstn_length; lia).
    assert (Hsl : length (skipn 16 rm) = 16%nat) by (rewrite skipn_length; lia).
    rewrite !compact_vect_ok by lia. rewrite Hfl, Hsl, (firstn_all2 a), (firstn_all2 b), (skipn_all2 a), (skipn_all2 b) by lia. cbn [app].
    destruct (Main _ _ (repeat x00 (16 - Z.to_nat (nkeep (firstn 16 rm)))) (repeat x00 (16 - Z.to_nat (nkeep (skipn 16 rm)))) eq_refl eq_refl)
      as (m1 & m2 & S1 & S2 & Hb2 & Hf2).
    + rewrite app_length, repeat_length. unfold zlen in Hka. lia.
    + rewrite app_length, repeat_length. unfold zlen in Hkb. lia.
    + erewrite bind_ok by exact S1. erewrite bind_ok by exact S2. exists m2. split; [|auto]. unfold ret. do 2 f_equal. lia.
Qed.

(** ** Unescaping *)

Definition voff (esc : bool) : vec := (if esc then u8 (-42 - 64) else u8 (-42)) :: repeat (u8 (-42)) 15.

Lemma voff_false : voff false = v_set1 (-42).
Proof. reflexivity. Qed.

Definition ve (l : list bool) : vec := map (fun b : bool => if b then xc0 else x00) l.

Definition dec1 (c : byte) (e : bool) : byte := if e then unescape c else unshift c.

Lemma add_esc c : b_add c (u8 (-42 - 64)) = unescape c. Proof. destruct c; reflexivity. Qed.
Lemma add_off c : b_add c (u8 (-42)) = unshift c. Proof. destruct c; reflexivity. Qed.
Lemma add_c0 c : b_add (unshift c) xc0 = unescape c. Proof. destruct c; reflexivity. Qed.
Lemma add_0 c : b_add c x00 = c. Proof. destruct c; reflexivity. Qed.

Lemma add_ve : forall v k n, length v = n -> length k = n ->
  v_add (v_add v (repeat (u8 (-42)) n)) (ve k) = map2 dec1 v k.
Proof.
  unfold v_add. induction v as [|c v IH]; intros k n Hv Hk; destruct n as [|n]; cbn in Hv; try lia; [reflexivity|].
  destruct k as [|e k]; cbn in Hk; try lia. cbn [repeat map2 ve map]. f_equal.
  - rewrite add_off. destruct e; [apply add_c0|apply add_0].
  - apply IH; lia.
Qed.

Lemma add_blend : forall v k n, length v = n -> length k = n ->
  v_add v (v_blendv (repeat (u8 (-42)) n) (repeat (u8 (-42 - 64)) n) (vm k)) = map2 dec1 v k.
Proof.
  unfold v_add, v_blendv. induction v as [|c v IH]; intros k n Hv Hk; destruct n as [|n]; cbn in Hv; try lia; [reflexivity|].
  destruct k as [|e k]; cbn in Hk; try lia. cbn [repeat map2 vm map]. rewrite b_top_bm. f_equal.
  - destruct e; cbn [fst snd dec1]; [apply add_esc|apply add_off].
  - apply IH; lia.
Qed.

Lemma add_ve_first esc v k : length v = 16%nat -> length k = 15%nat ->
  v_add (v_add v (voff esc)) (ve (false :: k)) = map2 dec1 v (esc :: k).
Proof.
  intros Hv Hk. destruct v as [|c v]; [discriminate|]. unfold voff.
  change (b_add (b_add c (if esc then u8 (-42 - 64) else u8 (-42))) x00 :: v_add (v_add v (repeat (u8 (-42)) 15)) (ve k) = dec1 c esc :: map2 dec1 v k).
  f_equal; [|apply add_ve; cbn in Hv; lia]. rewrite add_0. destruct esc; [apply add_esc|apply add_off].
Qed.

Lemma add_blend_first esc v k : length v = 16%nat -> length k = 15%nat ->
  v_add v (v_blendv (voff esc) (v_set1 (-42 - 64)) (vm (false :: k))) = map2 dec1 v (esc :: k).
Proof.
  intros Hv Hk. destruct v as [|c v]; [discriminate|].
  change (b_add c (if esc then u8 (-42 - 64) else u8 (-42)) :: v_add v (v_blendv (repeat (u8 (-42)) 15) (repeat (u8 (-42 - 64)) 15) (vm k)) = dec1 c esc :: map2 dec1 v k).
  f_equal; [|apply add_blend; cbn in Hv; lia]. destruct esc; [apply add_esc|apply add_off].
Qed.

Lemma eq_add8 l : length l = 8%nat -> eq_add (mask_of l) = ve l.
Proof.
  intro H. do 8 (destruct l as [|? l]; [discriminate H|]). destruct l; [|discriminate H].
  repeat match goal with b : bool |- _ => destruct b end; reflexivity.
Qed.

Lemma load_halves_ok l : (16 <= length l)%nat -> load_halves (mask_of l) = ve (firstn 16 l).
Proof.
  intro H. unfold load_halves. change 255%N with (N.ones (N.of_nat 8)).
  change (N.shiftr (mask_of l) 8) with (N.shiftr (mask_of l) (N.of_nat 8)). rewrite mask_shiftr, !mask_low.
  rewrite !eq_add8 by (rewrite firstn_length, ?skipn_length; lia).
  unfold ve. rewrite <- map_app. f_equal. change 16%nat with (8 + 8)%nat.
  rewrite <- (firstn_skipn 8 l) at 3. rewrite firstn_app. rewrite firstn_firstn, firstn_length.
  replace (Nat.min (8 + 8) 8) with 8%nat by lia. do 2 f_equal. lia.
Qed.

Lemma next_offset_ok b : next_offset (N.b2n b) = voff b.
Proof. destruct b; reflexivity. Qed.

Lemma last_bit l n : length l = S n -> N.shiftr (mask_of l) (N.of_nat n) = N.b2n (last l false).
Proof.
  intro H. rewrite mask_shiftr. assert (E : exists k b, l = k ++ [b] /\ length k = n).
  { destruct (exists_last (l := l)) as (k & b & ->). { intros ->. discriminate. }
    exists k, b. split; [reflexivity|]. rewrite app_length in H. cbn in H. lia. }
  destruct E as (k & b & -> & <-). rewrite last_last, skipn_app, skipn_all, Nat.sub_diag. cbn. destruct b; reflexivity.
Qed.

Lemma last_indep {A} (l : list A) a b : l <> [] -> last l a = last l b.
Proof. intro H. destruct l as [|x l]; [contradiction|]. rewrite !last_cons. reflexivity. Qed.

Lemma leads_simple : forall eqs esc sp, length sp = length eqs ->
  Forall2 (fun e s : bool => e = true -> s = true) eqs sp ->
  existsb id (map2 andb sp (firstn (length eqs) (esc :: eqs))) = false ->
  leads esc eqs = eqs /\ map2 (fun s e => s && negb e) sp (escs esc eqs) = sp.
Proof.
  induction eqs as [|b eqs IH]; intros esc sp Hl Hf Hx.
  - destruct sp; [|discriminate]. split; reflexivity.
  - destruct sp as [|s sp]; [discriminate|]. inversion Hf as [|? ? ? ? Hb Hf']; subst.
    cbn [length firstn map2 existsb] in Hx. apply orb_false_elim in Hx as [Hx1 Hx2]. unfold id in Hx1.
    assert (Hb2 : b && negb esc = b). { destruct b; [|reflexivity]. rewrite Hb in Hx1 by reflexivity. cbn in Hx1. rewrite Hx1. reflexivity. }
    cbn [leads escs map2]. rewrite Hb2. destruct (IH b sp) as [E1 E2]; [cbn in Hl; lia|exact Hf'|exact Hx2|].
    rewrite E1, E2. split; [reflexivity|]. f_equal. destruct s, esc; try reflexivity. discriminate Hx1.
Qed.

Lemma ve_and l : v_and (vm l) (repeat xc0 (length l)) = ve l.
Proof. induction l as [|b l IH]; [reflexivity|]. cbn [length repeat vm map v_and map2 ve]. f_equal; [destruct b; reflexivity|exact IH]. Qed.

Lemma firstn_map {A C} (f : A -> C) n l : firstn n (map f l) = map f (firstn n l).
Proof. revert l; induction n as [|n IH]; intros [|a l]; try reflexivity. cbn [map firstn]. rewrite IH. reflexivity. Qed.
Lemma skipn_map {A C} (f : A -> C) n l : skipn n (map f l) = map f (skipn n l).
Proof. revert l; induction n as [|n IH]; intros [|a l]; try reflexivity. cbn [map skipn]. apply IH. Qed.

Lemma vm_slli l : length l = 16%nat -> v_slli (vm l) 1 = vm (false :: firstn 15 l).
Proof. intro H. unfold v_slli, vm. cbn [repeat app]. rewrite (firstn_cons 15). cbn [map]. f_equal. apply firstn_map. Qed.
Lemma ve_slli l : length l = 16%nat -> v_slli (ve l) 1 = ve (false :: firstn 15 l).
Proof. intro H. unfold v_slli, ve. cbn [repeat app]. rewrite (firstn_cons 15). cbn [map]. f_equal. apply firstn_map. Qed.
Lemma vm_alignr x y n : v_alignr (vm y) (vm x) n = vm (firstn 16 (skipn n (x ++ y))).
Proof. unfold v_alignr, vm. rewrite <- map_app, skipn_map, firstn_map. reflexivity. Qed.
Lemma ve_alignr x y n : v_alignr (ve y) (ve x) n = ve (firstn 16 (skipn n (x ++ y))).
Proof. unfold v_alignr, ve. rewrite <- map_app, skipn_map, firstn_map. reflexivity. Qed.

Ltac explicit16 l H := do 16 (destruct l as [|? l]; [discriminate H|]); destruct l; [|discriminate H]; clear H.

Lemma ve_or_shift x y : length x = 16%nat -> length y = 16%nat ->
  v_or (v_slli (ve y) 1) (v_srli (ve x) 15) = ve (firstn 16 (skipn 15 (x ++ y))).
Proof.
  intros Hx Hy. explicit16 x Hx. explicit16 y Hy.
  unfold v_or, v_slli, v_srli, ve. cbn [map repeat app firstn skipn map2].
  repeat match goal with |- _ :: _ = _ :: _ => f_equal end;
    repeat match goal with |- context[if ?b then xc0 else x00] => destruct b end; reflexivity.
Qed.

Lemma ve_next y : length y = 16%nat -> v_add (v_set1 (-42)) (v_srli (ve y) 15) = voff (last y false).
Proof.
  intro Hy. explicit16 y Hy. unfold v_add, v_srli, ve, v_set1, voff. cbn [map repeat app skipn map2 last].
  repeat match goal with |- _ :: _ = _ :: _ => f_equal end;
    repeat match goal with |- context[if ?b then _ else _] => destruct b end; reflexivity.
Qed.

Lemma unescape_ok isa esc a b sp : length a = 16%nat -> length b = 16%nat -> length sp = 32%nat ->
  Forall2 (fun e s : bool => e = true -> s = true) (map is_eq (a ++ b)) sp ->
  exists da db,
    sse_unescape isa (mask_of sp) (mask_of (map is_eq (a ++ b))) (N.b2n esc) (voff esc) a b (vm (map is_eq a)) (vm (map is_eq b)) =
      (da, db, mask_of (map2 (fun s e => s && negb e) sp (escs esc (map is_eq (a ++ b)))),
       N.b2n (lead_out esc (map is_eq (a ++ b))), voff (lead_out esc (map is_eq (a ++ b)))) /\
    da ++ db = decoded esc (a ++ b) /\ length da = 16%nat /\ length db = 16%nat.
Proof.
  intros Ha Hb Hsp Himp. set (eqs := map is_eq (a ++ b)) in *. set (k := leads esc eqs).
  assert (Hel : length eqs = 32%nat) by (unfold eqs; rewrite map_length, app_length; lia).
  assert (Hkl : length k = 32%nat) by (unfold k; rewrite leads_len; exact Hel).
  set (eA := firstn 15 k). set (eB := firstn 16 (skipn 15 k)).
  assert (HeA : length eA = 15%nat) by (unfold eA; rewrite firstn_length; lia).
  assert (HeB : length eB = 16%nat) by (unfold eB; rewrite firstn_length, skipn_length; lia).
  assert (Hk31 : firstn 31 k = eA ++ eB).
  { unfold eA, eB. rewrite <- (firstn_skipn 15 k) at 1. rewrite firstn_app, firstn_firstn, firstn_length.
    replace (Nat.min 31 15) with 15%nat by lia. do 2 f_equal. lia. }
  assert (Hesc : escs esc eqs = esc :: eA ++ eB).
  { rewrite escs_leads, Hel. rewrite (firstn_cons 31). fold k. rewrite Hk31. reflexivity. }
  assert (Hdec : decoded esc (a ++ b) = map2 dec1 a (esc :: eA) ++ map2 dec1 b eB).
  { unfold decoded. fold eqs. rewrite Hesc. change (esc :: eA ++ eB) with ((esc :: eA) ++ eB). apply map2_app. cbn [length]. lia. }
  assert (Hlo : lead_out esc eqs = last k false).
  { unfold lead_out. fold k. apply last_indep. intros H. rewrite H in Hkl. discriminate. }
  assert (Hsh : uint 32 (uint 32 (N.shiftl (mask_of eqs) 1) + N.b2n esc) = mask_of (firstn 32 (esc :: eqs))).
  { change 32%N with (N.of_nat 32). rewrite <- mask_uint. unfold uint. rewrite N.add_mod_idemp_l by discriminate.
    cbn [mask_of]. rewrite N.shiftl_mul_pow2. f_equal. change (2 ^ 1)%N with 2%N. lia. }
  assert (Hla : length (map2 dec1 a (esc :: eA)) = 16%nat) by (rewrite map2_len; cbn [length]; lia).
  assert (Hlb : length (map2 dec1 b eB) = 16%nat) by (rewrite map2_len; lia).
  unfold sse_unescape. rewrite Hsh. cbv zeta.
  assert (Hf32 : length (firstn 32 (esc :: eqs)) = 32%nat) by (rewrite firstn_length; cbn [length]; lia).
  rewrite mask_and by lia. rewrite mask_eqb0, negb_involutive.
  destruct (existsb id (map2 andb sp (firstn 32 (esc :: eqs)))) eqn:Ex.
  - assert (Hfix : fix_eqMask 32 (mask_of eqs) (mask_of (firstn 32 (esc :: eqs))) = mask_of k).
    { rewrite <- mask_uint. pose proof (fix_leads esc eqs ltac:(lia)) as H. rewrite Hel in H. exact H. }
    rewrite Hfix.
    assert (Hk1 : uint 32 (N.shiftl (mask_of k) 1) = mask_of (false :: eA ++ eB)).
    { change 32%N with (N.of_nat 32). change 1%N with (N.of_nat 1). rewrite mask_shiftl, mask_uint.
      change (repeat false 1 ++ k) with (false :: k). rewrite (firstn_cons 31). rewrite Hk31. reflexivity. }
    rewrite Hk1. change 31%N with (N.of_nat 31). rewrite last_bit by exact Hkl. rewrite <- Hlo.
    rewrite next_offset_ok.
    replace (unot 32 (N.b2n esc)) with (mask_of (map negb (esc :: repeat false 31))).
    2:{ rewrite <- (mask_not 32) by reflexivity. f_equal. destruct esc; reflexivity. }
    change 32%N with (N.of_nat 32). rewrite (mask_not 32) by (cbn [length]; rewrite app_length; lia).
    rewrite mask_and by (rewrite map_length; cbn [length]; rewrite ?repeat_length; lia).
    rewrite mask_and by (rewrite !map2_len, !map_length; cbn [length]; rewrite ?app_length, ?repeat_length; lia).
    rewrite load_halves_ok by (cbn [length]; rewrite app_length; lia).
    replace (N.shiftr (mask_of (false :: eA ++ eB)) 16) with (mask_of eB).
    2:{ change 16%N with (N.of_nat 16). rewrite mask_shiftr. f_equal. rewrite (skipn_cons 15).
        rewrite skipn_app, skipn_all2 by lia. rewrite HeA. reflexivity. }
    rewrite load_halves_ok by lia. rewrite (firstn_all2 eB) by lia.
    replace (firstn 16 (false :: eA ++ eB)) with (false :: eA).
    2:{ rewrite (firstn_cons 15). f_equal. rewrite firstn_app, HeA, Nat.sub_diag, firstn_O, app_nil_r. symmetry. apply firstn_all2. lia. }
    rewrite add_ve_first by assumption. unfold v_set1. rewrite add_ve by assumption.
    do 2 eexists. split; [|split; [symmetry; exact Hdec|split; assumption]].
    do 3 f_equal. f_equal. rewrite Hesc.
    assert (Hz : length (eA ++ eB) = 31%nat) by (rewrite app_length; lia). generalize (eA ++ eB) Hz. intros z Hz'.
    destruct sp as [|s sp]; [discriminate|]. cbn [map map2]. rewrite andb_true_r. f_equal.
    assert (Hsp' : length sp = 31%nat) by (cbn in Hsp; lia). revert Hsp' Hz'. clear. revert sp z. generalize 31%nat as n.
    induction n as [|n IH]; intros [|s sp] [|x z] H1 H2; cbn in H1, H2; try lia; [reflexivity|].
    cbn [repeat map map2]. rewrite andb_true_r. f_equal. apply IH; lia.
  - rewrite <- Hel in Ex. destruct (leads_simple eqs esc sp ltac:(lia) Himp Ex) as [Hk Hm]. fold k in Hk.
    rewrite Hm. change 31%N with (N.of_nat 31). rewrite last_bit by exact Hel. replace (last eqs false) with (lead_out esc eqs) by (rewrite Hlo, Hk; reflexivity).
    set (xa := map is_eq a). set (xb := map is_eq b).
    assert (Hxa : length xa = 16%nat) by (unfold xa; rewrite map_length; exact Ha).
    assert (Hxb : length xb = 16%nat) by (unfold xb; rewrite map_length; exact Hb).
    assert (Hkx : k = xa ++ xb) by (rewrite Hk; unfold eqs; apply map_app).
    assert (HeAx : firstn 15 xa = eA).
    { unfold eA. rewrite Hkx, firstn_app, Hxa. cbn [Nat.sub firstn]. rewrite app_nil_r. reflexivity. }
    assert (HeBx : firstn 16 (skipn 15 (xa ++ xb)) = eB) by (unfold eB; rewrite Hkx; reflexivity).
    destruct (blend_add isa).
    + rewrite next_offset_ok, vm_slli, vm_alignr by exact Hxa. rewrite HeAx, HeBx.
      rewrite add_blend_first by assumption. unfold v_set1. rewrite add_blend by assumption.
      do 2 eexists. split; [reflexivity|]. split; [symmetry; exact Hdec|split; assumption].
    + assert (Va : v_and (vm xa) (v_set1 (-64)) = ve xa) by (rewrite <- ve_and, Hxa; reflexivity).
      assert (Vb : v_and (vm xb) (v_set1 (-64)) = ve xb) by (rewrite <- ve_and, Hxb; reflexivity).
      rewrite Va, Vb.
      rewrite ve_next by exact Hxb. rewrite ve_slli by exact Hxa. rewrite ve_or_shift, ve_alignr by assumption.
      replace (last xb false) with (lead_out esc eqs).
      2:{ rewrite Hlo, Hkx. destruct (exists_last (l := xb)) as (y & c & ->). { intros H. rewrite H in Hxb. discriminate. }
          rewrite app_assoc, !last_last. reflexivity. }
      rewrite HeAx, HeBx. rewrite add_ve_first by assumption. unfold v_set1.
      replace (if use_alignr isa then ve eB else ve eB) with (ve eB) by (destruct (use_alignr isa); reflexivity).
      rewrite add_ve by assumption.
      do 2 eexists. split; [reflexivity|]. split; [symmetry; exact Hdec|split; assumption].
Qed.
