(** The vectors of the NEON encode kernel: the flags, the masks and the text. *)
From Verif Require Import Base BaseLemmas DecMaskSpec DecMaskModel DecMaskProofs DecVec DecVecProofs DecSseModel EncModel EncSpec EncProofs EncEnd EncSseModel
  EncLoopModel EncNeonModel EncBlock EncVec EncFlags EncSseProofs EncLoop EncRvvProofs.
From Coq Require Import ZifyBool ZifyNat ZifyN.
Ltac Zify.zify_post_hook ::= Z.div_mod_to_equations.

(** ** Vectors *)

Lemma map2_rep {A C D} (f : A -> C -> D) x : forall v n, (length v <= n)%nat -> map2 f v (repeat x n) = map (fun c => f c x) v.
Proof. induction v as [|c v IH]; intros [|n] H; try reflexivity; cbn in H; [lia|]. cbn [repeat map2 map]. rewrite IH by lia. reflexivity. Qed.
Lemma map2_rep' {A C D} (f : A -> C -> D) x : forall v n, (length v <= n)%nat -> map2 f (repeat x n) v = map (f x) v.
Proof. induction v as [|c v IH]; intros [|n] H; try reflexivity; cbn in H; [lia|]. cbn [repeat map2 map]. rewrite IH by lia. reflexivity. Qed.
Lemma map2_maps {A C D E} (f : C -> D -> E) (g : A -> C) (h : A -> D) v : map2 f (map g v) (map h v) = map (fun c => f (g c) (h c)) v.
Proof. induction v as [|c v IH]; [reflexivity|]. cbn [map map2]. rewrite IH. reflexivity. Qed.
Lemma map2_self {A D E} (f : A -> D -> E) (h : A -> D) v : map2 f v (map h v) = map (fun c => f c (h c)) v.
Proof. induction v as [|c v IH]; [reflexivity|]. cbn [map map2]. rewrite IH. reflexivity. Qed.

Definition sel (bs : list bool) (a b : vec) : vec := map2 (fun (m : bool) ab => if m then fst ab else snd ab) bs (map2 pair a b).

Lemma bsl_bm b x y : b_bsl (bm b) x y = if b then x else y.
Proof. unfold b_bsl. rewrite b_and_bm, b_andnot_bm. destruct b; [apply b_or_0_r|apply b_or_0_l]. Qed.
Lemma bsl_vm bs : forall a b, v_bsl (vm bs) a b = sel bs a b.
Proof.
  unfold v_bsl, sel, vm. intros a b. generalize (map2 pair a b). induction bs as [|x bs IH]; intros [|y l]; try reflexivity.
  cbn [map map2]. rewrite IH, bsl_bm. reflexivity.
Qed.
Lemma cge_vm a : forall b, v_cge a b = vm (map2 (fun x y => bz y <=? bz x) a b).
Proof. unfold v_cge, vm. induction a as [|x a IH]; intros [|y b]; try reflexivity. cbn [map2 map]. rewrite IH. reflexivity. Qed.
Lemma cgt_vm a : forall b, v_cgt a b = vm (map2 (fun x y => bz y <? bz x) a b).
Proof. unfold v_cgt, vm. induction a as [|x a IH]; intros [|y b]; try reflexivity. cbn [map2 map]. rewrite IH. reflexivity. Qed.

(** The characters after the addition. *)
Definition fin1 (f : bool) (c : byte) : byte := u8 (bz c + if f then 106 else 42).
Definition outd (fs : list bool) (ds : list byte) : list byte := map2 fin1 fs ds.

Lemma expand_weave fs : forall ds, expand fs ds = weave fs (outd fs ds).
Proof. induction fs as [|f fs IH]; intros [|c ds]; try reflexivity. cbn [expand outd map2 weave]. fold (outd fs ds). rewrite IH. destruct f; reflexivity. Qed.
Lemma outd_len fs ds : length fs = length ds -> length (outd fs ds) = length ds.
Proof. intro H. unfold outd. rewrite EncSpread.map2_len by exact H. exact H. Qed.
Lemma outd_app a b : forall c d, length a = length c -> outd (a ++ b) (c ++ d) = outd a c ++ outd b d.
Proof.
  induction a as [|x a IH]; intros [|y c] d H; try discriminate; [reflexivity|]. cbn [app outd map2]. fold (outd (a ++ b) (c ++ d)). rewrite IH by (cbn in H; lia). reflexivity.
Qed.
Lemma weave_len fs : forall d, length fs = length d -> zlen (weave fs d) = tot fs.
Proof.
  induction fs as [|f fs IH]; intros [|c d] H; try discriminate; [reflexivity|]. cbn [weave]. rewrite zlen_app, tot_cons, IH by (cbn in H; lia). destruct f; reflexivity.
Qed.

Ltac sixteen v H := do 16 (destruct v as [|? v]; [discriminate H|]); (destruct v; [|discriminate H]).

Section Chars.
Variable v8 : bool.

Lemma cmp_ok v : length v = 16%nat -> neon_cmp v8 v = vm (map (must_escape false false) v).
Proof.
  intro H. unfold neon_cmp, v_set1. destruct v8.
  - rewrite cmpeq_rep by lia. unfold v_add. rewrite map2_rep by lia. unfold v_tbx, vm. rewrite map_map, map2_maps, map_map. apply map_ext.
    intro c. destruct c; vm_compute; reflexivity.
  - rewrite !cmpeq_rep by lia. rewrite !vm_or, !map2_orb. unfold vm. f_equal. apply map_ext. intro c. destruct c; vm_compute; reflexivity.
Qed.

Lemma data_ok v : length v = 16%nat -> neon_data v8 v = outd (map (must_escape false false) v) v.
Proof.
  intro H. unfold neon_data. rewrite cmp_ok by exact H. unfold v_set1, outd. destruct v8.
  - unfold v_add, v_and, v_or. rewrite !map2_rep by (unfold vm; rewrite ?map_length; lia). unfold vm. rewrite !map_map, map2_maps.
    rewrite <- (map_id v) at 3. rewrite map2_maps. apply map_ext. intro c. destruct c; vm_compute; reflexivity.
  - rewrite bsl_vm. unfold sel. change (map2 pair (repeat (u8 (-64 - 42)) 16) (repeat (u8 (-42)) 16)) with (repeat (u8 (-64 - 42), u8 (-42)) 16).
    rewrite map2_rep by (rewrite map_length; lia). rewrite map_map. unfold v_sub. rewrite map2_self.
    rewrite <- (map_id v) at 3. rewrite map2_maps. apply map_ext. intro c. destruct c; vm_compute; reflexivity.
Qed.

(** The flags of the 16 characters from the last one of a line. *)
Definition eol_flags (v : list byte) : list bool :=
  match v with e :: t => must_escape false true e :: esc_flags true t | [] => [] end.

Lemma eol_flags_len v : length (eol_flags v) = length v.
Proof. destruct v; [reflexivity|]. cbn [eol_flags length]. rewrite esc_flags_len. reflexivity. Qed.

Lemma nl_sum a0 a1 a2 a3 b0 b1 b2 b3 : (Nat.b2n a0 + Nat.b2n a1 + Nat.b2n a2 + Nat.b2n a3 <= 1)%nat -> (Nat.b2n b0 + Nat.b2n b1 + Nat.b2n b2 + Nat.b2n b3 <= 1)%nat ->
  v_padd16 (v_padd16 ([bm a0; bm b0; bm a1; bm b1; bm a2; bm b2; bm a3; bm b3] ++ repeat x00 8) ++ repeat x00 8) =
  bm (a0 || a1 || a2 || a3) :: bm (b0 || b1 || b2 || b3) :: repeat x00 6.
Proof.
  intros HA HB. destruct a0, a1, a2, a3; cbn [Nat.b2n] in HA; try lia; destruct b0, b1, b2, b3; cbn [Nat.b2n] in HB; try lia; vm_compute; reflexivity.
Qed.

Lemma or0_vm l : forall n, (length l <= n)%nat -> v_or (vm l) (repeat x00 n) = vm l.
Proof.
  unfold v_or, vm. induction l as [|b l IH]; intros [|n] H; try reflexivity; cbn in H; [lia|]. cbn [map repeat map2]. rewrite IH, b_or_0_r by lia. reflexivity.
Qed.

Lemma first_two a b x y l : length l = 14%nat ->
  v_or (firstn 8 (vm (a :: b :: l))) (bm x :: bm y :: repeat x00 6) ++ skipn 8 (vm (a :: b :: l)) = vm ((a || x) :: (b || y) :: l).
Proof.
  intro H. unfold vm. rewrite firstn_map, skipn_map, !firstn_cons. change (skipn 8 (a :: b :: l)) with (skipn 6 l).
  unfold v_or. cbn [map map2 app]. f_equal; [destruct a, x; reflexivity|]. f_equal; [destruct b, y; reflexivity|].
  fold v_or. fold (vm (firstn 6 l)). rewrite or0_vm by (rewrite firstn_length; lia). unfold vm. rewrite <- map_app, firstn_skipn. reflexivity.
Qed.

Lemma eol_first_chars c : 
  beq (if bz (u8 (Z.shiftr (b_signed c + 42) 1)) <? 32 then nth (Z.to_nat (bz (u8 (Z.shiftr (b_signed c + 42) 1)))) (eol_table1 ++ eol_table2) x00 else u8 (61 - 42)) c = must_escape false true c /\
  beq (if bz (u8 (Z.shiftr (b_signed c + 48) 1)) <? 32 then nth (Z.to_nat (bz (u8 (Z.shiftr (b_signed c + 48) 1)))) (eol_table1 ++ eol_table2) x00 else u8 (61 - 42)) c = must_escape true false c /\
  beq (if bz (u8 (Z.shiftr (b_signed c + 66) 1)) <? 32 then nth (Z.to_nat (bz (u8 (Z.shiftr (b_signed c + 66) 1)))) (eol_table1 ++ eol_table2) x00 else u8 (61 - 42)) c = must_escape false false c.
Proof. destruct c; vm_compute; auto. Qed.

Lemma eol_two_chars c :
  (must_escape false false c || (beq c (u8 (32 + 214)) || beq c (u8 (9 + 214)) || beq c (u8 (13 + 214)) || beq c (u8 (61 - 42)))) = must_escape false true c /\
  (must_escape false false c || (beq c (u8 (32 + 214)) || beq c (u8 (9 + 214)) || beq c (u8 (46 - 42)) || beq c (u8 (61 - 42)))) = must_escape true false c /\
  (Nat.b2n (beq c (u8 (32 + 214))) + Nat.b2n (beq c (u8 (9 + 214))) + Nat.b2n (beq c (u8 (13 + 214))) + Nat.b2n (beq c (u8 (61 - 42))) <= 1)%nat /\
  (Nat.b2n (beq c (u8 (32 + 214))) + Nat.b2n (beq c (u8 (9 + 214))) + Nat.b2n (beq c (u8 (46 - 42))) + Nat.b2n (beq c (u8 (61 - 42))) <= 1)%nat.
Proof. destruct c; vm_compute; repeat split; auto. Qed.

Lemma eol_cmp_ok v : length v = 16%nat -> eol_cmpA v8 v = vm (eol_flags v).
Proof.
  intro H. unfold eol_cmpA. destruct v8 eqn:E8.
  - destruct v as [|c0 [|c1 v]]; try discriminate. cbn [eol_flags esc_flags]. unfold v_hadd, v_tbx, v_set1.
    change (map u8 [42; 48; 66; 66; 66; 66; 66; 66; 66; 66; 66; 66; 66; 66; 66; 66]) with (u8 42 :: u8 48 :: repeat (u8 66) 14).
    cbn [map2]. rewrite (map2_rep _ _ v) by (cbn in H; lia).
    rewrite map2_rep' by (cbn [length]; rewrite map_length; cbn in H; lia). unfold v_cmpeq. cbn [map map2 vm]. f_equal; [|f_equal].
    + f_equal. exact (proj1 (eol_first_chars c0)).
    + f_equal. exact (proj1 (proj2 (eol_first_chars c1))).
    + rewrite map_map. apply cmp_map. intro c. exact (proj2 (proj2 (eol_first_chars c))).
  - cbv zeta. rewrite <- E8, cmp_ok by exact H. clear E8. destruct v as [|c0 [|c1 v]]; try discriminate. change (concat (repeat (firstn 2 (c0 :: c1 :: v)) 4)) with [c0; c1; c0; c1; c0; c1; c0; c1].
    change (map u8 [32 + 214; 32 + 214; 9 + 214; 9 + 214; 13 + 214; 46 - 42; 61 - 42; 61 - 42]) with
      [u8 (32 + 214); u8 (32 + 214); u8 (9 + 214); u8 (9 + 214); u8 (13 + 214); u8 (46 - 42); u8 (61 - 42); u8 (61 - 42)].
    unfold v_cmpeq. cbn [map2].
    destruct (eol_two_chars c0) as (A1 & _ & A3 & _). destruct (eol_two_chars c1) as (_ & B2 & _ & B4).
    rewrite nl_sum by assumption. cbn [map]. rewrite first_two by (rewrite map_length; cbn in H; lia). rewrite A1, B2. reflexivity.
Qed.

Lemma eol_data_ok v : length v = 16%nat -> eol_dataA v8 v = outd (eol_flags v) v.
Proof.
  intro H. unfold eol_dataA. rewrite eol_cmp_ok by exact H. pose proof (eol_flags_len v) as Hf. rewrite H in Hf. revert Hf. generalize (eol_flags v). intros fs Hf.
  rewrite !bsl_vm. unfold sel, v_set1, outd.
  change (map2 pair (repeat (u8 (64 + 42)) 16) (repeat (u8 42) 16)) with (repeat (u8 (64 + 42), u8 42) 16).
  change (map2 pair (repeat (u8 (-64 - 42)) 16) (repeat (u8 (-42)) 16)) with (repeat (u8 (-64 - 42), u8 (-42)) 16).
  rewrite !map2_rep by lia.
  assert (E : length fs = length v) by lia. clear H Hf. revert v E. unfold v_add, v_sub.
  destruct v8; induction fs as [|f fs IH]; intros [|c v] E; try discriminate; try reflexivity; cbn [map map2]; rewrite IH by (cbn in E; lia); f_equal;
    destruct f, c; reflexivity.
Qed.

End Chars.

(** ** Masks *)

Definition bo (l : list bool) : byte := u8 (Z.of_N (mask_of l)).
Definition z4 : list bool := repeat false 4.

Definition octs (v8 : bool) (f1 f2 f3 f4 : list bool) : list (list bool) :=
  if v8 then flat_map (fun o => [firstn 4 o ++ z4; z4 ++ skipn 4 o]) [f1; f2; f3; f4] else [f1; f2; f3; f4].

Ltac eight v H := do 8 (destruct v as [|? v]; [discriminate H|]); (destruct v; [clear H|discriminate H]).

Lemma low4 a b c d : b_add (b_add (b_and (bm a) (u8 1)) (b_and (bm b) (u8 2))) (b_add (b_and (bm c) (u8 4)) (b_and (bm d) (u8 8))) = bo [a; b; c; d; false; false; false; false].
Proof. destruct a, b, c, d; reflexivity. Qed.
Lemma high4 a b c d : b_add (b_add (b_and (bm a) (u8 16)) (b_and (bm b) (u8 32))) (b_add (b_and (bm c) (u8 64)) (b_and (bm d) (u8 128))) = bo [false; false; false; false; a; b; c; d].
Proof. destruct a, b, c, d; reflexivity. Qed.
Lemma join8 a b c d e f g h : b_add (bo [a; b; c; d; false; false; false; false]) (bo [false; false; false; false; e; f; g; h]) = bo [a; b; c; d; e; f; g; h].
Proof. destruct a, b, c, d, e, f, g, h; reflexivity. Qed.

Lemma mask_oct o r : length o = 8%nat -> mask_of (o ++ r) = (mask_of o + 256 * mask_of r)%N.
Proof. intro H. eight o H. cbn [app mask_of]. lia. Qed.

Lemma bo_N o : length o = 8%nat -> Z.to_N (bz (bo o)) = mask_of o.
Proof.
  intro H. unfold bo. rewrite bz_u8. pose proof (mask_lt o) as Hm. rewrite H in Hm. change (2 ^ N.of_nat 8)%N with 256%N in Hm. rewrite Z.mod_small by lia. lia.
Qed.

Lemma lane_octs l : Forall (fun o => length o = 8%nat) l -> lane (map bo l) = mask_of (concat l).
Proof.
  induction 1 as [|o l Ho Hl IH]; [reflexivity|]. cbn [map lane concat]. rewrite IH, bo_N, mask_oct by exact Ho. reflexivity.
Qed.

Section Masks.
Variable v8 : bool.
Variables f1 f2 f3 f4 : list bool.
Hypothesis H1 : length f1 = 8%nat.
Hypothesis H2 : length f2 = 8%nat.
Hypothesis H3 : length f3 = 8%nat.
Hypothesis H4 : length f4 = 8%nat.
Let fs := (f1 ++ f2) ++ f3 ++ f4.

Ltac gen_f := revert H1 H2 H3 H4; generalize f1, f2, f3, f4; clear;
  let g1 := fresh "g" in let g2 := fresh "g" in let g3 := fresh "g" in let g4 := fresh "g" in
  let G1 := fresh "G" in let G2 := fresh "G" in let G3 := fresh "G" in let G4 := fresh "G" in
  intros g1 g2 g3 g4 G1 G2 G3 G4; eight g1 G1; eight g2 G2; eight g3 G3; eight g4 G4.

Definition packs (merged : vec) : Prop := firstn (if v8 then 8 else 4) merged = map bo (octs v8 f1 f2 f3 f4).

Lemma merge_ok : packs (neon_merge v8 (vm (f1 ++ f2)) (vm (f3 ++ f4))).
Proof.
  unfold packs. gen_f.
  unfold neon_merge, vm, v_and, bit_select, octs, z4.
  destruct v8; cbn [map app map2 v_padd firstn skipn flat_map repeat]; rewrite ?low4, ?high4, ?join8; reflexivity.
Qed.

(** The mask as a list of bits. *)
Definition flat : list bool := concat (octs v8 f1 f2 f3 f4).

Lemma octs_len : Forall (fun o => length o = 8%nat) (octs v8 f1 f2 f3 f4).
Proof.
  unfold octs, z4. destruct v8; cbn [flat_map app]; repeat constructor; auto; rewrite app_length, ?firstn_length, ?skipn_length; cbn [length repeat]; lia.
Qed.

Lemma mask_ok merged : packs merged -> neon_mask v8 merged = mask_of flat.
Proof. intro P. unfold neon_mask. rewrite P. apply lane_octs, octs_len. Qed.

Lemma flat_len : length flat = if v8 then 64%nat else 32%nat.
Proof.
  unfold flat, octs, z4. revert v8. gen_f. intros []; reflexivity.
Qed.

Lemma tot_oct o : tot (firstn 4 o ++ z4) + tot (z4 ++ skipn 4 o) = tot o + 8.
Proof. rewrite !tot_app. change (tot z4) with 4. rewrite (tot_split 4 o). lia. Qed.

Lemma flat_tot : tot flat - zlen flat = tot fs - 32.
Proof.
  unfold zlen. rewrite flat_len. unfold flat, octs, fs. destruct v8; cbn [flat_map concat app]; rewrite !tot_app; change (tot []) with 0.
  - pose proof (tot_oct f1) as T1. pose proof (tot_oct f2) as T2. pose proof (tot_oct f3) as T3. pose proof (tot_oct f4) as T4.
    rewrite !tot_app in T1, T2, T3, T4. lia.
  - lia.
Qed.

Lemma many_w l w : (length l <= w)%nat -> (1 <= w)%nat ->
  negb (N.eqb (N.land (mask_of l) (uint (N.of_nat w) (mask_of l + (2 ^ N.of_nat w - 1)))) 0) = (1 <? tot l - zlen l).
Proof.
  intros Hl Hw. assert (Hlt : (mask_of l < 2 ^ N.of_nat w)%N).
  { eapply N.lt_le_trans; [apply mask_lt|]. apply N.pow_le_mono_r; lia. }
  assert (E : N.land (mask_of l) (uint (N.of_nat w) (mask_of l + (2 ^ N.of_nat w - 1))) = N.land (mask_of l) (mask_of l - 1)).
  { destruct (N.eq_dec (mask_of l) 0) as [->|Hm]; [reflexivity|]. f_equal. unfold uint. set (k := (2 ^ N.of_nat w)%N) in *.
    replace (mask_of l + (k - 1))%N with (mask_of l - 1 + 1 * k)%N by lia.
    rewrite N.mod_add by lia. apply N.mod_small. lia. }
  rewrite E, clear_lowest. lia.
Qed.

Lemma many_ok : neon_many v8 (mask_of flat) = (1 <? tot fs - 32).
Proof.
  unfold neon_many, mask_bits. rewrite <- flat_tot. pose proof flat_len as Hl.
  destruct v8; [change (Z.to_N 64) with (N.of_nat 64)|change (Z.to_N 32) with (N.of_nat 32)]; apply many_w; lia.
Qed.

Lemma quarters_ok merged : packs merged ->
  exists packed, neon_quarters v8 (mask_of flat) merged = (mask_of f1, mask_of f2, mask_of f3, mask_of f4, packed) /\
    firstn 4 packed = map bo [f1; f2; f3; f4].
Proof.
  intro P. unfold neon_quarters. unfold packs in P. pose proof flat_len as Hl.
  change 0xff%N with (N.ones (N.of_nat 8)).
  change 8%N with (N.of_nat 8). change 16%N with (N.of_nat 16). change 24%N with (N.of_nat 24). change 32%N with (N.of_nat 32). change 48%N with (N.of_nat 48).
  destruct v8 eqn:E8.
  - cbv zeta. rewrite mask_shiftr, <- (mask_pad (skipn 8 flat) 8), mask_or by (rewrite app_length, skipn_length, repeat_length; lia).
    rewrite !mask_shiftr, !mask_low.
    exists (v_padd (firstn 8 merged ++ firstn 8 merged)). split.
    + f_equal. unfold flat, octs, z4. rewrite E8. gen_f.
      cbn [flat_map concat app repeat firstn skipn map2 orb]. rewrite !orb_false_r. reflexivity.
    + rewrite P. unfold octs, z4. gen_f.
      cbn [map flat_map app firstn skipn repeat v_padd]. rewrite !join8. reflexivity.
  - eexists. split; [|exact P]. rewrite !mask_shiftr, !mask_low. unfold flat, octs. rewrite E8. gen_f. reflexivity.
Qed.

Lemma cnt_bo o : length o = 8%nat -> Z.to_N (bz (u8 (popcount (Z.to_N (bz (bo o)))))) = Z.to_N (tot o - 8).
Proof.
  intro H. rewrite bo_N, popcount_tot by exact H. unfold zlen. rewrite H, bz_u8. pose proof (tot_range o) as T. unfold zlen in T. rewrite Z.mod_small by lia. reflexivity.
Qed.

Lemma lens_ok packed d : firstn 4 packed = map bo [f1; f2; f3; f4] -> (d = 0 \/ d = 1) ->
  neon_lens packed (0x08080808 - Z.to_N d) = (tot f1 - d, tot f2, tot f3, tot f4, tot fs - d).
Proof.
  intros P Hd. unfold neon_lens, v_cnt. rewrite firstn_map, P. cbn [map lane]. rewrite !cnt_bo by assumption.
  assert (R : forall o, length o = 8%nat -> 8 <= tot o <= 16) by (intros o Ho; pose proof (tot_range o) as T; unfold zlen in T; lia).
  pose proof (R f1 H1). pose proof (R f2 H2). pose proof (R f3 H3). pose proof (R f4 H4).
  unfold fs. rewrite !tot_app. generalize dependent (tot f1). intros t1 Ht1. generalize dependent (tot f2). intros t2 Ht2.
  generalize dependent (tot f3). intros t3 Ht3. generalize dependent (tot f4). intros t4 Ht4.
  set (c := uint 32 _). assert (Ec : c = Z.to_N (t1 - d + 256 * t2 + 65536 * t3 + 16777216 * t4)).
  { unfold c, uint. change (2 ^ 32)%N with 4294967296%N. lia. }
  clearbody c. change 0xff%N with (N.ones 8). rewrite !N.land_ones, !N.shiftr_div_pow2. unfold uint.
  change (2 ^ 8)%N with 256%N. change (2 ^ 16)%N with 65536%N. change (2 ^ 24)%N with 16777216%N. change (2 ^ 32)%N with 4294967296%N.
  assert (Em : ((c * 16843009) mod 4294967296 / 16777216)%N = Z.to_N (t1 - d + t2 + t3 + t4)).
  { assert (E : (c * 16843009 = (Z.to_N (t1 - d) + 256 * Z.to_N (t1 - d + t2) + 65536 * Z.to_N (t1 - d + t2 + t3) + 16777216 * Z.to_N (t1 - d + t2 + t3 + t4))
         + Z.to_N (t2 + t3 + t4 + 256 * (t3 + t4) + 65536 * t4) * 4294967296)%N) by (subst c; lia).
    rewrite E, N.mod_add by lia. rewrite N.mod_small by lia.
    symmetry. apply N.div_unique with (r := (Z.to_N (t1 - d) + 256 * Z.to_N (t1 - d + t2) + 65536 * Z.to_N (t1 - d + t2 + t3))%N); lia. }
  rewrite Em, Ec. clear Em Ec c.
  apply f_equal2; [|lia]. apply f_equal2; [|lia]. apply f_equal2; [|lia]. apply f_equal2; lia.
Qed.

(** The text of half a vector. *)
Lemma half_text (d : vec) fa fb x y : length fa = 8%nat -> length fb = 8%nat -> length d = 16%nat -> neon_halves v8 d (mask_of fa) (mask_of fb) = (x, y) ->
  (firstn (Z.to_nat (tot fa)) x = weave fa (part 0 8 d) /\ length x = 16%nat) /\ (firstn (Z.to_nat (tot fb)) y = weave fb (part 8 8 d) /\ length y = 16%nat).
Proof.
  intros Ha Hb Hd E.
  assert (Ex : x = fst (neon_halves v8 d (mask_of fa) 0)) by (change x with (fst (x, y)); rewrite <- E; unfold neon_halves; destruct v8; reflexivity).
  assert (Ey : y = snd (neon_halves v8 d 0 (mask_of fb))) by (change y with (snd (x, y)); rewrite <- E; unfold neon_halves; destruct v8; reflexivity).
  rewrite Ex, Ey. clear Ex Ey E x y. sixteen d Hd. split.
  - bits8 fa Ha; destruct v8; vm_compute; split; reflexivity.
  - bits8 fb Hb; destruct v8; vm_compute; split; reflexivity.
Qed.

End Masks.
