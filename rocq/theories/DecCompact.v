(** Removing the masked bytes of a vector. *)
From Verif Require Import Base BaseLemmas DecMaskSpec DecMaskModel DecMaskProofs DecVec DecBlock DecVecProofs DecKernel DecSseModel.
From Coq Require Import ZifyBool ZifyNat ZifyN.
Ltac Zify.zify_post_hook ::= Z.div_mod_to_equations.

(** The number of flags not set. *)
Definition nkeep (l : list bool) : Z := zlen (filter negb l).

Lemma nkeep_cons b l : nkeep (b :: l) = nkeep l + (if b then 0 else 1).
Proof. unfold nkeep. cbn [filter]. destruct b; cbn [negb]; rewrite ?zlen_cons; lia. Qed.

Lemma nkeep_app a b : nkeep (a ++ b) = nkeep a + nkeep b.
Proof. induction a as [|x a IH]; [reflexivity|]. cbn [app]. rewrite !nkeep_cons, IH. lia. Qed.

Lemma nkeep_range l : 0 <= nkeep l <= zlen l.
Proof.
  induction l as [|b l IH]; [cbv; split; discriminate|]. rewrite nkeep_cons, zlen_cons. destruct b; lia.
Qed.

Lemma pick_len l : forall v, length l = length v -> zlen (pick l v) = nkeep l.
Proof.
  induction l as [|b l IH]; intros [|x v] H; cbn [length] in H; try lia; [reflexivity|].
  cbn [pick]. rewrite nkeep_cons. destruct b; [rewrite IH by lia; lia|]. rewrite zlen_cons, IH by lia. lia.
Qed.

Lemma pick_app a : forall b v w, length a = length v -> pick (a ++ b) (v ++ w) = pick a v ++ pick b w.
Proof.
  induction a as [|x a IH]; intros b [|y v] w H; cbn [length] in H; try lia; [reflexivity|].
  cbn [app pick]. destruct x; cbn [app]; rewrite IH by lia; reflexivity.
Qed.

Lemma pick_none v n : (length v <= n)%nat -> pick (repeat false n) v = v.
Proof.
  revert n; induction v as [|x v IH]; intros [|n] H; cbn [length] in H; try reflexivity; try lia.
  cbn [repeat pick]. rewrite IH by lia. reflexivity.
Qed.

(** ** Population counts *)

Lemma bits_inv8 l : length l = 8%nat -> bits_set_inv (mask_of l) = nkeep l.
Proof.
  intro H. do 8 (destruct l as [|? l]; [discriminate H|]). destruct l; [|discriminate H].
  repeat match goal with b : bool |- _ => destruct b end; reflexivity.
Qed.

Lemma kept16_ok l : (16 <= length l)%nat -> kept16 (mask_of l) = nkeep (firstn 16 l).
Proof.
  intro H. unfold kept16. change 255%N with (N.ones (N.of_nat 8)).
  change (N.shiftr (mask_of l) 8) with (N.shiftr (mask_of l) (N.of_nat 8)). rewrite mask_shiftr, !mask_low.
  rewrite !bits_inv8 by (rewrite firstn_length, ?skipn_length; lia).
  rewrite <- nkeep_app. f_equal. change 16%nat with (8 + 8)%nat.
  rewrite <- (firstn_skipn 8 l) at 3. rewrite firstn_app. rewrite firstn_firstn, firstn_length.
  replace (Nat.min (8 + 8) 8) with 8%nat by lia. do 2 f_equal. lia.
Qed.

Lemma popcount_ok l : popcount (mask_of l) = zlen l - nkeep l.
Proof.
  induction l as [|b l IH]; [reflexivity|]. cbn [mask_of]. rewrite zlen_cons, nkeep_cons.
  assert (H : forall n, popcount (N.b2n b + 2 * n) = popcount n + (if b then 1 else 0)).
  { intros [|p]; destruct b; cbn [N.b2n]; try reflexivity.
    - change (1 + 2 * N.pos p)%N with (N.pos (p~1)). cbn [popcount popcount_pos]. lia.
    - change (0 + 2 * N.pos p)%N with (N.pos (p~0)). cbn [popcount popcount_pos]. lia. }
  rewrite H, IH. destruct b; lia.
Qed.

(** ** sse2_compact_vect *)

Lemma b_and_ff x : b_and xff x = x. Proof. destruct x; reflexivity. Qed.
Lemma b_and_00 x : b_and x00 x = x00. Proof. destruct x; reflexivity. Qed.
Lemma b_andnot_ff x : b_andnot xff x = x00. Proof. destruct x; reflexivity. Qed.
Lemma b_andnot_00 x : b_andnot x00 x = x. Proof. destruct x; reflexivity. Qed.
Lemma b_or_0r x : b_or x x00 = x. Proof. destruct x; reflexivity. Qed.
Lemma b_or_0l x : b_or x00 x = x. Proof. destruct x; reflexivity. Qed.

Lemma merge_ok k : forall n v w, length v = n -> length w = n -> (k <= n)%nat ->
  v_or (v_and (vm (repeat true k ++ repeat false (n - k))) v) (v_andnot (vm (repeat true k ++ repeat false (n - k))) w)
  = firstn k v ++ skipn k w.
Proof.
  induction k as [|k IH]; intros n v w Hv Hw Hk.
  - rewrite Nat.sub_0_r. cbn [repeat app firstn skipn]. revert v w Hv Hw. clear. induction n as [|n IH]; intros [|x v] [|y w] Hv Hw; cbn in Hv, Hw; try lia; [reflexivity|].
    cbn [repeat vm map v_and v_andnot v_or map2 bm]. rewrite b_and_00, b_andnot_00, b_or_0l. f_equal. apply IH; lia.
  - destruct n as [|n]; [lia|]. destruct v as [|x v], w as [|y w]; cbn in Hv, Hw; try lia.
    replace (S n - S k)%nat with (n - k)%nat by lia.
    cbn [repeat app vm map v_and v_andnot v_or map2 bm firstn skipn]. rewrite b_and_ff, b_andnot_ff, b_or_0r.
    f_equal. apply (IH n); lia.
Qed.

Lemma unshuf_vm k : (k < 16)%nat -> unshuf_mask k = vm (repeat true k ++ repeat false (16 - k)).
Proof. intro H. do 16 (destruct k as [|k]; [reflexivity|]). lia. Qed.

Lemma unshuf_upper k : (k < 16)%nat -> unshuf_mask (31 - k) = unshuf_mask k.
Proof. intro H. do 16 (destruct k as [|k]; [reflexivity|]). lia. Qed.

Lemma top_bit_ok lz k r : (k < 16)%nat -> (r < 2 ^ N.of_nat k)%N ->
  exists i, top_bit lz (2 ^ N.of_nat k + r) = (i, r) /\ unshuf_mask (N.to_nat i) = unshuf_mask k.
Proof.
  intros Hk Hr. assert (El : N.log2 (2 ^ N.of_nat k + r) = N.of_nat k).
  { apply N.log2_unique; rewrite ?N.pow_succ_r'; lia. }
  unfold top_bit. rewrite El. destruct lz.
  - exists (31 - N.of_nat k)%N. split; [f_equal|].
    + replace (N.shiftr 0x7fffffff (31 - N.of_nat k)) with (N.ones (N.of_nat k)).
      2: { clear - Hk. do 16 (destruct k as [|k]; [reflexivity|]). lia. }
      rewrite N.land_ones. replace (2 ^ N.of_nat k + r)%N with (r + 1 * 2 ^ N.of_nat k)%N by lia.
      rewrite N.mod_add by (apply N.pow_nonzero; discriminate). apply N.mod_small. exact Hr.
    + replace (N.to_nat (31 - N.of_nat k)) with (31 - k)%nat by lia. apply unshuf_upper. exact Hk.
  - exists (N.of_nat k). rewrite Nat2N.id. split; [|reflexivity]. f_equal.
    apply N.bits_inj. intro j. rewrite N.lxor_spec, N.shiftl_1_l, N.pow2_bits_eqb.
    destruct (N.eqb_spec (N.of_nat k) j) as [<-|Hj].
    + rewrite <- El at 2. rewrite N.bit_log2 by lia. symmetry. cbn [xorb]. destruct (N.eq_dec r 0) as [->|H0]; [apply N.bits_0|].
      apply N.bits_above_log2. apply N.log2_lt_pow2; lia.
    + rewrite xorb_false_r. destruct (N.lt_ge_cases j (N.of_nat k)) as [H|H].
      * rewrite <- (N.mod_pow2_bits_low (2 ^ N.of_nat k + r) (N.of_nat k)) by exact H.
        replace (2 ^ N.of_nat k + r)%N with (r + 1 * 2 ^ N.of_nat k)%N by lia.
        rewrite N.mod_add by (apply N.pow_nonzero; discriminate). rewrite N.mod_small by exact Hr. reflexivity.
      * rewrite !N.bits_above_log2; [reflexivity| |rewrite El; lia].
        destruct (N.eq_dec r 0) as [->|H0]; [change (N.log2 0) with 0%N; lia|]. apply N.lt_le_trans with (N.of_nat k); [apply N.log2_lt_pow2; lia|lia].
Qed.

Lemma shift_out k v : length v = 16%nat -> (k < 16)%nat ->
  v_or (v_and (unshuf_mask k) v) (v_andnot (unshuf_mask k) (v_srli v 1)) = firstn k v ++ skipn (S k) v ++ [x00].
Proof.
  intros Hv Hk. rewrite unshuf_vm by lia. rewrite merge_ok; try lia.
  - f_equal. unfold v_srli. destruct v as [|x v]; [discriminate|]. cbn [skipn repeat]. rewrite skipn_app.
    cbn in Hv. replace (k - length v)%nat with 0%nat by lia. reflexivity.
  - unfold v_srli. rewrite app_length, skipn_length, repeat_length. lia.
Qed.

Lemma mask_snoc l b : mask_of (l ++ [b]) = (mask_of l + N.b2n b * 2 ^ N.of_nat (length l))%N.
Proof.
  induction l as [|x l IH]; [cbn; destruct b; reflexivity|].
  cbn [app mask_of length]. rewrite IH, Nat2N.inj_succ, N.pow_succ_r'. lia.
Qed.

Lemma firstn_S_nth {A} (v : list A) n d : (n < length v)%nat -> firstn (S n) v = firstn n v ++ [nth n v d].
Proof.
  revert n; induction v as [|x v IH]; intros n H; cbn [length] in H; [lia|].
  destruct n as [|n]; [destruct v; reflexivity|]. cbn [firstn nth app]. f_equal. apply IH. lia.
Qed.

Lemma skipn_nth {A} (v : list A) n d : (n < length v)%nat -> skipn n v = nth n v d :: skipn (S n) v.
Proof.
  revert n; induction v as [|x v IH]; intros n H; cbn [length] in H; [lia|].
  destruct n as [|n]; [reflexivity|]. cbn [skipn nth]. apply IH. lia.
Qed.

Lemma compact_vect_ok lz l : forall v fuel, length v = 16%nat -> (length l <= 16)%nat -> (length l <= fuel)%nat ->
  compact_vect lz fuel (mask_of l) v = pick l (firstn (length l) v) ++ skipn (length l) v ++ repeat x00 (length l - Z.to_nat (nkeep l)).
Proof.
  induction l as [|b l IH] using rev_ind; intros v fuel Hv Hl Hf.
  - cbn [length mask_of firstn pick skipn app Nat.sub repeat]. rewrite app_nil_r. destruct fuel; reflexivity.
  - rewrite app_length in *. cbn [length] in *. rewrite Nat.add_1_r in *. rewrite mask_snoc.
    pose proof (nkeep_range l) as Hr. unfold zlen in Hr.
    rewrite nkeep_app, nkeep_cons. change (nkeep []) with 0.
    rewrite (firstn_S_nth v (length l) x00) by lia. rewrite pick_app by (rewrite firstn_length; lia).
    destruct b; cbn [N.b2n pick].
    + destruct fuel as [|fuel]; [lia|]. cbn [compact_vect].
      pose proof (mask_lt l). set (n := N.of_nat (length l)) in *.
      replace (mask_of l + 1 * 2 ^ n)%N with (2 ^ n + mask_of l)%N by lia.
      destruct (N.eqb_spec (2 ^ n + mask_of l) 0); [lia|].
      destruct (top_bit_ok lz (length l) (mask_of l) ltac:(lia) ltac:(assumption)) as (i & Ei & Eu). fold n in Ei.
      rewrite Ei, Eu, shift_out by lia.
      rewrite IH; [|rewrite !app_length, firstn_length, skipn_length; cbn [length]; lia|lia|lia].
      rewrite firstn_app, firstn_firstn, Nat.min_id, firstn_length, Hv.
      replace (length l - Nat.min (length l) 16)%nat with 0%nat by lia. rewrite firstn_O, app_nil_r.
      rewrite app_nil_r. f_equal.
      rewrite skipn_app, skipn_all2 by (rewrite firstn_length; lia). rewrite firstn_length, Hv.
      replace (length l - Nat.min (length l) 16)%nat with 0%nat by lia. cbn [skipn app]. rewrite <- app_assoc. f_equal.
      cbn [app]. replace (S (length l) - Z.to_nat (nkeep l + (0 + 0)))%nat with (S (length l - Z.to_nat (nkeep l))) by lia. reflexivity.
    + rewrite N.mul_0_l, N.add_0_r. rewrite IH by lia. rewrite <- app_assoc. f_equal. cbn [app].
      rewrite (skipn_nth v (length l) x00) by lia. cbn [app].
      replace (S (length l) - Z.to_nat (nkeep l + (0 + 1)))%nat with (length l - Z.to_nat (nkeep l))%nat by lia. reflexivity.
Qed.

(** ** The lookup table *)

Lemma shuffle_lut v : forall l u w, v = u ++ w -> length l = length w -> (length v <= 16)%nat ->
  v_shuffle v (lut_fill (length l) (zlen u) (mask_of l)) = pick l w.
Proof.
  induction l as [|b l IH]; intros u w Hv Hl Hn; [destruct w; reflexivity|].
  destruct w as [|x w]; [discriminate Hl|]. cbn [length lut_fill pick].
  assert (E : N.shiftr (mask_of (b :: l)) 1 = mask_of l) by (change 1%N with (N.of_nat 1); rewrite mask_shiftr; reflexivity).
  assert (E1 : N.land (mask_of (b :: l)) 1 = N.b2n b).
  { change 1%N with (N.ones (N.of_nat 1)). rewrite mask_low. cbn. destruct b; reflexivity. }
  rewrite E, E1. unfold v_shuffle in *. rewrite map_app.
  replace (zlen u + 1) with (zlen (u ++ [x])) by (autorewrite with zlen; lia).
  rewrite (IH (u ++ [x]) w); [|rewrite <- app_assoc; exact Hv|cbn in Hl; lia|exact Hn].
  destruct b; [reflexivity|]. cbn [N.b2n N.eqb map app]. f_equal.
  assert (Hu : 0 <= zlen u < 16). { subst v. rewrite app_length in Hn. cbn in Hn. unfold zlen. lia. }
  unfold b_top. rewrite bz_u8. rewrite Z.mod_small by lia. destruct (128 <=? zlen u) eqn:Et; [lia|].
  change 15 with (Z.ones 4). rewrite Z.land_ones by lia. rewrite Z.mod_small by (change (2 ^ 4) with 16; lia).
  unfold zlen. rewrite Nat2Z.id. subst v. rewrite app_nth2, Nat.sub_diag by lia. reflexivity.
Qed.

Lemma compact_lut_ok l v : length l = 16%nat -> length v = 16%nat ->
  exists z, v_shuffle v (compact_lut (mask_of l)) = pick l v ++ z /\ length (pick l v ++ z) = 16%nat.
Proof.
  intros Hl Hv. pose proof (shuffle_lut v l [] v eq_refl ltac:(lia) ltac:(lia)) as H. rewrite Hl in H. change (zlen []) with 0 in H.
  unfold compact_lut. unfold v_shuffle in *. rewrite map_app. rewrite H.
  eexists. split; [reflexivity|]. rewrite app_length, map_length, repeat_length.
  rewrite <- H, map_length.
  assert (length (lut_fill 16 0 (mask_of l)) <= 16)%nat.
  { clear. generalize 0 as j, (mask_of l) as k. generalize 16%nat as n. induction n as [|n IH]; intros j k; [cbn; lia|].
    cbn [lut_fill]. rewrite app_length. specialize (IH (j + 1) (N.shiftr k 1)). destruct (N.eqb _ 0); cbn [length]; lia. }
  lia.
Qed.
