(** The 256-bit decode kernel: vectors, unescaping and storing a block. *)
From Verif Require Import Base BaseLemmas DecSpec DecMaskSpec DecMaskModel DecMaskProofs DecVec DecBlock DecVecProofs DecKernel
  DecBlockFacts DecKernelModel DecSseModel EncSseModel EncAvxModel DecAvxModel DecCompact DecSseProofs DecSseMain.
From Coq Require Import ZifyBool ZifyNat ZifyN.
Ltac Zify.zify_post_hook ::= Z.div_mod_to_equations.

(** ** Masks and vectors *)

Lemma k_bits_ok l : k_bits (length l) (mask_of l) = l.
Proof.
  unfold k_bits. apply (nth_ext _ _ (N.testbit (mask_of l) (N.of_nat 0)) false); [rewrite map_length, seq_length; reflexivity|].
  intros i Hi. rewrite map_length, seq_length in Hi.
  rewrite (map_nth (fun i => N.testbit (mask_of l) (N.of_nat i)) (seq 0 (length l)) 0%nat i), seq_nth by lia. apply mask_bit.
Qed.

Lemma k_bits32 l : length l = 32%nat -> k_bits 32 (mask_of l) = l.
Proof. intro H. rewrite <- H. apply k_bits_ok. Qed.

Lemma k_bits32' l : (32 <= length l)%nat -> k_bits 32 (mask_of l) = firstn 32 l.
Proof.
  intro H. rewrite <- (k_bits32 (firstn 32 l)) by (rewrite firstn_length; lia). unfold k_bits. apply map_ext_in.
  intros i Hi. apply in_seq in Hi. rewrite !mask_bit. rewrite <- (firstn_skipn 32 l) at 1. apply app_nth1. rewrite firstn_length. lia.
Qed.

Lemma map2_beq_rep c : forall v n, (length v <= n)%nat -> map2 beq v (repeat c n) = map (fun x => beq x c) v.
Proof.
  induction v as [|x v IH]; intros [|n] H; cbn [length] in H; try reflexivity; try lia.
  cbn [repeat map2 map]. f_equal. apply IH. lia.
Qed.
Lemma map2_beq_rep' c : forall v n, (length v <= n)%nat -> map2 beq (repeat c n) v = map (fun x => beq x c) v.
Proof.
  induction v as [|x v IH]; intros [|n] H; cbn [length] in H; try reflexivity; try lia.
  cbn [repeat map2 map]. f_equal; [apply beq_sym|apply IH; lia].
Qed.

Lemma y_part z c k t : u8 z = c -> (k + 32 <= length t)%nat -> v_cmpeq (part k 32 t) (y_set1 z) = vm (flags (at_ k c) 32 t).
Proof. intros <- H. unfold y_set1. rewrite cmpeq_rep, part_flags; auto. rewrite part_len; lia. Qed.
Lemma y_part' z c k t : u8 z = c -> (k + 32 <= length t)%nat -> v_cmpeq (y_set1 z) (part k 32 t) = vm (flags (at_ k c) 32 t).
Proof. intros <- H. unfold y_set1. rewrite cmpeq_rep', part_flags; auto. rewrite part_len; lia. Qed.
Lemma k_part z c k t : u8 z = c -> (k + 32 <= length t)%nat -> k_cmpeq (part k 32 t) (y_set1 z) = mask_of (flags (at_ k c) 32 t).
Proof. intros <- H. unfold y_set1, k_cmpeq. rewrite map2_beq_rep, part_flags; auto. rewrite part_len; lia. Qed.
Lemma k_part' z c k t : u8 z = c -> (k + 32 <= length t)%nat -> k_cmpeq (y_set1 z) (part k 32 t) = mask_of (flags (at_ k c) 32 t).
Proof. intros <- H. unfold y_set1, k_cmpeq. rewrite map2_beq_rep', part_flags; auto. rewrite part_len; lia. Qed.

(** ** Storing *)

Lemma popcount_part mask k n rm : mask = mask_of rm -> (k + n <= length rm)%nat ->
  popcount (N.land mask (N.shiftl (N.ones (N.of_nat n)) (N.of_nat k))) = Z.of_nat n - nkeep (firstn n (skipn k rm)).
Proof.
  intros -> H.
  assert (E : N.land (mask_of rm) (N.shiftl (N.ones (N.of_nat n)) (N.of_nat k)) = mask_of (repeat false k ++ firstn n (skipn k rm))).
  { rewrite <- mask_shiftl, <- mask_low, <- mask_shiftr. apply N.bits_inj. intro i.
    rewrite N.land_spec. destruct (N.lt_ge_cases i (N.of_nat k)) as [Hi|Hi].
    - rewrite !N.shiftl_spec_low by exact Hi. apply andb_false_r.
    - rewrite !N.shiftl_spec_high', N.land_spec, N.shiftr_spec' by exact Hi. f_equal. f_equal. lia. }
  rewrite E, popcount_ok, nkeep_app. autorewrite with zlen.
  replace (nkeep (repeat false k)) with (zlen (repeat false k)).
  2:{ clear. induction k as [|k IH]; [reflexivity|]. cbn [repeat]. rewrite nkeep_cons, zlen_cons, <- IH. reflexivity. }
  assert (zlen (firstn n (skipn k rm)) = Z.of_nat n) by (unfold zlen; rewrite firstn_length, skipn_length; lia). lia.
Qed.

Lemma lut_entry l v k : (k + 16 <= length l)%nat -> length v = 16%nat ->
  exists z, v_shuffle v (compact_lut (N.land (mask_of (skipn k l)) 0x7fff)) = pick (firstn 16 (skipn k l)) v ++ z /\
    length (pick (firstn 16 (skipn k l)) v ++ z) = 16%nat.
Proof. intros H Hv. apply lut15; [rewrite skipn_length; lia|exact Hv]. Qed.

Lemma entry_off l k : N.shiftr (N.land (mask_of (skipn k l)) 0x7fff0) 4 = N.land (mask_of (skipn (k + 4) l)) 0x7fff.
Proof. rewrite N.shiftr_land. change 4%N with (N.of_nat 4) at 1. rewrite mask_shiftr, skipn_plus. reflexivity. Qed.

(** Several stores one after the other, the part of a vector not wanted overwritten
    by the next one. *)
Fixpoint stores (B : bufs) (p : Z) (vs : list (vec * vec)) : M unit :=
  match vs with [] => ret tt | (x, z) :: vs => store_n B p (x ++ z) ;;; stores B (p + zlen x) vs end.

Fixpoint fits (p e : Z) (vs : list (vec * vec)) : Prop :=
  match vs with [] => True | (x, z) :: vs => p + zlen (x ++ z) <= e /\ fits (p + zlen x) e vs end.

Lemma stores_ok B e : forall vs p m, wlo B <= p -> e <= whi B -> p <= e -> fits p e vs ->
  exists m', stores B p vs m = Ok (tt, m') /\ bytes_at m' p (concat (map fst vs)) /\ (forall q, ~ (p <= q < e) -> m' q = m q).
Proof.
  induction vs as [|[x z] vs IH]; intros p m H1 H2 He Hf.
  - exists m. repeat split; auto.
  - destruct Hf as [Hf1 Hf2]. pose proof (zlen_nonneg x). pose proof (zlen_nonneg z).
    assert (Hxz : p + zlen x + zlen z <= e) by (rewrite zlen_app in Hf1; lia).
    destruct (store_n_ok B (x ++ z) p m) as (m1 & E1 & B1 & F1); [lia|lia|].
    destruct (IH (p + zlen x) m1) as (m2 & E2 & B2 & F2); [lia|lia|lia|exact Hf2|].
    exists m2. cbn [stores]. erewrite bind_ok by exact E1. split; [exact E2|]. split.
    + cbn [map concat fst]. apply bytes_at_app. split; [|exact B2]. apply bytes_at_app in B1 as [B1 _].
      eapply bytes_at_ext; [|exact B1]. intros q Hq. apply F2. lia.
    + intros q Hq. rewrite F2 by lia. apply F1. lia.
Qed.

Lemma k_compress_ok : forall l v, length l = length v -> k_compress (mask_of (map negb l)) v = pick l v.
Proof.
  induction l as [|b l IH]; intros [|x v] H; cbn [length] in H; try lia; [reflexivity|].
  cbn [k_compress map mask_of pick].
  assert (E1 : N.odd (N.b2n (negb b) + 2 * mask_of (map negb l)) = negb b) by (rewrite N.odd_add_mul_2; destruct b; reflexivity).
  assert (E2 : N.div2 (N.b2n (negb b) + 2 * mask_of (map negb l)) = mask_of (map negb l)).
  { rewrite N.div2_div. destruct b; cbn [negb N.b2n]; lia. }
  rewrite E1, E2, IH by lia. destruct b; reflexivity.
Qed.

Lemma compress_parts isa l v : length l = 32%nat -> length v = 32%nat ->
  exists z, (if d_icl isa then k_compress (mask_of (map negb l)) v else y_compress (mask_of (map negb l)) v) = pick l v ++ z /\
    (length (pick l v ++ z) <= 32)%nat.
Proof.
  intros Hl Hv. unfold y_compress. rewrite k_compress_ok by lia.
  assert (Hp : (length (pick l v) <= 32)%nat) by (pose proof (pick_le l v) as H; unfold zlen in H; lia).
  destruct (d_icl isa); [exists []; rewrite app_nil_r; auto|]. eexists; split; [reflexivity|]. rewrite app_length, repeat_length. lia.
Qed.

Lemma y_halves v : length v = 32%nat -> length (y_lo v) = 16%nat /\ length (y_hi v) = 16%nat /\ y_lo v ++ y_hi v = v.
Proof. intro H. unfold y_lo, y_hi. rewrite firstn_length, skipn_length, firstn_skipn. repeat split; lia. Qed.

Lemma compact_len i : length (compact_lut i) = 16%nat.
Proof.
  unfold compact_lut. rewrite app_length, repeat_length.
  assert (H : forall n j k, (length (lut_fill n j k) <= n)%nat).
  { induction n as [|n IH]; intros j k; [cbn; lia|]. cbn [lut_fill]. rewrite app_length. specialize (IH (j + 1) (N.shiftr k 1)).
    destruct (N.eqb (N.land k 1) 0); cbn [length]; lia. }
  specialize (H 16%nat 0 i). lia.
Qed.

Lemma y_lo_app a b : length a = 16%nat -> y_lo (a ++ b) = a.
Proof. intro H. unfold y_lo. rewrite firstn_app, firstn_all2, H, firstn_O, app_nil_r by lia. reflexivity. Qed.
Lemma y_hi_app a b : length a = 16%nat -> y_hi (a ++ b) = b.
Proof. intro H. unfold y_hi. rewrite skipn_app, skipn_all2, H by lia. reflexivity. Qed.

Lemma y_shuf_parts v i j : y_lo (y_shuffle v (compact_lut i ++ compact_lut j)) = v_shuffle (y_lo v) (compact_lut i) /\
  y_hi (y_shuffle v (compact_lut i ++ compact_lut j)) = v_shuffle (y_hi v) (compact_lut j).
Proof.
  unfold y_shuffle. rewrite (y_lo_app (compact_lut i)), (y_hi_app (compact_lut i)) by apply compact_len.
  rewrite y_lo_app, y_hi_app by (unfold v_shuffle; rewrite map_length; apply compact_len). auto.
Qed.

Lemma pick4 rm a b : length rm = 64%nat -> length a = 32%nat -> length b = 32%nat ->
  pick rm (a ++ b) = pick (firstn 16 rm) (y_lo a) ++ pick (firstn 16 (skipn 16 rm)) (y_hi a) ++
                     pick (firstn 16 (skipn 32 rm)) (y_lo b) ++ pick (firstn 16 (skipn 48 rm)) (y_hi b).
Proof.
  intros Hr Ha Hb. destruct (y_halves a Ha) as (La1 & La2 & Ea). destruct (y_halves b Hb) as (Lb1 & Lb2 & Eb).
  rewrite <- Ea at 1. rewrite <- Eb at 1. rewrite <- app_assoc.
  rewrite <- (firstn_skipn 16 rm) at 1. rewrite pick_app by (rewrite firstn_length; lia). f_equal.
  rewrite <- (firstn_skipn 16 (skipn 16 rm)) at 1. rewrite pick_app by (rewrite firstn_length, skipn_length; lia). f_equal.
  rewrite skipn_plus. change (16 + 16)%nat with 32%nat.
  rewrite <- (firstn_skipn 16 (skipn 32 rm)) at 1. rewrite pick_app by (rewrite firstn_length, skipn_length; lia). f_equal.
  rewrite skipn_plus. change (32 + 16)%nat with 48%nat. f_equal. symmetry. apply firstn_all2. rewrite skipn_length. lia.
Qed.

Lemma pick2 rm a b : length rm = 64%nat -> length a = 32%nat -> length b = 32%nat ->
  pick rm (a ++ b) = pick (firstn 32 rm) a ++ pick (skipn 32 rm) b.
Proof. intros Hr Ha Hb. rewrite <- (firstn_skipn 32 rm) at 1. apply pick_app. rewrite firstn_length. lia. Qed.

Lemma avx_store_ok isa B p rm a b m : length rm = 64%nat -> length a = 32%nat -> length b = 32%nat ->
  wlo B <= p -> p + 64 <= whi B ->
  exists m', avx_compact_store isa B p (mask_of rm) a b m = Ok (p + zlen (pick rm (a ++ b)), m') /\
    bytes_at m' p (pick rm (a ++ b)) /\ (forall q, ~ (p <= q < p + 64) -> m' q = m q).
Proof.
  intros Hrm Ha Hb Hp1 Hp2. unfold avx_compact_store. destruct (d_vbmi2 isa).
  - rewrite pick2 by assumption. unfold compress_store.
    assert (L1 : length (firstn 32 rm) = 32%nat) by (rewrite firstn_length; lia).
    assert (L2 : length (skipn 32 rm) = 32%nat) by (rewrite skipn_length; lia).
    replace (unot 32 (mask_of rm)) with (mask_of (map negb (firstn 32 rm))).
    2:{ rewrite <- (mask_not 32) by exact L1. unfold unot. rewrite !(mask_uint 32), firstn_firstn. reflexivity. }
    change 32%N with (N.of_nat 32). rewrite mask_shiftr, (mask_not 32), (mask_uint 32), (firstn_all2 (skipn 32 rm)) by lia.
    change 0xffffffff%N with (N.ones (N.of_nat 32)). rewrite mask_low, !popcount_ok.
    destruct (compress_parts isa (firstn 32 rm) a L1 Ha) as (z1 & E1 & Hz1).
    destruct (compress_parts isa (skipn 32 rm) b L2 Hb) as (z2 & E2 & Hz2).
    rewrite E1, E2.
    assert (K1 : zlen (pick (firstn 32 rm) a) = nkeep (firstn 32 rm)) by (apply pick_len; lia).
    assert (K2 : zlen (pick (skipn 32 rm) b) = nkeep (skipn 32 rm)) by (apply pick_len; lia).
    pose proof (nkeep_range (firstn 32 rm)) as R1. pose proof (nkeep_range (skipn 32 rm)) as R2.
    assert (Z1 : zlen (firstn 32 rm) = 32) by (unfold zlen; lia). assert (Z2 : zlen (skipn 32 rm) = 32) by (unfold zlen; lia).
    destruct (stores_ok B (p + 64) [(pick (firstn 32 rm) a, z1); (pick (skipn 32 rm) b, z2)] p m) as (m' & S & Hb' & Hf'); try lia.
    { cbn [fits]. unfold zlen at 1 3. lia. }
    cbn [stores map concat fst] in S, Hb'. rewrite app_nil_r in Hb'.
    exists m'. split; [|auto]. rewrite zlen_app, K1, K2.
    destruct (store_n B p (pick (firstn 32 rm) a ++ z1) m) as [[[] m1]| |] eqn:S1; try (unfold bind in S; rewrite S1 in S; discriminate S).
    erewrite bind_ok in S by exact S1. erewrite bind_ok by exact S1. cbv zeta.
    replace (p - (zlen (firstn 32 rm) - nkeep (firstn 32 rm)) + 32) with (p + zlen (pick (firstn 32 rm) a)) by lia.
    destruct (store_n B (p + zlen (pick (firstn 32 rm) a)) (pick (skipn 32 rm) b ++ z2) m1) as [[[] m2]| |] eqn:S2;
      try (unfold bind in S; rewrite S2 in S; discriminate S).
    erewrite bind_ok in S by exact S2. erewrite bind_ok by exact S2. injection S as ->. unfold ret. do 2 f_equal. lia.
  - rewrite pick4 by assumption.
    destruct (y_halves a Ha) as (La1 & La2 & _). destruct (y_halves b Hb) as (Lb1 & Lb2 & _).
    assert (Lk : forall k, (k + 16 <= 64)%nat -> length (firstn 16 (skipn k rm)) = 16%nat) by (intros; rewrite firstn_length, skipn_length; lia).
    destruct (lut_entry rm (y_lo a) 0 ltac:(lia) La1) as (z1 & E1 & Hz1).
    destruct (lut_entry rm (y_hi a) 16 ltac:(lia) La2) as (z2 & E2 & Hz2).
    destruct (lut_entry rm (y_lo b) 32 ltac:(lia) Lb1) as (z3 & E3 & Hz3).
    destruct (lut_entry rm (y_hi b) 48 ltac:(lia) Lb2) as (z4 & E4 & Hz4).
    change (skipn 0 rm) with rm in *.
    pose proof (Lk 0%nat ltac:(lia)) as L1. pose proof (Lk 16%nat ltac:(lia)) as L2. pose proof (Lk 32%nat ltac:(lia)) as L3. pose proof (Lk 48%nat ltac:(lia)) as L4.
    change (skipn 0 rm) with rm in L1.
    assert (P0 : popcount (N.land (mask_of rm) 0xffff) = 16 - nkeep (firstn 16 rm)) by exact (popcount_part _ 0 16 rm eq_refl ltac:(lia)).
    assert (P1 : popcount (N.land (mask_of rm) 0xffff0000) = 16 - nkeep (firstn 16 (skipn 16 rm))) by exact (popcount_part _ 16 16 rm eq_refl ltac:(lia)).
    set (k1 := firstn 16 rm) in *. set (k2 := firstn 16 (skipn 16 rm)) in *. set (k3 := firstn 16 (skipn 32 rm)) in *. set (k4 := firstn 16 (skipn 48 rm)) in *.
    assert (K1 : zlen (pick k1 (y_lo a)) = nkeep k1) by (apply pick_len; lia).
    assert (K2 : zlen (pick k2 (y_hi a)) = nkeep k2) by (apply pick_len; lia).
    assert (K3 : zlen (pick k3 (y_lo b)) = nkeep k3) by (apply pick_len; lia).
    assert (K4 : zlen (pick k4 (y_hi b)) = nkeep k4) by (apply pick_len; lia).
    pose proof (nkeep_range k1) as R1. pose proof (nkeep_range k2) as R2. pose proof (nkeep_range k3) as R3. pose proof (nkeep_range k4) as R4.
    unfold zlen in R1, R2, R3, R4. rewrite L1 in R1. rewrite L2 in R2. rewrite L3 in R3. rewrite L4 in R4.
    destruct (stores_ok B (p + 64) [(pick k1 (y_lo a), z1); (pick k2 (y_hi a), z2); (pick k3 (y_lo b), z3); (pick k4 (y_hi b), z4)] p m)
      as (m' & S & Hb' & Hf'); try lia.
    { cbn [fits]. rewrite K1, K2, K3. unfold zlen. rewrite Hz1, Hz2, Hz3, Hz4. lia. }
    cbn [map concat fst] in Hb'. rewrite app_nil_r in Hb'.
    exists m'. split; [|auto]. rewrite !zlen_app, K1, K2, K3, K4.
    cbn [stores] in S. rewrite K1, K2, K3 in S.
    destruct (store_n B p (pick k1 (y_lo a) ++ z1) m) as [[[] m1]| |] eqn:S1; try (unfold bind in S; rewrite S1 in S; discriminate S).
    erewrite bind_ok in S by exact S1.
    destruct (store_n B (p + nkeep k1) (pick k2 (y_hi a) ++ z2) m1) as [[[] m2]| |] eqn:S2; try (unfold bind in S; rewrite S2 in S; discriminate S).
    erewrite bind_ok in S by exact S2.
    destruct (store_n B (p + nkeep k1 + nkeep k2) (pick k3 (y_lo b) ++ z3) m2) as [[[] m3]| |] eqn:S3; try (unfold bind in S; rewrite S3 in S; discriminate S).
    erewrite bind_ok in S by exact S3.
    destruct (store_n B (p + nkeep k1 + nkeep k2 + nkeep k3) (pick k4 (y_hi b) ++ z4) m3) as [[[] m4]| |] eqn:S4; try (unfold bind in S; rewrite S4 in S; discriminate S).
    erewrite bind_ok in S by exact S4. injection S as ->.
    replace (N.shiftr (N.land (N.shiftr (mask_of rm) 12) 0x7fff0) 4) with (N.land (mask_of (skipn 16 rm)) 0x7fff)
      by (change 12%N with (N.of_nat 12); rewrite mask_shiftr, (entry_off rm 12); reflexivity).
    cbv zeta. rewrite !(proj1 (y_shuf_parts _ _ _)), !(proj2 (y_shuf_parts _ _ _)).
    rewrite E1, E2, P0, P1. erewrite bind_ok by exact S1.
    replace (p - (16 - nkeep k1) + 16) with (p + nkeep k1) by lia. erewrite bind_ok by exact S2.
    destruct (d_amd64 isa).
    + change 28%N with (N.of_nat 28). rewrite mask_shiftr.
      replace (N.shiftr (N.land (mask_of (skipn 28 rm)) 0x7fff0) 4) with (N.land (mask_of (skipn 32 rm)) 0x7fff) by (rewrite (entry_off rm 28); reflexivity).
      change 16%N with (N.of_nat 16). rewrite mask_shiftr, skipn_plus. change (28 + 16)%nat with 44%nat.
      replace (N.shiftr (N.land (mask_of (skipn 44 rm)) 0x7fff0) 4) with (N.land (mask_of (skipn 48 rm)) 0x7fff) by (rewrite (entry_off rm 44); reflexivity).
      rewrite E3, E4.
      replace (popcount (N.land (mask_of (skipn 28 rm)) 0xffff0)) with (16 - nkeep k3).
      2:{ change 0xffff0%N with (N.shiftl (N.ones (N.of_nat 16)) (N.of_nat 4)).
          rewrite (popcount_part _ 4 16 (skipn 28 rm) eq_refl) by (rewrite skipn_length; lia). rewrite skipn_plus. reflexivity. }
      replace (popcount (uint 32 (N.shiftr (mask_of (skipn 28 rm)) 20))) with (16 - nkeep k4).
      2:{ change 20%N with (N.of_nat 20). change 32%N with (N.of_nat 32). rewrite mask_shiftr, skipn_plus, mask_uint, popcount_ok.
          change (28 + 20)%nat with 48%nat. unfold k4, zlen. rewrite !(firstn_all2 (skipn 48 rm)), skipn_length by (rewrite skipn_length; lia). lia. }
      replace (p - (16 - nkeep k1) - (16 - nkeep k2) + 32) with (p + nkeep k1 + nkeep k2) by lia. erewrite bind_ok by exact S3.
      replace (p - (16 - nkeep k1) - (16 - nkeep k2) - (16 - nkeep k3) + 48) with (p + nkeep k1 + nkeep k2 + nkeep k3) by lia. erewrite bind_ok by exact S4.
      unfold ret. do 2 f_equal. lia.
    + change 32%N with (N.of_nat 32). rewrite mask_shiftr.
      change 12%N with (N.of_nat 12). rewrite mask_shiftr, skipn_plus. change (32 + 12)%nat with 44%nat.
      replace (N.shiftr (N.land (mask_of (skipn 44 rm)) 0x7fff0) 4) with (N.land (mask_of (skipn 48 rm)) 0x7fff) by (rewrite (entry_off rm 44); reflexivity).
      rewrite E3, E4.
      replace (popcount (N.land (mask_of (skipn 32 rm)) 0xffff)) with (16 - nkeep k3).
      2:{ change 0xffff%N with (N.shiftl (N.ones (N.of_nat 16)) (N.of_nat 0)).
          rewrite (popcount_part _ 0 16 (skipn 32 rm) eq_refl) by (rewrite skipn_length; lia). reflexivity. }
      replace (popcount (N.land (mask_of (skipn 32 rm)) 0xffff0000)) with (16 - nkeep k4).
      2:{ change 0xffff0000%N with (N.shiftl (N.ones (N.of_nat 16)) (N.of_nat 16)).
          rewrite (popcount_part _ 16 16 (skipn 32 rm) eq_refl) by (rewrite skipn_length; lia). rewrite skipn_plus. reflexivity. }
      replace (p - (16 - nkeep k1) - (16 - nkeep k2) + 32) with (p + nkeep k1 + nkeep k2) by lia. erewrite bind_ok by exact S3.
      replace (p - (16 - nkeep k1) - (16 - nkeep k2) - (16 - nkeep k3) + 48) with (p + nkeep k1 + nkeep k2 + nkeep k3) by lia. erewrite bind_ok by exact S4.
      unfold ret. do 2 f_equal. lia.
Qed.

(** ** Unescaping *)

Definition yoff (esc : bool) : vec := (if esc then u8 (-42 - 64) else u8 (-42)) :: repeat (u8 (-42)) 31.

Lemma y_next_ok isa b : y_next_offset isa (N.b2n b) = yoff b.
Proof. unfold y_next_offset. destruct (d_avx3 isa), b; reflexivity. Qed.

Lemma mask_add_ok : forall v k n, length v = n -> length k = n ->
  map2 (fun ab c => if (c : bool) then snd ab else fst ab)
    (map2 pair (v_add v (repeat (u8 (-42)) n)) (v_add (v_add v (repeat (u8 (-42)) n)) (repeat xc0 n))) k = map2 dec1 v k.
Proof.
  unfold v_add. induction v as [|c v IH]; intros k n Hv Hk; destruct n as [|n]; cbn in Hv; try lia; [reflexivity|].
  destruct k as [|e k]; cbn in Hk; try lia. cbn [repeat map2]. f_equal.
  - rewrite add_off. destruct e; cbn [fst snd dec1]; [apply add_c0|reflexivity].
  - apply IH; lia.
Qed.

Lemma y_mask_add_ok v k : length v = 32%nat -> length k = 32%nat ->
  y_mask_add (v_add v (y_set1 (-42))) (mask_of k) (v_add v (y_set1 (-42))) (y_set1 (-64)) = map2 dec1 v k.
Proof.
  intros Hv Hk. unfold y_mask_add, y_blend. rewrite k_bits32 by exact Hk. unfold y_set1. change (u8 (-64)) with xc0. apply mask_add_ok; assumption.
Qed.

Lemma y_mask_add_first esc v k : length v = 32%nat -> length k = 31%nat ->
  y_mask_add (v_add v (yoff esc)) (mask_of (false :: k)) (v_add v (yoff esc)) (y_set1 (-64)) = map2 dec1 v (esc :: k).
Proof.
  intros Hv Hk. unfold y_mask_add, y_blend. rewrite k_bits32 by (cbn [length]; lia). unfold y_set1. change (u8 (-64)) with xc0.
  destruct v as [|c v]; [discriminate|]. unfold yoff.
  change (b_add c (if esc then u8 (-42 - 64) else u8 (-42)) :: map2 (fun ab (c : bool) => if c then snd ab else fst ab)
    (map2 pair (v_add v (repeat (u8 (-42)) 31)) (v_add (v_add v (repeat (u8 (-42)) 31)) (repeat xc0 31))) k = dec1 c esc :: map2 dec1 v k).
  f_equal; [|apply mask_add_ok; cbn in Hv; lia]. destruct esc; [apply add_esc|apply add_off].
Qed.

Lemma y_blend_first esc v k c0 : length v = 32%nat -> length k = 31%nat -> b_top c0 = false ->
  v_add v (v_blendv (yoff esc) (y_set1 (-42 - 64)) (c0 :: vm k)) = map2 dec1 v (esc :: k).
Proof.
  intros Hv Hk H0. destruct v as [|c v]; [discriminate|].
  change (v_add (c :: v) (v_blendv (yoff esc) (y_set1 (-42 - 64)) (c0 :: vm k))) with
    (b_add c (if b_top c0 then u8 (-42 - 64) else (if esc then u8 (-42 - 64) else u8 (-42))) ::
     v_add v (v_blendv (repeat (u8 (-42)) 31) (repeat (u8 (-42 - 64)) 31) (vm k))).
  rewrite H0.
  change (b_add c (if esc then u8 (-42 - 64) else u8 (-42)) :: v_add v (v_blendv (repeat (u8 (-42)) 31) (repeat (u8 (-42 - 64)) 31) (vm k)) = dec1 c esc :: map2 dec1 v k).
  f_equal; [|apply add_blend; cbn in Hv; lia]. destruct esc; [apply add_esc|apply add_off].
Qed.

Definition bits8 : vec := map (fun j => u8 (2 ^ Z.of_nat j)) (seq 0 8).

Lemma byte_vec l : length l = 8%nat -> v_cmpeq (v_and (repeat (u8 (Z.of_N (mask_of l))) 8) bits8) bits8 = vm l.
Proof.
  intro H. do 8 (destruct l as [|? l]; [discriminate H|]). destruct l; [|discriminate H].
  repeat match goal with b : bool |- _ => destruct b end; reflexivity.
Qed.

Lemma low_byte l : (8 <= length l)%nat -> u8 (Z.of_N (mask_of l)) = u8 (Z.of_N (mask_of (firstn 8 l))).
Proof.
  intro H. apply bz_inj. rewrite !bz_u8. rewrite <- (mask_uint 8). unfold uint. change (2 ^ N.of_nat 8)%N with 256%N.
  rewrite N2Z.inj_mod. change (Z.of_N 256) with 256. rewrite Z.mod_mod by lia. reflexivity.
Qed.

Lemma mask_bytes l k : (8 * k + 8 <= length l)%nat ->
  u8 (Z.of_N (N.shiftr (mask_of l) (N.of_nat k * 8))) = u8 (Z.of_N (mask_of (firstn 8 (skipn (8 * k) l)))).
Proof.
  intro H. replace (N.of_nat k * 8)%N with (N.of_nat (8 * k)) by lia. rewrite mask_shiftr. apply low_byte. rewrite skipn_length. lia.
Qed.

Lemma mask_vec4 q0 q1 q2 q3 : length q0 = 8%nat -> length q1 = 8%nat -> length q2 = 8%nat -> length q3 = 8%nat ->
  v_cmpeq (v_and (repeat (u8 (Z.of_N (mask_of q0))) 8 ++ repeat (u8 (Z.of_N (mask_of q1))) 8 ++ repeat (u8 (Z.of_N (mask_of q2))) 8 ++ repeat (u8 (Z.of_N (mask_of q3))) 8)
     (bits8 ++ bits8 ++ bits8 ++ bits8)) (bits8 ++ bits8 ++ bits8 ++ bits8) = vm (q0 ++ q1 ++ q2 ++ q3).
Proof.
  intros H0 H1 H2 H3. unfold v_and, v_cmpeq. rewrite !map2_app by reflexivity.
  rewrite !vm_app, <- !byte_vec by assumption. reflexivity.
Qed.

Lemma firstn_32 {A} (l : list A) : firstn 8 l ++ firstn 8 (skipn 8 l) ++ firstn 8 (skipn 16 l) ++ firstn 8 (skipn 24 l) = firstn 32 l.
Proof.
  rewrite <- (firstn_skipn 8 l) at 5. rewrite firstn_app, firstn_firstn. 
  destruct (Nat.lt_ge_cases (length l) 8) as [H|H].
  { rewrite !(skipn_all2 l) by lia. rewrite !firstn_nil. cbn [app]. reflexivity. }
  replace (Nat.min 32 8) with 8%nat by reflexivity. rewrite firstn_length. replace (Nat.min 8 (length l)) with 8%nat by lia. f_equal.
  change (32 - 8)%nat with 24%nat. clear H.
  replace (skipn 16 l) with (skipn 8 (skipn 8 l)) by (rewrite skipn_plus; reflexivity).
  replace (skipn 24 l) with (skipn 16 (skipn 8 l)) by (rewrite skipn_plus; reflexivity).
  generalize (skipn 8 l). clear l. intro l.
  do 24 (destruct l as [|? l]; [reflexivity|]). reflexivity.
Qed.

Lemma y_mask_vec_ok l : length l = 64%nat ->
  y_mask_vec (mask_of l) 0 = vm (firstn 32 l) /\ y_mask_vec (mask_of l) 4 = vm (skipn 32 l).
Proof.
  intro H. unfold y_mask_vec, y_bcast64.
  change (map (fun k => u8 (Z.of_N (N.shiftr (mask_of l) (N.of_nat k * 8)))) (seq 0 8)) with
    [u8 (Z.of_N (N.shiftr (mask_of l) (N.of_nat 0 * 8))); u8 (Z.of_N (N.shiftr (mask_of l) (N.of_nat 1 * 8)));
     u8 (Z.of_N (N.shiftr (mask_of l) (N.of_nat 2 * 8))); u8 (Z.of_N (N.shiftr (mask_of l) (N.of_nat 3 * 8)));
     u8 (Z.of_N (N.shiftr (mask_of l) (N.of_nat 4 * 8))); u8 (Z.of_N (N.shiftr (mask_of l) (N.of_nat 5 * 8)));
     u8 (Z.of_N (N.shiftr (mask_of l) (N.of_nat 6 * 8))); u8 (Z.of_N (N.shiftr (mask_of l) (N.of_nat 7 * 8)))].
  rewrite !mask_bytes by lia. cbv zeta.
  set (q k := firstn 8 (skipn (8 * k) l)).
  assert (L : forall k, (k <= 7)%nat -> length (q k) = 8%nat) by (intros k Hk; unfold q; rewrite firstn_length, skipn_length; lia).
  change (concat (repeat (map (fun j => u8 (2 ^ Z.of_nat j)) (seq 0 8)) 4)) with (bits8 ++ bits8 ++ bits8 ++ bits8).
  assert (S : forall c0 c1 c2 c3 c4 c5 c6 c7,
    y_shuffle ([c0;c1;c2;c3;c4;c5;c6;c7] ++ [c0;c1;c2;c3;c4;c5;c6;c7] ++ [c0;c1;c2;c3;c4;c5;c6;c7] ++ [c0;c1;c2;c3;c4;c5;c6;c7])
      (flat_map (fun j => repeat (u8 (0 + j)) 8) [0; 1; 2; 3]) = repeat c0 8 ++ repeat c1 8 ++ repeat c2 8 ++ repeat c3 8 /\
    y_shuffle ([c0;c1;c2;c3;c4;c5;c6;c7] ++ [c0;c1;c2;c3;c4;c5;c6;c7] ++ [c0;c1;c2;c3;c4;c5;c6;c7] ++ [c0;c1;c2;c3;c4;c5;c6;c7])
      (flat_map (fun j => repeat (u8 (4 + j)) 8) [0; 1; 2; 3]) = repeat c4 8 ++ repeat c5 8 ++ repeat c6 8 ++ repeat c7 8).
  { intros. split; reflexivity. }
  split.
  - rewrite (proj1 (S _ _ _ _ _ _ _ _)).
    fold (q 0%nat) (q 1%nat) (q 2%nat) (q 3%nat). rewrite mask_vec4 by (apply L; lia). f_equal. exact (firstn_32 l).
  - rewrite (proj2 (S _ _ _ _ _ _ _ _)).
    fold (q 4%nat) (q 5%nat) (q 6%nat) (q 7%nat). rewrite mask_vec4 by (apply L; lia). f_equal.
    rewrite <- (firstn_all2 (n := 32) (skipn 32 l)) by (rewrite skipn_length; lia). rewrite <- firstn_32, !skipn_plus. reflexivity.
Qed.

Lemma y_shift1 x : length x = 32%nat -> y_alignr (vm x) (v_set1 61 ++ y_lo (vm x)) 15 = x3d :: vm (firstn 31 x).
Proof. intro H. do 32 (destruct x as [|? x]; [discriminate H|]). destruct x; [|discriminate H]. reflexivity. Qed.

Lemma avx_unescape_ok isa B src esc a b sp m : length a = 32%nat -> length b = 32%nat -> length sp = 64%nat ->
  Forall2 (fun e s : bool => e = true -> s = true) (map is_eq (a ++ b)) sp ->
  y_loadu B (src - 1 + 32) m = Ok (part 31 32 (a ++ b), m) ->
  exists da db,
    avx_unescape isa B src (mask_of sp) (mask_of (map is_eq (a ++ b))) (N.b2n esc) (yoff esc) a b (vm (map is_eq a)) m =
      Ok ((da, db, mask_of (map2 (fun s e => s && negb e) sp (escs esc (map is_eq (a ++ b)))),
       N.b2n (lead_out esc (map is_eq (a ++ b))), yoff (lead_out esc (map is_eq (a ++ b)))), m) /\
    da ++ db = decoded esc (a ++ b) /\ length da = 32%nat /\ length db = 32%nat.
Proof.
  intros Ha Hb Hsp Himp Hld. set (eqs := map is_eq (a ++ b)) in *. set (k := leads esc eqs).
  assert (Hel : length eqs = 64%nat) by (unfold eqs; rewrite map_length, app_length; lia).
  assert (Hkl : length k = 64%nat) by (unfold k; rewrite leads_len; exact Hel).
  set (eA := firstn 31 k). set (eB := firstn 32 (skipn 31 k)).
  assert (HeA : length eA = 31%nat) by (unfold eA; rewrite firstn_length; lia).
  assert (HeB : length eB = 32%nat) by (unfold eB; rewrite firstn_length, skipn_length; lia).
  assert (Hk63 : firstn 63 k = eA ++ eB).
  { unfold eA, eB. rewrite <- (firstn_skipn 31 k) at 1. rewrite firstn_app, firstn_firstn, firstn_length.
    replace (Nat.min 63 31) with 31%nat by lia. do 2 f_equal. lia. }
  assert (Hesc : escs esc eqs = esc :: eA ++ eB).
  { rewrite escs_leads, Hel. rewrite (firstn_cons 63). fold k. rewrite Hk63. reflexivity. }
  assert (Hdec : decoded esc (a ++ b) = map2 dec1 a (esc :: eA) ++ map2 dec1 b eB).
  { unfold decoded. fold eqs. rewrite Hesc. change (esc :: eA ++ eB) with ((esc :: eA) ++ eB). apply map2_app. cbn [length]. lia. }
  assert (Hlo : lead_out esc eqs = last k false).
  { unfold lead_out. fold k. apply last_indep. intros H. rewrite H in Hkl. discriminate. }
  assert (Hsh : uint 64 (uint 64 (N.shiftl (mask_of eqs) 1) + N.b2n esc) = mask_of (firstn 64 (esc :: eqs))).
  { change 64%N with (N.of_nat 64). rewrite <- mask_uint. unfold uint. rewrite N.add_mod_idemp_l by discriminate.
    cbn [mask_of]. rewrite N.shiftl_mul_pow2. f_equal. change (2 ^ 1)%N with 2%N. lia. }
  assert (Hla : length (map2 dec1 a (esc :: eA)) = 32%nat) by (rewrite map2_len; cbn [length]; lia).
  assert (Hlb : length (map2 dec1 b eB) = 32%nat) by (rewrite map2_len; lia).
  unfold avx_unescape. rewrite Hsh. cbv zeta.
  assert (Hf64 : length (firstn 64 (esc :: eqs)) = 64%nat) by (rewrite firstn_length; cbn [length]; lia).
  rewrite mask_and by lia. rewrite mask_eqb0, negb_involutive.
  assert (H32 : forall x : list bool, (31 <= length x)%nat -> uint 32 (mask_of (false :: x)) = mask_of (false :: firstn 31 x)).
  { intros x Hx. change 32%N with (N.of_nat 32). rewrite mask_uint. reflexivity. }
  destruct (existsb id (map2 andb sp (firstn 64 (esc :: eqs)))) eqn:Ex.
  - assert (Hfix : fix_eqMask 64 (mask_of eqs) (mask_of (firstn 64 (esc :: eqs))) = mask_of k).
    { rewrite <- mask_uint. pose proof (fix_leads esc eqs ltac:(lia)) as H. rewrite Hel in H. exact H. }
    rewrite Hfix.
    assert (Hk1 : uint 64 (N.shiftl (mask_of k) 1) = mask_of (false :: eA ++ eB)).
    { change 64%N with (N.of_nat 64). change 1%N with (N.of_nat 1). rewrite mask_shiftl, mask_uint.
      change (repeat false 1 ++ k) with (false :: k). rewrite (firstn_cons 63). rewrite Hk63. reflexivity. }
    rewrite Hk1. change 63%N with (N.of_nat 63). rewrite last_bit by exact Hkl. rewrite <- Hlo.
    rewrite y_next_ok.
    replace (unot 64 (N.b2n esc)) with (mask_of (map negb (esc :: repeat false 63))).
    2:{ rewrite <- (mask_not 64) by reflexivity. f_equal. destruct esc; reflexivity. }
    change 64%N with (N.of_nat 64). rewrite (mask_not 64) by (cbn [length]; rewrite app_length; lia).
    rewrite mask_and by (rewrite map_length; cbn [length]; rewrite ?repeat_length; lia).
    rewrite mask_and by (rewrite !map2_len, !map_length; cbn [length]; rewrite ?app_length, ?repeat_length; lia).
    assert (Hsk : skipn 32 (false :: eA ++ eB) = eB).
    { rewrite (skipn_cons 31). rewrite skipn_app, skipn_all2 by lia. rewrite HeA. reflexivity. }
    assert (Hfs : firstn 31 (eA ++ eB) = eA).
    { rewrite firstn_app, HeA, Nat.sub_diag, firstn_O, app_nil_r. apply firstn_all2. lia. }
    assert (Hmm : map2 andb (map2 andb sp (map negb (esc :: repeat false 63))) (map negb (false :: eA ++ eB)) =
                  map2 (fun s e => s && negb e) sp (escs esc eqs)).
    { rewrite Hesc. assert (Hz : length (eA ++ eB) = 63%nat) by (rewrite app_length; lia). generalize (eA ++ eB) Hz. intros z Hz'.
      destruct sp as [|s sp]; [discriminate|]. cbn [map map2]. rewrite andb_true_r. f_equal.
      assert (Hsp' : length sp = 63%nat) by (cbn in Hsp; lia). revert Hsp' Hz'. clear. revert sp z. generalize 63%nat as n.
      induction n as [|n IH]; intros [|s sp] [|x z] H1 H2; cbn in H1, H2; try lia; [reflexivity|].
      cbn [repeat map map2]. rewrite andb_true_r. f_equal. apply IH; lia. }
    rewrite Hmm. clear Hmm.
    destruct (d_avx3 isa).
    + rewrite H32, Hfs by (rewrite app_length; lia). rewrite y_mask_add_first by assumption.
      replace (uint 32 (N.shiftr (mask_of (false :: eA ++ eB)) 32)) with (mask_of eB).
      2:{ change 32%N with (N.of_nat 32). rewrite mask_shiftr, mask_uint, Hsk, firstn_all2 by lia. reflexivity. }
      rewrite y_mask_add_ok by assumption.
      do 2 eexists. split; [reflexivity|]. split; [symmetry; exact Hdec|split; assumption].
    + destruct (y_mask_vec_ok (false :: eA ++ eB)) as [V0 V1]; [cbn [length]; rewrite app_length; lia|].
      rewrite V0, V1, Hsk, (firstn_cons 31), Hfs. cbn [vm map].
      fold (vm eA). rewrite y_blend_first by (try assumption; reflexivity). unfold y_set1. rewrite add_blend by assumption.
      do 2 eexists. split; [reflexivity|]. split; [symmetry; exact Hdec|split; assumption].
  - rewrite <- Hel in Ex. destruct (leads_simple eqs esc sp ltac:(lia) Himp Ex) as [Hk Hm]. fold k in Hk.
    rewrite Hm. change 63%N with (N.of_nat 63). rewrite last_bit by exact Hel. replace (last eqs false) with (lead_out esc eqs) by (rewrite Hlo, Hk; reflexivity).
    rewrite y_next_ok.
    destruct (d_avx3 isa).
    + replace (uint 32 (N.shiftl (mask_of eqs) 1)) with (mask_of (false :: eA)).
      2:{ change 1%N with (N.of_nat 1). rewrite mask_shiftl. change (repeat false 1 ++ eqs) with (false :: eqs). rewrite H32 by lia. unfold eA. rewrite Hk. reflexivity. }
      replace (uint 32 (N.shiftr (mask_of eqs) 31)) with (mask_of eB).
      2:{ change 31%N with (N.of_nat 31). change 32%N with (N.of_nat 32). rewrite mask_shiftr, mask_uint. unfold eB. rewrite Hk. reflexivity. }
      rewrite y_mask_add_first, y_mask_add_ok by assumption.
      do 2 eexists. split; [reflexivity|]. split; [symmetry; exact Hdec|split; assumption].
    + erewrite bind_ok by exact Hld.
      assert (HeAx : firstn 31 (map is_eq a) = eA).
      { unfold eA. rewrite Hk. unfold eqs. rewrite map_app, firstn_app, map_length, Ha. cbn [Nat.sub firstn]. rewrite app_nil_r. reflexivity. }
      rewrite y_shift1, HeAx by (rewrite map_length; exact Ha).
      assert (HB : v_cmpeq (y_set1 61) (part 31 32 (a ++ b)) = vm eB).
      { unfold y_set1. rewrite cmpeq_rep' by (rewrite part_len; [lia|rewrite app_length; lia]). f_equal.
        unfold eB, part; rewrite Hk; unfold eqs; rewrite skipn_map, firstn_map; reflexivity. }
      rewrite HB.
      rewrite y_blend_first by (try assumption; reflexivity). unfold y_set1. rewrite add_blend by assumption.
      do 2 eexists. split; [reflexivity|]. split; [symmetry; exact Hdec|split; assumption].
Qed.
