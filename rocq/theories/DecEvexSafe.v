(** Memory safety of the 128-bit kernels of the decoder, whatever choices they are
    compiled with: also with mask comparisons and without the fast match, where they
    lose the dot at the start of a line (c69_native_decode_refuted). *)
From Verif Require Import Base BaseLemmas EncSpec DecSpec DecModel DecProofs DecNode DecNodeSpec DecSimdModel DecSimdSpec DecSimdMain DecMaskSpec DecMaskModel DecMaskProofs DecVec DecVecProofs
  DecKernelModel DecSseModel EncSseModel EncAvxModel DecAvxModel DecEvexModel DecSafe DecRvvSafe.
From Coq Require Import ZifyBool ZifyNat ZifyN.
Ltac Zify.zify_post_hook ::= Z.div_mod_to_equations.

(** ** Masks *)

Lemma fits_iff x n : (x < 2 ^ n)%N <-> N.shiftr x n = 0%N.
Proof.
  rewrite N.shiftr_div_pow2. pose proof (N.pow_nonzero 2 n). split; intro E; [apply N.div_small, E|].
  apply N.div_small_iff in E; [exact E|lia].
Qed.
Lemma fits_lor a b n : (a < 2 ^ n -> b < 2 ^ n -> N.lor a b < 2 ^ n)%N.
Proof. rewrite !fits_iff, N.shiftr_lor. intros -> ->. reflexivity. Qed.
Lemma fits_land a b n : (a < 2 ^ n -> N.land a b < 2 ^ n)%N.
Proof. rewrite !fits_iff, N.shiftr_land. intros ->. reflexivity. Qed.
Lemma fits_land_r a b n : (b < 2 ^ n -> N.land a b < 2 ^ n)%N.
Proof. rewrite N.land_comm. apply fits_land. Qed.

Lemma movemask_fits v : (length v <= 16)%nat -> (v_movemask v < 2 ^ 16)%N.
Proof.
  intro H. unfold v_movemask. eapply N.lt_le_trans; [apply mask_lt|]. rewrite map_length. apply N.pow_le_mono_r; lia.
Qed.
Lemma cmpeq_fits a b : (length a <= 16)%nat -> (k_cmpeq a b < 2 ^ 16)%N.
Proof.
  intro H. unfold k_cmpeq. eapply N.lt_le_trans; [apply mask_lt|]. destruct (map2_le beq a b). apply N.pow_le_mono_r; lia.
Qed.

Lemma popcount_fits n k : (n < 2 ^ N.of_nat k)%N -> 0 <= popcount n <= Z.of_nat k.
Proof.
  destruct n as [|p]; [cbn; lia|]. cbn [popcount]. revert k. induction p as [p IH|p IH|]; intros k Hk; cbn [popcount_pos].
  - destruct k as [|k]; [cbn in Hk; lia|]. rewrite Nat2N.inj_succ, N.pow_succ_r' in Hk. specialize (IH k). lia.
  - destruct k as [|k]; [cbn in Hk; lia|]. rewrite Nat2N.inj_succ, N.pow_succ_r' in Hk. specialize (IH k). lia.
  - destruct k as [|k]; [cbn in Hk; lia|]. lia.
Qed.

Lemma popcount_low mask : 0 <= popcount (N.land mask 0xffff) <= 16.
Proof. apply (popcount_fits _ 16). apply fits_land_r. reflexivity. Qed.

Lemma popcount_shiftl n : forall k, popcount (N.shiftl n (N.of_nat k)) = popcount n.
Proof.
  induction k as [|k IH]; [rewrite N.shiftl_0_r; reflexivity|].
  rewrite Nat2N.inj_succ, N.shiftl_succ_r. rewrite <- IH. destruct (N.shiftl n (N.of_nat k)); reflexivity.
Qed.

Lemma popcount_high mask : 0 <= popcount (N.land mask 0xffff0000) <= 16.
Proof.
  replace (N.land mask 0xffff0000) with (N.shiftl (N.land (N.shiftr mask 16) 0xffff) (N.of_nat 16)).
  - rewrite popcount_shiftl. apply popcount_low.
  - rewrite N.shiftl_land. change (N.of_nat 16) with 16%N. rewrite <- N.ldiff_ones_r. change 0xffff0000%N with (N.shiftl 0xffff 16).
    apply N.bits_inj. intro i. rewrite !N.land_spec, N.ldiff_spec. destruct (N.lt_ge_cases i 16) as [L|L].
    + rewrite (N.shiftl_spec_low _ _ _ L), !andb_false_r. reflexivity.
    + rewrite (N.ones_spec_high _ _ L). cbn [negb]. rewrite andb_true_r. reflexivity.
Qed.

Lemma bits_set_inv_range i : 0 <= bits_set_inv i <= 8.
Proof.
  assert (L : forall x, (N.land x 1 <= 1)%N) by (intro x; pose proof (fits_land_r x 1 1 eq_refl); cbn in *; lia).
  unfold bits_set_inv. pose proof (L i). pose proof (L (N.shiftr i 1)). pose proof (L (N.shiftr i 2)). pose proof (L (N.shiftr i 3)).
  pose proof (L (N.shiftr i 4)). pose proof (L (N.shiftr i 5)). pose proof (L (N.shiftr i 6)). pose proof (L (N.shiftr i 7)). lia.
Qed.
Lemma kept16_range i : 0 <= kept16 i <= 16.
Proof. unfold kept16. pose proof (bits_set_inv_range (N.land i 0xff)). pose proof (bits_set_inv_range (N.land (N.shiftr i 8) 0xff)). lia. Qed.

(** ** Vectors have at most 16 bytes *)

Lemma zlen16 (v : vec) : (length v <= 16)%nat -> zlen v <= 16.
Proof. unfold zlen. lia. Qed.
Lemma add_le a b : (length a <= 16)%nat -> (length (v_add a b) <= 16)%nat.
Proof. destruct (map2_le b_add a b). unfold v_add. lia. Qed.
Lemma and_le a b : (length a <= 16)%nat -> (length (v_and a b) <= 16)%nat.
Proof. destruct (map2_le b_and a b). unfold v_and. lia. Qed.
Lemma cmp_le a b : (length a <= 16)%nat -> (length (v_cmpeq a b) <= 16)%nat.
Proof. unfold v_cmpeq. match goal with |- context [map2 ?f a b] => destruct (map2_le f a b) end. lia. Qed.
Lemma or_le a b : (length a <= 16)%nat -> (length (v_or a b) <= 16)%nat.
Proof. destruct (map2_le b_or a b). unfold v_or. lia. Qed.
Lemma blend_le k a b : (length a <= 16)%nat -> (length (x_blend k a b) <= 16)%nat.
Proof.
  unfold x_blend. match goal with |- context [map2 ?f (map2 pair a b) ?c] => destruct (map2_le f (map2 pair a b) c) end.
  destruct (map2_le (@pair byte byte) a b). lia.
Qed.
Lemma k_compress_le : forall a k, (length (k_compress k a) <= length a)%nat.
Proof.
  induction a as [|x a IH]; intro k; cbn [k_compress length]; [lia|]. rewrite app_length. specialize (IH (N.div2 k)).
  destruct (N.odd k); cbn [length]; lia.
Qed.
Lemma x_compress_le k a : (length a <= 16)%nat -> (length (x_compress k a) <= 16)%nat.
Proof. intro H. unfold x_compress. cbv zeta. rewrite app_length, repeat_length. pose proof (k_compress_le a k). lia. Qed.
Lemma lut_fill_le : forall n j k, (length (lut_fill n j k) <= n)%nat.
Proof. induction n as [|n IH]; intros j k; cbn [lut_fill]; [cbn; lia|]. rewrite app_length. specialize (IH (j + 1) (N.shiftr k 1)). destruct (N.eqb _ _); cbn [length]; lia. Qed.
Lemma lut_le i : (length (compact_lut i) <= 16)%nat.
Proof. unfold compact_lut. cbv zeta. rewrite app_length, repeat_length. pose proof (lut_fill_le 16 0 i). lia. Qed.
Lemma shuffle_le v i : (length i <= 16)%nat -> (length (v_shuffle v i) <= 16)%nat.
Proof. intro. unfold v_shuffle. rewrite map_length. assumption. Qed.
Lemma unshuf_le i : (length (unshuf_mask i) <= 16)%nat.
Proof. unfold unshuf_mask. rewrite map_length, seq_length. lia. Qed.
Lemma compact_vect_le lz : forall f mask data, (length data <= 16)%nat -> (length (compact_vect lz f mask data) <= 16)%nat.
Proof.
  induction f as [|f IH]; intros mask data H; cbn [compact_vect]; [assumption|]. destruct (N.eqb mask 0); [assumption|].
  destruct (top_bit lz mask) as [i mask']. apply IH, or_le, and_le, unshuf_le.
Qed.

(** ** Loads *)

Lemma may_loadu H B a m : rlo B <= a -> a + 16 <= rhi B -> may H (mm_loadu B a) m (fun l m' => m' = m /\ length l = 16%nat).
Proof. intros. apply may_load_n; lia. Qed.
Lemma may_loada H B a m : a mod 16 = 0 -> rlo B <= a -> a + 16 <= rhi B -> may H (mm_load B a) m (fun l m' => m' = m /\ length l = 16%nat).
Proof.
  intros Ha H1 H2. unfold mm_load, load_aligned. change (Z.of_nat 16) with 16. rewrite Ha. cbn [Z.eqb].
  apply may_load_n; lia.
Qed.

(** What the search for lines and for the end yields: nothing is written, and the mask
    keeps to 32 bits. *)
Definition nl_post (m : mem) (y : Z + nl_vars) (m' : mem) : Prop :=
  m' = m /\ match y with inl _ => True | inr (mask', _, _) => (mask' < 2 ^ 32)%N end.

Section Newlines.
Variables (isa : sse_isa) (r e : bool) (B : bufs) (x : Z) (mask : N) (lf mm : vec) (m : mem).
Hypothesis (H1 : rlo B <= x) (H2 : x + 32 + lookahead r e <= rhi B).
Hypothesis Hm : (mask < 2 ^ 32)%N.

Lemma nl_stop : may False (nm <- nextMask_fwd r B x mask ;; ret (inl nm)) m (nl_post m).
Proof.
  eapply may_bind; [apply may_fwd; [exact H1|]|].
  - unfold lookahead in H2. destruct e; [|destruct r]; lia.
  - intros nm m1 ->. apply may_ret. split; [reflexivity|exact I].
Qed.

Lemma nl_found ka kb l n : (ka < 2 ^ 16)%N ->
  may False (ret (inr (N.lor (N.lor mask (N.shiftl ka 2)) (N.land (N.shiftl kb 18) 0xffffffff), l, n))) m (nl_post m).
Proof.
  intro Hk. apply may_ret. split; [reflexivity|]. apply fits_lor; [apply fits_lor; [exact Hm|]|].
  - rewrite N.shiftl_mul_pow2. change (2 ^ 32)%N with 4294967296%N. change (2 ^ 2)%N with 4%N. change (2 ^ 16)%N with 65536%N in Hk. lia.
  - apply fits_land_r. reflexivity.
Qed.

Lemma nl_same l n : may False (ret (inr (mask, l, n))) m (nl_post m).
Proof. apply may_ret. split; [reflexivity|exact Hm]. Qed.

Lemma nl_reset : may False (ret (inr (reset_compare isa mask lf mm))) m (nl_post m).
Proof. unfold reset_compare. destruct (fast_match isa); apply nl_same. Qed.

End Newlines.

Lemma may_evex_newlines ei r e B x mask maskEq a b ca cb lf mm m : rlo B <= x -> x + 32 + lookahead r e <= rhi B ->
  (mask < 2 ^ 32)%N -> length a = 16%nat -> length b = 16%nat ->
  may False (evex_newlines ei r e B x mask maskEq a b ca cb lf mm) m (nl_post m).
Proof.
  intros H1 H2 Hm La Lb. unfold evex_newlines. destruct (_ && _) eqn:E; [|apply nl_same; exact Hm].
  assert (LA : 2 <= lookahead r e) by (unfold lookahead; destruct e; [lia|]; destruct r; [lia|discriminate E]).
  assert (LE : e = true -> 4 <= lookahead r e) by (intros ->; unfold lookahead; lia). clear E.
  eapply may_bind; [apply may_loadu; lia|]. intros t2a m1 [-> L2a].
  eapply may_bind; [apply may_loadu; lia|]. intros t2b m1 [-> L2b]. cbv zeta.
  destruct (r && _).
  - eapply may_bind; [apply may_loadu; lia|]. intros t1a m1 [-> L1a].
    eapply may_bind; [apply may_loadu; lia|]. intros t1b m1 [-> L1b].
    eapply (may_bind False _ _ m (fun _ m' => m' = m)).
    { destruct e; [|apply may_ret; reflexivity]. specialize (LE eq_refl).
      eapply may_bind; [apply may_loadu; lia|]. intros t3a m1 [-> _].
      eapply may_bind; [apply may_loadu; lia|]. intros t3b m1 [-> _].
      eapply may_bind; [apply may_loadu; lia|]. intros t4a m1 [-> _].
      eapply may_bind; [apply may_loadu; lia|]. intros t4b m1 [-> _]. apply may_ret. reflexivity. }
    intros stop m1 ->. destruct stop; [eapply nl_stop; eassumption|]. apply nl_found; [exact Hm|].
    apply fits_land, fits_land, cmpeq_fits. lia.
  - destruct e; [|apply nl_reset; exact Hm]. specialize (LE eq_refl).
    eapply may_bind; [apply may_loadu; lia|]. intros t3a m1 [-> L3a].
    eapply may_bind; [apply may_loadu; lia|]. intros t3b m1 [-> L3b].
    eapply (may_bind False _ _ m (fun _ m' => m' = m)).
    { destruct (negb _); [|apply may_ret; reflexivity].
      eapply may_bind; [apply may_loadu; lia|]. intros t1a m1 [-> _].
      eapply may_bind; [apply may_loadu; lia|]. intros t1b m1 [-> _]. apply may_ret. reflexivity. }
    intros stop m1 ->. destruct stop; [eapply nl_stop; eassumption|]. destruct r; [apply nl_reset; exact Hm|apply nl_same; exact Hm].
Qed.

Lemma may_sse_newlines isa r e B x mask maskEq a b ca cb lf mm m : rlo B <= x -> x + 32 + lookahead r e <= rhi B -> x mod 16 = 0 ->
  (mask < 2 ^ 32)%N -> length a = 16%nat -> length b = 16%nat ->
  may False (sse_newlines isa r e B x mask maskEq a b ca cb lf mm) m (nl_post m).
Proof.
  intros H1 H2 Hal Hm La Lb. assert (Hal2 : (x + 16) mod 16 = 0) by lia. unfold sse_newlines. destruct (_ && _) eqn:E; [|apply nl_same; exact Hm].
  assert (LA : 2 <= lookahead r e) by (unfold lookahead; destruct e; [lia|]; destruct r; [lia|discriminate E]).
  assert (LE : e = true -> 4 <= lookahead r e) by (intros ->; unfold lookahead; lia). clear E.
  eapply may_bind; [apply may_loadu; lia|]. intros t2a m1 [-> L2a].
  eapply may_bind; [apply may_loadu; lia|]. intros t2b m1 [-> L2b]. cbv zeta.
  destruct (r && _).
  - eapply may_bind; [apply may_loadu; lia|]. intros t1a m1 [-> L1a].
    eapply may_bind; [apply may_loadu; lia|]. intros t1b m1 [-> L1b].
    eapply may_bind; [apply may_loada; [exact Hal|lia|lia]|]. intros aa m1 [-> Laa].
    eapply may_bind; [apply may_loada; [exact Hal2|lia|lia]|]. intros ab m1 [-> Lab].
    eapply (may_bind False _ _ m (fun _ m' => m' = m)).
    { destruct e; [|apply may_ret; reflexivity]. specialize (LE eq_refl).
      eapply may_bind; [apply may_loadu; lia|]. intros t3a m1 [-> _].
      eapply may_bind; [apply may_loadu; lia|]. intros t3b m1 [-> _].
      eapply may_bind; [apply may_loadu; lia|]. intros t4a m1 [-> _].
      eapply may_bind; [apply may_loadu; lia|]. intros t4b m1 [-> _]. apply may_ret. reflexivity. }
    intros stop m1 ->. destruct stop; [eapply nl_stop; eassumption|].
    destruct (fast_match isa); (apply nl_found; [exact Hm|]; apply movemask_fits, and_le, and_le, cmp_le; lia).
  - destruct e; [|apply nl_reset; exact Hm]. specialize (LE eq_refl).
    eapply may_bind; [apply may_loadu; lia|]. intros t3a m1 [-> L3a].
    eapply may_bind; [apply may_loadu; lia|]. intros t3b m1 [-> L3b].
    eapply (may_bind False _ _ m (fun _ m' => m' = m)).
    { destruct (negb _); [|apply may_ret; reflexivity].
      eapply may_bind; [apply may_loada; [exact Hal|lia|lia]|]. intros aa m1 [-> _].
      eapply may_bind; [apply may_loada; [exact Hal2|lia|lia]|]. intros ab m1 [-> _].
      eapply may_bind; [apply may_loadu; lia|]. intros t1a m1 [-> _].
      eapply may_bind; [apply may_loadu; lia|]. intros t1b m1 [-> _]. apply may_ret. reflexivity. }
    intros stop m1 ->. destruct stop; [eapply nl_stop; eassumption|]. destruct r; [apply nl_reset; exact Hm|apply nl_same; exact Hm].
Qed.

(** ** Stores *)

Definition st_post (p : Z) (m : mem) (p' : Z) (m' : mem) : Prop :=
  p <= p' <= p + 32 /\ forall q, ~ (p <= q < p + 32) -> m' q = m q.

Lemma may_two B p d u v k m (Hp : wlo B <= p) (Hw : p + 32 <= whi B) : (length u <= 16)%nat -> (length v <= 16)%nat -> 0 <= d <= 16 -> 0 <= k <= 32 ->
  may False (store_n B p u ;;; store_n B (p + d) v ;;; ret (p + k)) m (st_post p m).
Proof.
  intros Hu Hv Hd Hk. apply zlen16 in Hu, Hv. pose proof (zlen_nonneg u). pose proof (zlen_nonneg v).
  eapply may_bind; [apply may_store_n; lia|]. intros ? m1 F1.
  eapply may_bind; [apply may_store_n; lia|]. intros ? m2 F2. apply may_ret. split; [lia|].
  intros q Hq. rewrite F2, F1 by lia. reflexivity.
Qed.

Lemma may_sse_store isa B p mask a b m : wlo B <= p -> p + 32 <= whi B -> (length a <= 16)%nat -> (length b <= 16)%nat ->
  may False (sse_compact_store isa B p mask a b) m (st_post p m).
Proof.
  intros Hp Hw Ha Hb. unfold sse_compact_store. cbv zeta.
  pose proof (popcount_low mask). pose proof (popcount_high mask). pose proof (kept16_range mask). pose proof (kept16_range (N.shiftr mask 16)).
  destruct (has_ssse3 isa); [destruct (has_popcnt isa)|].
  - replace (p - popcount (N.land mask 65535) + 16) with (p + (16 - popcount (N.land mask 65535))) by lia.
    replace (p - popcount (N.land mask 65535) - popcount (N.land mask 4294901760) + 32)
      with (p + (32 - popcount (N.land mask 65535) - popcount (N.land mask 4294901760))) by lia.
    apply may_two; try (apply shuffle_le, lut_le); lia.
  - replace (p + kept16 mask + kept16 (N.shiftr mask 16)) with (p + (kept16 mask + kept16 (N.shiftr mask 16))) by lia.
    apply may_two; try (apply shuffle_le, lut_le); lia.
  - replace (p + kept16 mask + kept16 (N.shiftr mask 16)) with (p + (kept16 mask + kept16 (N.shiftr mask 16))) by lia.
    apply may_two; try (apply compact_vect_le; lia); lia.
Qed.

Lemma may_evex_store isa B p mask a b m : wlo B <= p -> p + 32 <= whi B -> (length a <= 16)%nat -> (length b <= 16)%nat -> (mask < 2 ^ 32)%N ->
  may False (evex_compact_store isa B p mask a b) m (st_post p m).
Proof.
  intros Hp Hw Ha Hb Hm. unfold evex_compact_store, x_compress_store. cbv zeta. destruct (e_compress isa); [|apply may_sse_store; assumption].
  pose proof (popcount_low mask).
  assert (0 <= popcount (N.shiftr mask 16) <= 16).
  { apply (popcount_fits _ 16). rewrite N.shiftr_div_pow2. apply N.div_lt_upper_bound; [discriminate|]. exact Hm. }
  replace (p - popcount (N.land mask 65535) + 16) with (p + (16 - popcount (N.land mask 65535))) by lia.
  replace (p - popcount (N.land mask 65535) - popcount (N.shiftr mask 16) + 32)
    with (p + (32 - popcount (N.land mask 65535) - popcount (N.shiftr mask 16))) by lia.
  apply may_two; try lia.
  - destruct (e_icl isa); [pose proof (k_compress_le a (unot 16 mask)); lia|apply x_compress_le; lia].
  - destruct (e_icl isa); [pose proof (k_compress_le b (unot 16 (N.shiftr mask 16))); lia|apply x_compress_le; lia].
Qed.

Lemma evex_unescape_le mask maskEq esc yo a b ca cb : (length a <= 16)%nat -> (length b <= 16)%nat -> (mask < 2 ^ 32)%N ->
  let '(u, v, k, _, _) := evex_unescape mask maskEq esc yo a b ca cb in (length u <= 16)%nat /\ (length v <= 16)%nat /\ (k < 2 ^ 32)%N.
Proof.
  intros Ha Hb Hm. unfold evex_unescape. cbv zeta. destruct (negb _).
  - split; [|split]; [apply blend_le, add_le, Ha|apply blend_le, add_le, Hb|apply fits_land, fits_land, Hm].
  - split; [|split]; [apply add_le, Ha|apply add_le, Hb|exact Hm].
Qed.

Lemma sse_unescape_le isa mask maskEq esc yo a b ca cb : (length a <= 16)%nat -> (length b <= 16)%nat -> (mask < 2 ^ 32)%N ->
  let '(u, v, k, _, _) := sse_unescape isa mask maskEq esc yo a b ca cb in (length u <= 16)%nat /\ (length v <= 16)%nat /\ (k < 2 ^ 32)%N.
Proof.
  intros Ha Hb Hm. unfold sse_unescape. cbv zeta. destruct (negb _); [|destruct (blend_add isa)].
  - split; [|split]; [apply add_le, add_le, Ha|apply add_le, add_le, Hb|apply fits_land, fits_land, Hm].
  - split; [|split]; [apply add_le, Ha|apply add_le, Hb|exact Hm].
  - split; [|split]; [apply add_le, add_le, Ha|apply add_le, add_le, Hb|exact Hm].
Qed.

Lemma two_movemasks u v : (length u <= 16)%nat -> (length v <= 16)%nat -> (N.lor (v_movemask u) (N.shiftl (v_movemask v) 16) < 2 ^ 32)%N.
Proof.
  intros Hu Hv. apply movemask_fits in Hu, Hv. apply fits_lor.
  - eapply N.lt_trans; [exact Hu|reflexivity].
  - rewrite N.shiftl_mul_pow2. change (2 ^ 32)%N with 4294967296%N. change (2 ^ 16)%N with 65536%N in *. lia.
Qed.

Lemma sse_match_le isa a b lf mm : (length a <= 16)%nat -> (length b <= 16)%nat ->
  let '(u, v) := sse_match isa a b lf mm in (length u <= 16)%nat /\ (length v <= 16)%nat.
Proof.
  intros Ha Hb. unfold sse_match. destruct (fast_match isa).
  - split; apply cmp_le; assumption.
  - split; apply or_le, or_le, cmp_le; assumption.
Qed.

(** ** One block, and all of them *)

Section Block.
Variables (isa : sse_isa) (r e : bool).
Variable newlines : bool -> bool -> bufs -> Z -> N -> N -> vec -> vec -> vec -> vec -> vec -> vec -> M (Z + nl_vars).
Variable unescape : N -> N -> N -> vec -> vec -> vec -> vec -> vec -> vec * vec * N * N * vec.
Variable compact_store : bufs -> Z -> N -> vec -> vec -> M Z.
Hypothesis Hnl : forall B x mask maskEq a b ca cb lf mm m, rlo B <= x -> x + 32 + lookahead r e <= rhi B -> x mod 16 = 0 ->
  (mask < 2 ^ 32)%N -> length a = 16%nat -> length b = 16%nat ->
  may False (newlines r e B x mask maskEq a b ca cb lf mm) m (nl_post m).
Hypothesis Hun : forall mask maskEq esc yo a b ca cb, (length a <= 16)%nat -> (length b <= 16)%nat -> (mask < 2 ^ 32)%N ->
  let '(u, v, k, _, _) := unescape mask maskEq esc yo a b ca cb in (length u <= 16)%nat /\ (length v <= 16)%nat /\ (k < 2 ^ 32)%N.
Hypothesis Hst : forall B p mask a b m, wlo B <= p -> p + 32 <= whi B -> (length a <= 16)%nat -> (length b <= 16)%nat -> (mask < 2 ^ 32)%N ->
  may False (compact_store B p mask a b) m (st_post p m).

Lemma may_sse_block B src i p esc yo lf mm m : rlo B <= src + i -> src + i + 32 + lookahead r e <= rhi B -> (src + i) mod 16 = 0 ->
  wlo B <= p -> p + 32 <= whi B ->
  may False (sse_block_with isa newlines unescape compact_store r e B src i (p, esc, yo, lf, mm)) m (fun x m' => match x with
    | inl _ => m' = m
    | inr (p', _, _, _, _) => p <= p' <= p + 32 /\ forall q, ~ (p <= q < p + 32) -> m' q = m q
    end).
Proof.
  intros H1 H2 Hal H3 H4. unfold sse_block_with.
  assert (LA : 0 <= lookahead r e) by (unfold lookahead; destruct e, r; lia).
  assert (Hal2 : (src + i + 16) mod 16 = 0) by (rewrite Zplus_mod, Hal; reflexivity).
  eapply may_bind; [apply may_loada; [exact Hal|lia|lia]|]. intros a m1 [-> La].
  eapply may_bind; [apply may_loada; [exact Hal2|lia|lia]|]. intros b m1 [-> Lb].
  pose proof (sse_match_le isa a b lf mm ltac:(lia) ltac:(lia)) as X. destruct (sse_match isa a b lf mm) as [ca cb]. destruct X as [Lca Lcb].
  cbv zeta. pose proof (two_movemasks ca cb Lca Lcb) as Hm. set (mask := N.lor _ _) in *. destruct (negb _).
  - eapply may_bind; [apply Hnl; assumption|]. intros [nm|[[mask' lf'] mm']] m1 [-> Hm']; [apply may_ret; reflexivity|].
    match goal with |- context [unescape mask' ?q1 esc yo a b ?q2 ?q3] =>
      pose proof (Hun mask' q1 esc yo a b q2 q3 ltac:(lia) ltac:(lia) Hm') as X; destruct (unescape mask' q1 esc yo a b q2 q3) as [[[[u v] k] esc'] yo'] end.
    destruct X as (Lu & Lv & Hk). eapply may_bind; [apply Hst; assumption|]. intros p' m1 X. apply may_ret. exact X.
  - assert (Lu : (length (v_add a yo) <= 16)%nat) by (apply add_le; lia).
    assert (Lv : (length (v_add b (v_set1 (-42))) <= 16)%nat) by (apply add_le; lia).
    apply zlen16 in Lu, Lv. pose proof (zlen_nonneg (v_add a yo)). pose proof (zlen_nonneg (v_add b (v_set1 (-42)))).
    eapply may_bind; [apply may_store_n; lia|]. intros ? m1 F1.
    eapply may_bind; [apply may_store_n; lia|]. intros ? m2 F2. apply may_ret. split; [lia|].
    intros q Hq. rewrite F2, F1 by lia. reflexivity.
Qed.

Lemma with_may : kernel_may False r e 32 (do_decode_with isa (sse_block_with isa newlines unescape compact_store) r e).
Proof.
  intros B src dest n look esc nm m Hn Hw Hal Hl H1 H2 H3 H4. unfold do_decode_with. cbv zeta.
  match goal with |- context [if ?c then if fast_match isa then _ else _ else _] =>
    destruct (if c then if fast_match isa then (v_set1 10, v_insert16 (v_set1 46) (if nm =? 1 then 0x2e00 else 0x002e))
        else (v_insert16 (v_set1 10) (if nm =? 1 then 0x0a2e else 0x2e0a), v_set1 46) else (v_set1 10, v_set1 46)) as [lf mm] end.
  assert (Hwn : 32 <= n).
  { destruct (Z_le_gt_dec 32 n); [assumption|]. rewrite Z.mod_small in Hw by lia. lia. }
  eapply may_bind.
  { apply may_back; [exact Hn|]. intro Hr. unfold lookahead in Hl. rewrite Hr in Hl. destruct e; lia. }
  intros nm1 m1 ->.
  eapply (may_bind False _ _ m (fun x m' => let '(stop, (p', _, _, _, _)) := x in let i' := match stop with Some (i', _) => i' | None => 0 end in
    - n <= i' <= 0 /\ dest <= p' <= dest + (n + i') /\ forall q, ~ (dest <= q < dest + n) -> m' q = m q)).
  - eapply may_mono.
    + apply (may_loop False 32 _ (fun st : sse_vars => let '(p, _, _, _, _) := st in p) n dest); try lia.
      intros i [[[[p ef] yo] lf'] mm'] m1 Hi1 Hi2 Him Hp. eapply may_mono.
      * apply may_sse_block; lia.
      * intros [k|[[[[p' ef'] yo'] lf2] mm2]] m2; [auto|]. intros [A F]. split; [exact A|]. intros q Hq. apply F. lia.
    + intros [stop [[[[p' ef] yo] lf'] mm']] m1. cbv beta iota zeta. auto.
  - intros [stop [[[[p' ef] yo] lf'] mm']] m1. cbv beta iota zeta. intros (I1 & I2 & F).
    destruct stop as [[i' nm']|]; apply may_ret; (split; [lia|]; split; [lia|exact F]).
Qed.
End Block.

Lemma sse_may isa r e : kernel_may False r e 32 (do_decode_sse isa r e).
Proof.
  apply with_may.
  - intros. apply may_sse_newlines; assumption.
  - apply sse_unescape_le.
  - intros. apply may_sse_store; assumption.
Qed.

Lemma evex_may isa r e : kernel_may False r e 32 (do_decode_evex isa r e).
Proof.
  apply with_may.
  - intros. destruct (e_mask isa); [apply may_evex_newlines|apply may_sse_newlines]; assumption.
  - apply evex_unescape_le.
  - intros. apply may_evex_store; assumption.
Qed.

Lemma evex_safe isa r e : (e = true -> r = true) -> forall src dest len state m, 0 <= len -> (e = true -> state <> None) -> dec_layout src len dest ->
  may False (do_decode_simd (do_decode_evex isa r e) r e 32 {| rlo := src; rhi := src + len; wlo := dest; whi := dest + len |}
    src dest len state) m (within src dest len m).
Proof.
  intros Hre src dest len state m Hl Hs Hd. apply (may_front False _ r e 5); auto; [|lia|].
  - apply evex_may.
  - unfold dec_layout in Hd. constructor; cbn [rlo rhi wlo whi]; lia.
Qed.
