(** Proofs about the PCLMULQDQ multiplication and shift. *)
From Verif Require Import Base BaseLemmas CrcSpec CrcLin CrcModel CrcAlg CrcProofs CrcMul ClmulModel ClmulProofs.
From Coq Require Import NArith Lia ZifyN ZifyBool ZifyNat.
Open Scope N_scope.

(** ** Or of disjoint masks *)
Lemma lor_masked x m y : N.land y m = 0 -> N.lor (N.land x m) y = N.land x m ⊕ y.
Proof.
  intro H. symmetry. apply N.lxor_lor. rewrite <- N.land_assoc, (N.land_comm m y), H. apply N.land_0_r.
Qed.
Lemma shl_masked x y k : N.shiftl (N.land x k) y = N.land (N.shiftl x y) (N.shiftl k y).
Proof. apply N.shiftl_land. Qed.
Lemma land_masks x a b : N.land (N.land x a) b = N.land x (N.land a b).
Proof. symmetry. apply N.land_assoc. Qed.

(** ** crc32_multiply_clmul *)
Local Opaque mm_clmul N.lxor N.land N.shiftl N.shiftr times_x.
Definition twice64 (x : N) : N :=
  N.land (N.shiftl (lo64 x) 1) W64 ⊕ N.shiftl (N.land (N.shiftl (hi64 x) 1) W64) 64.
Lemma add_self x : add_epi64 x x = twice64 x.
Proof.
  unfold add_epi64, twice64. 
  assert (E : forall y, y + y = N.shiftl y 1) by (intro y; rewrite N.shiftl_mul_pow2; lia).
  rewrite !E. apply lor_xor. apply lt_land_r. reflexivity.
Qed.
Lemma lin_twice f : lin f -> lin (fun x => twice64 (f x)). Proof. unfold twice64. auto 10 with lin. Qed.
#[export] Hint Resolve lin_twice : lin.

Definition mul_lin (a b : N) : N :=
  extract32 (crc32_reduce (slli_si128 (twice64 (mm_clmul a b 0)) 4)) 2.
Lemma lin_reduce f : lin f -> lin (fun x => crc32_reduce (f x)).
Proof. unfold crc32_reduce. cbv zeta. auto 10 with lin. Qed.
#[export] Hint Resolve lin_reduce : lin.
Theorem clmul_is_multiply : is_multiply crc32_multiply_clmul.
Proof.
  intros a b Ha Hb. unfold crc32_multiply_clmul. cbv zeta. rewrite add_self. fold (mul_lin a b).
  revert a b Ha Hb. apply (bilin_check 32 32 mul_lin mulx).
  - intro b. unfold mul_lin. auto 10 with lin.
  - intro a. unfold mul_lin. apply lin_extract, lin_reduce, lin_slli, lin_twice. apply (lin_mm_clmul_r (fun b => b)), lin_id.
  - apply mulx_lin_l.
  - apply mulx_lin_r.
  - vm_cast_no_check (eq_refl true).
Qed.

(** ** Numbers in normal bit order *)
Definition nsum (k r : N) : N :=
  fold_right (fun i acc => (if N.testbit r i then xpow i else 0) ⊕ acc) 0 (below k).
Definition nv (r : N) : N := nsum 128 r.
Lemma lin_nv f : lin f -> lin (fun r => nv (f r)).
Proof.
  intro Hf. unfold nv, nsum. induction (below 128) as [|i l IH]; cbn [fold_right]; [apply lin_zero|].
  apply (lin_xor (fun r => if N.testbit (f r) i then xpow i else 0)); [|exact IH]. auto with lin.
Qed.
#[export] Hint Resolve lin_nv : lin.
Lemma nv_word r : word (nv r).
Proof.
  unfold nv, nsum. induction (below 128) as [|i l IH]; cbn [fold_right]; [reflexivity|].
  apply xor_word; [|exact IH]. destruct (N.testbit r i); [apply xpow_word|reflexivity].
Qed.
Lemma nv_pow i : i < 128 -> nv (2 ^ i) = xpow i.
Proof.
  assert (C : forallb (fun i => nv (2 ^ i) =? xpow i) (below 128) = true) by (vm_cast_no_check (eq_refl true)).
  intro H. apply N.eqb_eq. exact (forallb_below _ _ C i H).
Qed.
Lemma nv_shiftl r j k : j + k <= 128 -> r < 2 ^ j -> nv (N.shiftl r k) = times_x k (nv r).
Proof.
  intros H. revert r. apply (lin_basis j (fun r => nv (N.shiftl r k)) (fun r => times_x k (nv r))).
  - auto with lin.
  - auto with lin.
  - intros i Hi. rewrite N.shiftl_mul_pow2, <- N.pow_add_r, !nv_pow by lia. unfold xpow. rewrite <- times_add.
    f_equal. lia.
Qed.

Lemma clmul_basis i j : i < 64 -> j < 64 -> clmul (2 ^ i) (2 ^ j) = 2 ^ (i + j).
Proof.
  assert (C : forallb (fun i => forallb (fun j => clmul (2 ^ i) (2 ^ j) =? 2 ^ (i + j)) (below 64)) (below 64) = true)
    by (vm_cast_no_check (eq_refl true)).
  intros Hi Hj. apply N.eqb_eq. exact (forallb_below _ _ (forallb_below _ _ C i Hi) j Hj).
Qed.
Lemma nv_clmul a b : a < 2 ^ 64 -> b < 2 ^ 64 -> nv (clmul a b) = mulx (nv a) (nv b).
Proof.
  intros Ha Hb. revert a Ha. apply (lin_basis 64 (fun a => nv (clmul a b)) (fun a => mulx (nv a) (nv b))).
  - apply lin_nv. apply (lin_clmul_n_l 64 b (fun a => a)), lin_id.
  - apply (lin_comp (fun a => mulx a (nv b)) nv); [apply mulx_lin_l|apply (lin_nv (fun a => a)), lin_id].
  - intros i Hi. revert b Hb. apply (lin_basis 64 (fun b => nv (clmul (2 ^ i) b)) (fun b => mulx (nv (2 ^ i)) (nv b))).
    + apply lin_nv. apply (lin_clmul_n_r 64 (2 ^ i) (fun a => a)), lin_id.
    + apply (lin_comp (mulx (nv (2 ^ i))) nv); [apply mulx_lin_r|apply (lin_nv (fun a => a)), lin_id].
    + intros j Hj. rewrite clmul_basis, !nv_pow by lia. symmetry. apply xpow_add.
Qed.

(** What the low half of a vector stands for. *)
Definition nlo (r : N) : N := nv (lo64 r).
Lemma nlo_word r : word (nlo r). Proof. apply nv_word. Qed.
Lemma lo64_id r : r < 2 ^ 64 -> lo64 r = r.
Proof. intro H. unfold lo64. change W64 with (N.ones 64). rewrite N.land_ones. apply N.mod_small, H. Qed.
Lemma lin_nlo f : lin f -> lin (fun r => nlo (f r)). Proof. unfold nlo. auto with lin. Qed.
#[export] Hint Resolve lin_nlo : lin.

Local Transparent mm_clmul.
Lemma nv_mm_clmul a b : nv (mm_clmul a b 0) = mulx (nlo a) (nlo b).
Proof. unfold mm_clmul. cbn [N.testbit]. apply nv_clmul; apply lo64_bound. Qed.
Local Opaque mm_clmul.

Lemma power_rev i : i < 32 -> tab crc_power_rev i < 2 ^ 32 /\ nlo (tab crc_power_rev i) = xpow (2 ^ i).
Proof.
  assert (C : forallb (fun i => (tab crc_power_rev i <? 2 ^ 32) && (nlo (tab crc_power_rev i) =? tab crc_power i)) (below 32) = true)
    by (vm_cast_no_check (eq_refl true)).
  intro H. pose proof (forallb_below _ _ C i H) as D. cbv beta in D. apply andb_prop in D. destruct D as [D1 D2].
  apply N.ltb_lt in D1. apply N.eqb_eq in D2. rewrite D2. split; [exact D1|apply power_table, H].
Qed.

(** Reductions. *)
Definition red96 (x : N) : N := mm_clmul x fold_const 0x11 ⊕ x.
Lemma red96_ok x : x < 2 ^ 96 -> nlo (red96 x) = nv x.
Proof.
  revert x. apply (lin_check 96 (fun x => nlo (red96 x)) nv).
  - unfold red96. auto with lin.
  - apply (lin_nv (fun x => x)), lin_id.
  - vm_cast_no_check (eq_refl true).
Qed.
Definition red128 (x : N) : N :=
  let t := unpackhi_epi32_0 x in x ⊕ mm_clmul t fold_const 1 ⊕ mm_clmul t fold_const 0x10.
Lemma lin_set f3 f2 f1 f0 : lin f3 -> lin f2 -> lin f1 -> lin f0 -> lin (fun x => set_epi32 (f3 x) (f2 x) (f1 x) (f0 x)).
Proof. intros. unfold set_epi32. auto 10 with lin. Qed.
#[export] Hint Resolve lin_set : lin.
Lemma lin_unpack f : lin f -> lin (fun x => unpackhi_epi32_0 (f x)).
Proof. intro. unfold unpackhi_epi32_0. apply (lin_set (fun _ => 0) _ (fun _ => 0)); auto with lin. Qed.
#[export] Hint Resolve lin_unpack : lin.
Lemma red128_ok x : x < 2 ^ 128 -> nlo (red128 x) = nv x.
Proof.
  revert x. apply (lin_check 128 (fun x => nlo (red128 x)) nv).
  - unfold red128. cbv zeta. auto 10 with lin.
  - apply (lin_nv (fun x => x)), lin_id.
  - vm_cast_no_check (eq_refl true).
Qed.
Definition barrett (x : N) : N :=
  let k := set_epi32 0 0x04c11db7 1 0x04d101df in mm_clmul (mm_clmul (blend_epi16_3c x) k 0) k 0x11 ⊕ x.
Lemma lin_barrett f : lin f -> lin (fun x => barrett (f x)).
Proof. intro. unfold barrett, blend_epi16_3c. cbv zeta. auto 10 with lin. Qed.
Lemma barrett_ok x : x < 2 ^ 128 -> nv (u32 (barrett x)) = nlo x.
Proof.
  revert x. apply (lin_check 128 (fun x => nv (u32 (barrett x))) nlo).
  - apply lin_nv. apply (lin_land barrett). apply (lin_barrett (fun x => x)), lin_id.
  - apply (lin_nlo (fun x => x)), lin_id.
  - vm_cast_no_check (eq_refl true).
Qed.

(** ** Reversing bits *)
Lemma of_bytes_bit n f i : (forall j, f j < 256) ->
  N.testbit (of_bytes n f) i = (i / 8 <? N.of_nat n) && N.testbit (f (i / 8)) (i mod 8).
Proof.
  intro Hf. induction n as [|n IH]; cbn [of_bytes].
  - rewrite N.bits_0. destruct (N.ltb_spec (i / 8) (N.of_nat 0)); [lia|reflexivity].
  - rewrite N.lxor_spec, IH. pose proof (N.div_mod i 8 ltac:(lia)) as D. pose proof (N.mod_lt i 8 ltac:(lia)) as L.
    destruct (N.lt_trichotomy (i / 8) (N.of_nat n)) as [Q|[Q|Q]].
    + rewrite N.shiftl_spec_low by lia. rewrite xorb_false_r. f_equal. lia.
    + rewrite N.shiftl_spec_high' by lia. rewrite Q.
      replace (i - 8 * N.of_nat n) with (i mod 8) by lia.
      rewrite N.ltb_irrefl. replace (N.of_nat n <? N.of_nat (S n)) with true by lia. cbn [andb]. apply xorb_false_l.
    + rewrite N.shiftl_spec_high' by lia.
      replace (i / 8 <? N.of_nat n) with false by lia. replace (i / 8 <? N.of_nat (S n)) with false by lia.
      cbn [andb]. rewrite xorb_false_l. apply (proj1 (lt_pow2_bits _ 8) (Hf _)). lia.
Qed.
Lemma byte_at_lt x i : byte_at x i < 256.
Proof. apply (lt_land_r _ _ 8). reflexivity. Qed.

(** One byte with its bits reversed, as a linear function. *)
Definition rev8 (b : N) : N :=
  fold_right (fun i acc => (if N.testbit b i then 2 ^ (7 - i) else 0) ⊕ acc) 0 (below 8).
Definition shuf (t j : N) : N := if N.testbit j 7 then 0 else byte_at t (N.land j 15).
Lemma shuf_lt t j : shuf t j < 256. Proof. unfold shuf. destruct (N.testbit _ _); [lia|apply byte_at_lt]. Qed.
Lemma rev8_ok b : b < 256 -> N.lor (shuf rev_lo (N.land b 15)) (shuf rev_hi (N.land (N.shiftr b 4) 15)) = rev8 b.
Proof.
  assert (C : forallb (fun b => N.lor (shuf rev_lo (N.land b 15)) (shuf rev_hi (N.land (N.shiftr b 4) 15)) =? rev8 b) (below 256) = true)
    by (vm_cast_no_check (eq_refl true)).
  intro H. apply N.eqb_eq. exact (forallb_below _ _ C b H).
Qed.
Lemma rev8_lt b : rev8 b < 256.
Proof.
  unfold rev8. change 256 with (2 ^ 8).
  assert (H : forall l, (forall i, In i l -> i < 8) -> fold_right (fun i acc => (if N.testbit b i then 2 ^ (7 - i) else 0) ⊕ acc) 0 l < 2 ^ 8).
  { induction l as [|i l IH]; intro H; cbn [fold_right]; [reflexivity|]. apply lt_xor; [|apply IH; intros; apply H; right; assumption].
    destruct (N.testbit b i); [|reflexivity]. apply N.pow_lt_mono_r; [lia|]. specialize (H i (or_introl eq_refl)). lia. }
  apply H. intros i Hi. apply in_map_iff in Hi. destruct Hi as (k & <- & Hk). apply in_seq in Hk. lia.
Qed.
Definition rev_all (x : N) : N := of_bytes 16 (fun i => rev8 (byte_at x i)).
Lemma lin_rev8 f : lin f -> lin (fun x => rev8 (f x)).
Proof.
  intro Hf. unfold rev8. induction (below 8) as [|i l IH]; cbn [fold_right]; [apply lin_zero|].
  apply (lin_xor (fun r => if N.testbit (f r) i then 2 ^ (7 - i) else 0)); [|exact IH]. auto with lin.
Qed.
Lemma lin_rev_all f : lin f -> lin (fun x => rev_all (f x)).
Proof.
  intro Hf. unfold rev_all. apply (lin_of_bytes 16 (fun x i => rev8 (byte_at (f x) i))). intro i.
  apply lin_rev8. unfold byte_at. auto with lin.
Qed.

Lemma land_byte x m i : byte_at (N.land x m) i = N.land (byte_at x i) (byte_at m i).
Proof.
  unfold byte_at. rewrite N.shiftr_land. apply N.bits_inj. intro j. rewrite !N.land_spec.
  destruct (N.testbit _ _), (N.testbit _ _), (N.testbit _ _); reflexivity.
Qed.
Lemma byte_at_0f i : i < 16 -> byte_at set1_epi8_0f i = 15.
Proof.
  assert (C : forallb (fun i => byte_at set1_epi8_0f i =? 15) (below 16) = true) by (vm_compute; reflexivity).
  intro H. apply N.eqb_eq. exact (forallb_below _ _ C i H).
Qed.
Lemma hi_nibble x i : i < 16 -> N.land (byte_at (srli_epi16_4 x) i) 15 = N.land (N.shiftr (byte_at x i) 4) 15.
Proof.
  intro H. unfold srli_epi16_4. rewrite land_byte.
  assert (C : forallb (fun i => N.land (byte_at 0x0fff0fff0fff0fff0fff0fff0fff0fff i) 15 =? 15) (below 16) = true) by (vm_compute; reflexivity).
  pose proof (proj1 (N.eqb_eq _ _) (forallb_below _ _ C i H)) as E. cbv beta in E.
  rewrite <- N.land_assoc, E. unfold byte_at.
  apply N.bits_inj. intro j. rewrite !N.land_spec, !N.shiftr_spec, !N.land_spec, !N.shiftr_spec by lia.
  change 15 with (N.ones 4). change 0xFF with (N.ones 8).
  destruct (N.lt_ge_cases j 4) as [L|L].
  - rewrite !N.ones_spec_low by lia. rewrite !andb_true_r. f_equal. lia.
  - rewrite (N.ones_spec_high 4) by lia. rewrite !andb_false_r. reflexivity.
Qed.
Lemma affine_rev8 b : b < 256 -> affine_byte 0x8040201008040201 b = rev8 b.
Proof.
  assert (C : forallb (fun b => affine_byte 0x8040201008040201 b =? rev8 b) (below 256) = true) by (vm_compute; reflexivity).
  intro H. apply N.eqb_eq. exact (forallb_below _ _ C b H).
Qed.
Lemma of_bytes_ext n f g : (forall i, f i = g i) -> of_bytes n f = of_bytes n g.
Proof. intro H. induction n as [|n IH]; [reflexivity|]. cbn [of_bytes]. rewrite IH, H. reflexivity. Qed.
Lemma reverse_ok gfni x : reverse_bits_epi8 gfni x = rev_all x.
Proof.
  unfold reverse_bits_epi8, rev_all, shuffle_epi8. destruct gfni.
  { unfold gf2p8affine. apply of_bytes_ext. intro i.
    change (lo64 (set_epi32 2151686160 134480385 2151686160 134480385)) with 0x8040201008040201.
    change (hi64 (set_epi32 2151686160 134480385 2151686160 134480385)) with 0x8040201008040201.
    destruct (i <? 8); apply affine_rev8, byte_at_lt. }
  cbv zeta. apply N.bits_inj. intro i. rewrite N.lor_spec.
  rewrite (of_bytes_bit 16 (fun i => if N.testbit (byte_at (N.land x set1_epi8_0f) i) 7 then 0 else byte_at rev_lo (N.land (byte_at (N.land x set1_epi8_0f) i) 15)))
    by (intro j; apply shuf_lt).
  rewrite (of_bytes_bit 16 (fun i => if N.testbit (byte_at (N.land (srli_epi16_4 x) set1_epi8_0f) i) 7 then 0 else byte_at rev_hi (N.land (byte_at (N.land (srli_epi16_4 x) set1_epi8_0f) i) 15)))
    by (intro j; apply shuf_lt).
  rewrite of_bytes_bit by (intro; apply rev8_lt).
  destruct (N.ltb_spec (i / 8) (N.of_nat 16)) as [L|L]; [|reflexivity]. cbn [andb].
  fold (shuf rev_lo (byte_at (N.land x set1_epi8_0f) (i / 8))).
  fold (shuf rev_hi (byte_at (N.land (srli_epi16_4 x) set1_epi8_0f) (i / 8))).
  rewrite <- N.lor_spec, !land_byte, byte_at_0f by lia. rewrite hi_nibble by lia.
  rewrite rev8_ok by apply byte_at_lt. reflexivity.
Qed.

Lemma bswap_ok n : BSWAP32 n = N.land (N.shiftl n 24) 0xff000000 ⊕ (N.land (N.shiftl n 8) 0xff0000 ⊕
  (N.land (N.shiftr n 8) 0xff00 ⊕ N.land (N.shiftr n 24) 0xff)).
Proof.
  unfold BSWAP32, shl32, u32. rewrite !N.shiftl_land, !N.shiftr_land, !land_masks.
  change (N.land (N.shiftl 255 24) 4294967295) with 0xff000000.
  change (N.land (N.shiftl 0xff00 8) 4294967295) with 0xff0000.
  change (N.shiftr 0xff0000 8) with 0xff00. change (N.shiftr 0xff000000 24) with 0xff.
  rewrite !lor_masked; [reflexivity| | |].
  - rewrite land_masks. apply N.land_0_r.
  - rewrite lor_masked by (rewrite land_masks; apply N.land_0_r). rewrite !land_xor_l, !land_masks. rewrite !N.land_0_r. reflexivity.
  - rewrite (lor_masked _ 0xff00) by (rewrite land_masks; apply N.land_0_r).
    rewrite (lor_masked _ 0xff0000) by (rewrite !land_xor_l, !land_masks, !N.land_0_r; reflexivity).
    rewrite !land_xor_l, !land_masks, !N.land_0_r. reflexivity.
Qed.
Lemma lin_bswap f : lin f -> lin (fun x => BSWAP32 (f x)).
Proof.
  intro Hf. apply (lin_ext_fun (fun x => N.land (N.shiftl (f x) 24) 0xff000000 ⊕ (N.land (N.shiftl (f x) 8) 0xff0000 ⊕
    (N.land (N.shiftr (f x) 8) 0xff00 ⊕ N.land (N.shiftr (f x) 24) 0xff)))); [intro; symmetry; apply bswap_ok|auto 10 with lin].
Qed.
Lemma lin_reverse gfni f : lin f -> lin (fun x => reverse_bits_epi8 gfni (f x)).
Proof. intro Hf. apply (lin_ext_fun (fun x => rev_all (f x))); [intro; symmetry; apply reverse_ok|apply lin_rev_all, Hf]. Qed.
#[export] Hint Resolve lin_bswap lin_reverse : lin.

Lemma into_normal gfni c : word c -> reverse_bits_epi8 gfni (BSWAP32 c) < 2 ^ 32 /\ nv (reverse_bits_epi8 gfni (BSWAP32 c)) = c.
Proof.
  intro H. split.
  - assert (E : u32 (reverse_bits_epi8 gfni (BSWAP32 c)) = reverse_bits_epi8 gfni (BSWAP32 c)).
    { revert c H. apply (lin_check 32 (fun c => u32 (reverse_bits_epi8 gfni (BSWAP32 c))) (fun c => reverse_bits_epi8 gfni (BSWAP32 c)));
        [unfold u32; auto with lin|auto with lin|destruct gfni; vm_cast_no_check (eq_refl true)]. }
    rewrite <- E. apply u32_word.
  - revert c H. apply (lin_check 32 (fun c => nv (reverse_bits_epi8 gfni (BSWAP32 c))) (fun c => c));
      [auto with lin|apply lin_id|destruct gfni; vm_cast_no_check (eq_refl true)].
Qed.
Lemma out_of_normal gfni x : x < 2 ^ 128 -> BSWAP32 (u32 (reverse_bits_epi8 gfni x)) = nv (u32 x).
Proof.
  revert x. apply (lin_check 128 (fun x => BSWAP32 (u32 (reverse_bits_epi8 gfni x))) (fun x => nv (u32 x)));
    [unfold u32; auto with lin|unfold u32; auto with lin|destruct gfni; vm_cast_no_check (eq_refl true)].
Qed.

(** ** crc32_shift_clmul *)
Lemma sll_ok x k : x < 2 ^ 32 -> k < 32 -> sll_epi64 x k = N.shiftl x k /\ N.shiftl x k < 2 ^ 64.
Proof.
  intros Hx Hk.
  assert (B : N.shiftl x k < 2 ^ 64) by (eapply lt_weaken; [apply lt_shiftl, Hx|lia]).
  split; [|exact B]. unfold sll_epi64.
  rewrite lo64_id by (eapply lt_weaken; [exact Hx|lia]).
  assert (H0 : hi64 x = 0).
  { unfold hi64. rewrite N.shiftr_div_pow2, N.div_small; [reflexivity|]. eapply lt_weaken; [exact Hx|lia]. }
  rewrite H0, !N.shiftl_0_l, N.lor_0_r. apply lo64_id, B.
Qed.

(** Taking away the lowest set bit. *)
Lemma clear_step n : n <> 0 -> word n ->
  N.land n (n - 1) = n - 2 ^ ctz n /\ 2 ^ ctz n <= n /\ ctz n < 32 /\ word (n - 2 ^ ctz n) /\
  forall j, j <= 32 -> (2 ^ j | n) -> (2 ^ (j + 1) | n - 2 ^ ctz n).
Proof.
  intros E Hn. destruct (clear_lowest n E) as [C1 C2].
  assert (Hc : ctz n < 32).
  { destruct (N.lt_ge_cases (ctz n) 32) as [|L]; [assumption|].
    pose proof (N.pow_le_mono_r 2 32 (ctz n) ltac:(lia) L). unfold word in Hn. lia. }
  repeat apply conj; try assumption.
  - unfold word in *. lia.
  - intros j Hj Hd. pose proof (ctz_divide n _ E Hd) as L. destruct (next_divides n E) as [k Hk].
    exists (k * 2 ^ (ctz n + 1 - (j + 1))). rewrite <- N.mul_assoc, <- N.pow_add_r. rewrite Hk. f_equal. f_equal. lia.
Qed.

Lemma clmul_n_bound_r n a b k j : a < 2 ^ k -> b < 2 ^ j -> clmul_n n a b < 2 ^ (k + j).
Proof.
  intros Ha Hb. induction n as [|n IH]; cbn [clmul_n]; [pose proof (N.pow_nonzero 2 (k + j)); lia|].
  apply lt_xor; [exact IH|]. destruct (N.testbit b (N.of_nat n)) eqn:T; [|pose proof (N.pow_nonzero 2 (k + j)); lia].
  destruct (N.lt_ge_cases (N.of_nat n) j) as [L|L].
  - eapply lt_weaken; [apply lt_shiftl, Ha|lia].
  - rewrite (proj1 (lt_pow2_bits b j) Hb _ L) in T. discriminate.
Qed.
Local Transparent mm_clmul.
Lemma mm_clmul_32 a b : b < 2 ^ 32 -> mm_clmul a b 0 < 2 ^ 96.
Proof.
  intro H. unfold mm_clmul. cbn [N.testbit]. apply (clmul_n_bound_r 64%nat _ _ 64 32); [apply lo64_bound|].
  rewrite lo64_id; [exact H|]. eapply lt_weaken; [exact H|lia].
Qed.
Lemma mm_clmul_32_32 a b : a < 2 ^ 32 -> b < 2 ^ 32 -> mm_clmul a b 0 < 2 ^ 64.
Proof.
  intros Ha Hb. unfold mm_clmul. cbn [N.testbit].
  rewrite !lo64_id by (eapply lt_weaken; [eassumption|lia]). apply (clmul_n_bound_r 64%nat _ _ 32 32); assumption.
Qed.
Local Opaque mm_clmul.

Lemma mulred_ok pos x : pos < 32 -> nlo (crc32_shift_clmul_mulred pos x) = times_x (2 ^ pos) (nlo x).
Proof.
  intro H. destruct (power_rev pos H) as [P1 P2]. unfold crc32_shift_clmul_mulred. cbv zeta.
  fold (red96 (mm_clmul x (tab crc_power_rev pos) 0)). rewrite red96_ok.
  - rewrite nv_mm_clmul, P2. apply mulx_xpow_r, nlo_word.
  - apply mm_clmul_32, P1.
Qed.

Lemma mulx_swap n a b : word a -> word b -> mulx a (times_x n b) = times_x n (mulx a b).
Proof. intros. rewrite mulx_comm, mulx_times, mulx_comm by auto using times_word. reflexivity. Qed.

Lemma mul_loop_ok fuel : forall n r r2, (fuel <= 32)%nat -> word n -> (2 ^ (32 - N.of_nat fuel) | n) ->
  let '(r', r2') := shift_mul_loop fuel n r r2 in mulx (nlo r') (nlo r2') = times_x n (mulx (nlo r) (nlo r2)).
Proof.
  induction fuel as [|fuel IH]; intros n r r2 Hf Hn Hd; cbn [shift_mul_loop].
  - destruct Hd as [k Hk]. unfold word in Hn. change (32 - N.of_nat 0) with 32 in Hk. replace n with 0 by lia. reflexivity.
  - destruct (N.eqb_spec n 0) as [->|E]; [reflexivity|].
    destruct (clear_step n E Hn) as (C1 & C2 & C3 & C4 & C5). rewrite C1.
    specialize (C5 (32 - N.of_nat (S fuel)) ltac:(lia) Hd). set (n1 := n - 2 ^ ctz n) in *.
    assert (En : times_x n (mulx (nlo r) (nlo r2)) = times_x n1 (times_x (2 ^ ctz n) (mulx (nlo r) (nlo r2)))).
    { rewrite <- times_add. f_equal. subst n1. lia. }
    destruct (N.eqb_spec n1 0) as [E1|E1].
    + rewrite En, E1, mulred_ok by assumption. rewrite mulx_times. reflexivity.
    + destruct (clear_step n1 E1 C4) as (D1 & D2 & D3 & D4 & D5). rewrite D1.
      replace (32 - N.of_nat (S fuel) + 1) with (32 - N.of_nat fuel) in C5 by lia.
      specialize (D5 (32 - N.of_nat fuel) ltac:(lia) C5).
      assert (Dv : (2 ^ (32 - N.of_nat fuel) | n1 - 2 ^ ctz n1)).
      { destruct D5 as [k Hk]. exists (k * 2). rewrite Hk, N.pow_add_r. change (2 ^ 1) with 2. lia. }
      specialize (IH (n1 - 2 ^ ctz n1) (crc32_shift_clmul_mulred (ctz n) r) (crc32_shift_clmul_mulred (ctz n1) r2) ltac:(lia) D4 Dv).
      destruct (shift_mul_loop fuel _ _ _) as [r' r2']. rewrite IH, En, !mulred_ok by assumption.
      rewrite mulx_times, mulx_swap by apply nlo_word.
      rewrite (times_comm (2 ^ ctz n)), <- times_add. f_equal. lia.
Qed.

Lemma land_31 n : word n -> N.land n 31 = n mod 32 /\ N.land n 0xFFFFFFE0 = n - n mod 32.
Proof.
  intro H. change 31 with (N.ones 5). rewrite N.land_ones. change (2 ^ 5) with 32. split; [reflexivity|].
  assert (E : n = N.land n 0xFFFFFFE0 + n mod 32).
  { change 32 with (2 ^ 5). rewrite <- N.land_ones.
    assert (F : N.land n 0xFFFFFFE0 ⊕ N.land n (N.ones 5) = n).
    { rewrite !(N.land_comm n). rewrite <- land_xor_l. change (0xFFFFFFE0 ⊕ N.ones 5) with (N.ones 32).
      rewrite N.land_comm, N.land_ones. apply N.mod_small, H. }
    rewrite <- F at 1. symmetry. apply N.add_nocarry_lxor.
    rewrite land_masks, (N.land_comm _ (N.land n (N.ones 5))), land_masks.
    change (N.land (N.ones 5) 4294967264) with 0. rewrite !N.land_0_r. reflexivity. }
  pose proof (N.mod_le n 32 ltac:(lia)). lia.
Qed.

Theorem clmul_is_shift avx gfni : is_shift (crc32_shift_clmul avx gfni).
Proof.
  intros c n Hc Hn. unfold crc32_shift_clmul. destruct (N.eqb_spec n 0) as [->|E]; [reflexivity|]. cbv zeta.
  destruct (into_normal gfni c Hc) as [I1 I2]. set (r := reverse_bits_epi8 gfni (BSWAP32 c)) in *. clearbody r.
  destruct (land_31 n Hn) as [A1 A2]. rewrite A1, A2.
  pose proof (N.mod_lt n 32 ltac:(lia)) as Lm.
  destruct (sll_ok r (n mod 32) I1 Lm) as [S1 S2]. rewrite S1.
  assert (V : nlo (N.shiftl r (n mod 32)) = times_x (n mod 32) c).
  { unfold nlo. rewrite lo64_id by assumption. rewrite (nv_shiftl r 32) by (assumption || lia). rewrite I2. reflexivity. }
  set (x := N.shiftl r (n mod 32)) in *. clearbody x. clear S1 A1 A2 I1 I2 r.
  pose proof (N.mod_le n 32 ltac:(lia)) as Ln.
  assert (Hdiv : (2 ^ 5 | n - n mod 32)).
  { exists (n / 32). change (2 ^ 5) with 32. pose proof (N.div_mod n 32 ltac:(lia)). lia. }
  assert (Tn : times_x n c = times_x (n - n mod 32) (times_x (n mod 32) c)).
  { rewrite <- times_add. f_equal. lia. }
  set (h := n - n mod 32) in *. assert (Hh : word h) by (unfold word in *; subst h; lia). clearbody h.
  (* the multiplications *)
  match goal with |- BSWAP32 (u32 (reverse_bits_epi8 gfni (_ ⊕ ?res))) = _ =>
    assert (Q : res < 2 ^ 128 /\ nlo res = times_x n c); [|set (y := res) in *] end.
  { rewrite Tn. destruct (N.eqb_spec h 0) as [->|Eh].
    - split; [eapply lt_weaken; [exact S2|lia]|exact V].
    - destruct (clear_step h Eh Hh) as (C1 & C2 & C3 & C4 & C5). rewrite C1. specialize (C5 5 ltac:(lia) Hdiv).
      set (h1 := h - 2 ^ ctz h) in *. destruct (power_rev _ C3) as [P1 P2].
      match goal with |- context [let '(_, _) := ?p in _] =>
        assert (K : let '(a, b) := p in mulx (nlo a) (nlo b) = times_x h (nlo x)); [|destruct p as [a b]] end.
      { destruct (N.eqb_spec h1 0) as [E1|E1].
        - rewrite P2, mulx_xpow_r by apply nlo_word. f_equal. subst h1. lia.
        - destruct (clear_step h1 E1 C4) as (D1 & D2 & D3 & D4 & D5). rewrite D1. specialize (D5 6 ltac:(lia) C5).
          destruct (power_rev _ D3) as [R1 R2].
          pose proof (mul_loop_ok 32 (h1 - 2 ^ ctz h1) x (mm_clmul (tab crc_power_rev (ctz h)) (tab crc_power_rev (ctz h1)) 0)
            ltac:(lia) D4 (N.divide_1_l _)) as K.
          destruct (shift_mul_loop _ _ _ _) as [a b]. rewrite K.
          assert (F : nlo (mm_clmul (tab crc_power_rev (ctz h)) (tab crc_power_rev (ctz h1)) 0) = xpow (2 ^ ctz h + 2 ^ ctz h1)).
          { assert (B : mm_clmul (tab crc_power_rev (ctz h)) (tab crc_power_rev (ctz h1)) 0 < 2 ^ 64).
            { apply mm_clmul_32_32; assumption. }
            unfold nlo at 1. rewrite lo64_id by exact B. rewrite nv_mm_clmul, P2, R2. apply xpow_add. }
          rewrite F, mulx_xpow_r, <- times_add by apply nlo_word. f_equal. subst h1. lia. }
      rewrite xor3_ok by apply mm_clmul_bound. fold (red128 (mm_clmul a b 0)). split.
      + unfold red128. cbv zeta. repeat apply lt_xor; apply mm_clmul_bound.
      + rewrite red128_ok by apply mm_clmul_bound. rewrite nv_mm_clmul, K, V. reflexivity. }
  clearbody y. destruct Q as [Q1 Q2]. fold (barrett y).
  rewrite out_of_normal, barrett_ok by (assumption || (apply lt_xor; [apply mm_clmul_bound|assumption])). exact Q2.
Qed.
