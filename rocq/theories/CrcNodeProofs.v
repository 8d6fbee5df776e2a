(** The JavaScript-visible CRC functions, for any implementation of the three
    primitives that computes the right values. *)
From Verif Require Import Base BaseLemmas CrcSpec CrcLin CrcModel CrcAlg CrcProofs CrcMul CrcErr CrcNodeSpec.
From Coq Require Import NArith Lia ZifyN ZifyBool ZifyNat.
Open Scope N_scope.

Definition crc_ok (f : crc_fun) : Prop := forall B m src data init,
  readable B m src data -> word init -> f B src (zlen data) init m = Ok (crc32_spec init data, m).

Lemma generic_crc_ok : crc_ok (do_crc32_incremental_generic generate_crc32_slice_table).
Proof. intros B m src data init. apply crc_generic_ok. Qed.

(** ** Buffers *)
Lemma pack_be c : pack_crc32 c = be32 c.
Proof.
  unfold pack_crc32, be32. cbv zeta. cbn [map]. rewrite !N.shiftr_div_pow2.
  rewrite N.pow_0_r, N.div_1_r.
  assert (E : forall n, u8 (Z.of_N n) = u8 (Z.of_N (n mod 256))).
  { intro n. apply u8_eq. rewrite N2Z.inj_mod. rewrite Z.mod_mod by lia. reflexivity. }
  rewrite <- !E. reflexivity.
Qed.
Lemma be32_len c : length (be32 c) = 4%nat. Proof. reflexivity. Qed.
Lemma is4_be c : is4 (be32 c) = true. Proof. reflexivity. Qed.
Lemma read_be32 c : word c -> read_crc32 (be32 c) = c.
Proof. intro. rewrite <- pack_be. apply read_pack. assumption. Qed.
Lemma buf_be b : crc_buf b -> exists c, word c /\ b = be32 c /\ read_crc32 b = c.
Proof. intro H. exists (read_crc32 b). split; [apply read_word|]. split; [|reflexivity]. rewrite <- pack_be. symmetry. apply pack_read, H. Qed.
Lemma be32_inj a b : word a -> word b -> be32 a = be32 b -> a = b.
Proof. intros Ha Hb E. rewrite <- (read_be32 a), E, read_be32 by assumption. reflexivity. Qed.
Lemma spec_word i d : word i -> word (crc32_spec i d).
Proof. intro. apply compl_word, crc_bytes_word, compl_word. assumption. Qed.
Lemma zero_word : word 0. Proof. reflexivity. Qed.

(** ** crc32 *)
Section Crc.
Variable f : crc_fun.
Hypothesis Hf : crc_ok f.

Lemma js_crc_init data b c : word c -> b = be32 c -> crc32_returns f data (Some b) (be32 (crc32_spec c data)).
Proof.
  intros Hc -> src m Hm. unfold node_crc32. rewrite is4_be, read_be32 by assumption.
  rewrite Hf; [rewrite pack_be; reflexivity| |assumption].
  unfold readable. split; [cbn [rlo rhi]; pose proof (zlen_nonneg data); lia|exact Hm].
Qed.
Lemma js_crc data : crc32_returns f data None (crc_of data).
Proof.
  intros src m Hm. unfold node_crc32.
  rewrite Hf; [rewrite pack_be; reflexivity| |apply zero_word].
  unfold readable. split; [cbn [rlo rhi]; pose proof (zlen_nonneg data); lia|exact Hm].
Qed.
Lemma js_crc_fun data init r r' : crc32_returns f data init r -> crc32_returns f data init r' -> r = r'.
Proof.
  intros H H'. specialize (H 0%Z (mem_of 0 data) (bytes_at_mem_of _ _)). specialize (H' 0%Z (mem_of 0 data) (bytes_at_mem_of _ _)).
  congruence.
Qed.

Lemma spec_app i a b : crc32_spec (crc32_spec i a) b = crc32_spec i (a ++ b).
Proof. unfold crc32_spec. rewrite compl_compl, crc_bytes_app. reflexivity. Qed.

Lemma js_incremental a b : crc32_returns f b (Some (crc_of a)) (crc_of (a ++ b)).
Proof.
  unfold crc_of. rewrite <- spec_app. apply js_crc_init; [apply spec_word, zero_word|reflexivity].
Qed.
End Crc.

(** ** Shifts *)
Section Shift.
Variable shift : mulfun.
Hypothesis HS : is_shift shift.

Lemma js_combine a b : (zlen b < 2 ^ 63)%Z ->
  node_crc32_combine shift (crc_of a) (crc_of b) (zlen b) = JReturns (crc_of (a ++ b)).
Proof.
  intro H. unfold node_crc32_combine, crc_of. rewrite !is4_be. cbn [andb].
  rewrite !read_be32 by apply spec_word, zero_word. rewrite pack_be. do 2 f_equal.
  pose proof (zlen_nonneg b). rewrite Z.mod_small by lia.
  replace (Z.to_N (zlen b)) with (nlen b) by (unfold nlen, zlen; lia).
  apply combine_ok; [exact HS|]. unfold nlen, zlen in *. lia.
Qed.

Lemma to_int32_small n : (- 2 ^ 31 <= n < 2 ^ 31)%Z -> to_int32 n = n.
Proof. intro. unfold to_int32. rewrite Z.mod_small by lia. lia. Qed.

Lemma js_zeroes_init b c n : word c -> b = be32 c -> (Z.of_nat n < 2 ^ 31)%Z ->
  node_crc32_zeroes shift (Z.of_nat n) (Some b) = JReturns (be32 (crc32_spec c (repeat x00 n))).
Proof.
  intros Hc -> H. unfold node_crc32_zeroes, init_crc. rewrite is4_be, read_be32 by assumption.
  rewrite to_int32_small by lia. cbv zeta. destruct (Z.of_nat n <? 0)%Z eqn:E; [lia|].
  rewrite pack_be. do 2 f_equal. replace (Z.to_N (Z.of_nat n)) with (N.of_nat n) by lia.
  apply zeros_ok; [exact HS|exact Hc|lia].
Qed.
Lemma js_zeroes n : (Z.of_nat n < 2 ^ 31)%Z -> node_crc32_zeroes shift (Z.of_nat n) None = JReturns (crc_of (repeat x00 n)).
Proof. exact (js_zeroes_init (be32 0) 0 n zero_word eq_refl). Qed.

Lemma js_zeroes_undo b n : crc_buf b -> (0 < n < 2 ^ 31)%Z ->
  exists b1 b2, node_crc32_zeroes shift n (Some b) = JReturns b1 /\ node_crc32_zeroes shift (- n) (Some b1) = JReturns b /\
    node_crc32_zeroes shift (- n) (Some b) = JReturns b2 /\ node_crc32_zeroes shift n (Some b2) = JReturns b.
Proof.
  intros Hb Hn. destruct (buf_be b Hb) as (c & Hc & -> & _).
  assert (W : forall c l, l < 2 ^ 64 -> word c -> word (crc32_zeros shift c l)).
  { intros. destruct (bytepow_ok l) as [Hw _]; [assumption|]. apply compl_word.
    rewrite HS; [apply times_word, compl_word; assumption|apply compl_word; assumption|exact Hw]. }
  assert (W' : forall c l, l < 2 ^ 64 -> word c -> word (crc32_unzero shift c l)).
  { intros. destruct (bytepow_ok l) as [Hw _]; [assumption|]. apply compl_word.
    rewrite HS; [apply times_word, compl_word; assumption|apply compl_word; assumption|apply not32_word, Hw]. }
  assert (Hl : Z.to_N n < 2 ^ 64) by lia.
  assert (W1 := W c _ Hl Hc). assert (W2 := W' c _ Hl Hc). clear W W'.
  exists (be32 (crc32_zeros shift c (Z.to_N n))), (be32 (crc32_unzero shift c (Z.to_N n))).
  unfold node_crc32_zeroes, init_crc. rewrite !is4_be, !read_be32 by assumption.
  rewrite !to_int32_small by lia. cbv zeta.
  destruct (n <? 0)%Z eqn:E1; [lia|]. destruct (- n <? 0)%Z eqn:E2; [|lia].
  unfold neg_int. destruct (- n =? INT_MIN)%Z eqn:E3; [unfold INT_MIN in *; lia|].
  rewrite Z.opp_involutive, !pack_be.
  destruct (unzero_zeros shift HS c (Z.to_N n) Hc ltac:(lia)) as [-> ->]. auto.
Qed.

(** Shift by an integer. *)
Definition zshift (n : Z) (c : N) : N := if (0 <=? n)%Z then times_x (Z.to_N n) c else times_x (Z.to_N (n mod Z.of_N ORDER)) c.

Lemma zshift_mod n c : word c -> zshift n c = times_x (Z.to_N (n mod Z.of_N ORDER)) c.
Proof.
  intro Hc. unfold zshift. destruct (0 <=? n)%Z eqn:E; [|reflexivity]. rewrite times_mod by assumption. f_equal.
  rewrite Z2N.inj_mod; [reflexivity|lia|unfold ORDER; lia].
Qed.
Lemma zshift_word n c : word c -> word (zshift n c).
Proof. intro. rewrite zshift_mod by assumption. apply times_word. assumption. Qed.
Lemma zshift_add m n c : word c -> zshift m (zshift n c) = zshift (m + n) c.
Proof.
  intro Hc. rewrite (zshift_mod m) by (apply zshift_word; assumption). rewrite !zshift_mod by assumption.
  rewrite <- times_add. apply times_cong; [assumption|].
  assert (O : (0 < Z.of_N ORDER)%Z) by reflexivity.
  pose proof (Z.mod_pos_bound m _ O). pose proof (Z.mod_pos_bound n _ O). pose proof (Z.mod_pos_bound (m + n) _ O).
  rewrite <- Z2N.inj_add by lia. rewrite (N.mod_small (Z.to_N ((m + n) mod _))) by lia.
  rewrite (Z.add_mod m n) by lia. rewrite Z2N.inj_mod by lia. rewrite N2Z.id. reflexivity.
Qed.

Lemma js_shift_be c n : word c -> (- 2 ^ 31 < n < 2 ^ 31)%Z ->
  node_crc32_shift shift n (Some (be32 c)) = JReturns (be32 (zshift n c)).
Proof.
  intros Hc Hn. unfold node_crc32_shift, init_crc. rewrite is4_be, read_be32 by assumption.
  rewrite to_int32_small by lia. cbv zeta. unfold zshift.
  destruct (n <? 0)%Z eqn:E1; destruct (0 <=? n)%Z eqn:E2; try lia.
  - unfold neg_int. destruct (n =? INT_MIN)%Z eqn:E3; [unfold INT_MIN in *; lia|].
    destruct (powmod_ok (Z.to_N (- n)) ltac:(lia)) as [Hw [q Eq]].
    rewrite HS by auto using not32_word. rewrite pack_be. do 2 f_equal.
    destruct (not32_sub _ Hw) as [-> Hle]. apply times_cong; [assumption|].
    replace (Z.to_N (n mod Z.of_N ORDER)) with (ORDER - Z.to_N (- n)).
    2: { assert (E : (n mod Z.of_N ORDER = n + Z.of_N ORDER)%Z).
         { symmetry. apply Z.mod_unique with (-1)%Z; [left|]; change (Z.of_N ORDER) with 4294967295%Z; lia. }
         rewrite E. change ORDER with 4294967295. change (Z.of_N 4294967295) with 4294967295%Z. lia. }
    assert (q = 0 /\ crc32_powmod (Z.to_N (- n)) = Z.to_N (- n)) as [_ ->].
    { change ORDER with 4294967295 in Eq. unfold word in Hw. split; lia. }
    reflexivity.
  - destruct (powmod_ok (Z.to_N n) ltac:(lia)) as [Hw _]. rewrite HS by assumption.
    rewrite times_powmod by (auto; lia). rewrite pack_be. reflexivity.
Qed.

Lemma js_shift_default n : node_crc32_shift shift n None = node_crc32_shift shift n (Some (be32 ONE)).
Proof. unfold node_crc32_shift, init_crc. rewrite is4_be, read_be32 by reflexivity. reflexivity. Qed.
End Shift.

(** ** Multiplication *)
Lemma lxor_Z a b : Z.lxor (Z.of_N a) (Z.of_N b) = Z.of_N (a ⊕ b).
Proof. destruct a, b; reflexivity. Qed.
Lemma xor_be a b : xor_buf (be32 a) (be32 b) = be32 (a ⊕ b).
Proof.
  unfold xor_buf, be32. cbn [map combine fst snd].
  assert (E : forall k, u8 (Z.lxor (bz (u8 (Z.of_N (a / 2 ^ k mod 256)))) (bz (u8 (Z.of_N (b / 2 ^ k mod 256))))) = u8 (Z.of_N ((a ⊕ b) / 2 ^ k mod 256))).
  { intro k. unfold bz. rewrite !byte_of_N_mod, !N.mod_mod by lia. f_equal.
    rewrite lxor_Z. f_equal.
    change 256 with (2 ^ 8). rewrite <- !N.land_ones, <- !N.shiftr_div_pow2, N.shiftr_lxor, land_xor_l. reflexivity. }
  rewrite !E. reflexivity.
Qed.

Section Mul.
Variable mul : mulfun.
Hypothesis HM : is_multiply mul.

Lemma js_mul a b : word a -> word b -> node_crc32_multiply mul (be32 a) (be32 b) = JReturns (be32 (mulx a b)).
Proof.
  intros Ha Hb. unfold node_crc32_multiply. rewrite !is4_be, !read_be32, HM, pack_be by assumption. reflexivity.
Qed.
Lemma js_mul_inv a b r : crc_buf a -> crc_buf b -> node_crc32_multiply mul a b = JReturns r ->
  exists x y, word x /\ word y /\ a = be32 x /\ b = be32 y /\ r = be32 (mulx x y).
Proof.
  intros Ha Hb H. destruct (buf_be a Ha) as (x & Hx & -> & _). destruct (buf_be b Hb) as (y & Hy & -> & _).
  exists x, y. rewrite js_mul in H by assumption. injection H as <-. auto.
Qed.

Lemma js_mul_comm a b : crc_buf a -> crc_buf b -> exists r, crc_buf r /\
  node_crc32_multiply mul a b = JReturns r /\ node_crc32_multiply mul b a = JReturns r.
Proof.
  intros Ha Hb. destruct (buf_be a Ha) as (x & Hx & -> & _). destruct (buf_be b Hb) as (y & Hy & -> & _).
  exists (be32 (mulx x y)). rewrite !js_mul, (mulx_comm y x) by assumption. repeat split.
Qed.
Lemma js_mul_assoc a b c ab bc r : crc_buf a -> crc_buf b -> crc_buf c ->
  node_crc32_multiply mul a b = JReturns ab -> node_crc32_multiply mul b c = JReturns bc ->
  node_crc32_multiply mul ab c = JReturns r -> node_crc32_multiply mul a bc = JReturns r.
Proof.
  intros Ha Hb Hc. destruct (buf_be a Ha) as (x & Hx & -> & _). destruct (buf_be b Hb) as (y & Hy & -> & _).
  destruct (buf_be c Hc) as (z & Hz & -> & _). rewrite !js_mul by assumption. intros H1 H2. injection H1 as <-. injection H2 as <-.
  rewrite !js_mul by (try apply mulx_word; assumption). rewrite mulx_assoc by assumption. auto.
Qed.
Lemma js_mul_distr a b c r s : crc_buf a -> crc_buf b -> crc_buf c ->
  node_crc32_multiply mul a b = JReturns r -> node_crc32_multiply mul a c = JReturns s ->
  node_crc32_multiply mul a (xor_buf b c) = JReturns (xor_buf r s).
Proof.
  intros Ha Hb Hc. destruct (buf_be a Ha) as (x & Hx & -> & _). destruct (buf_be b Hb) as (y & Hy & -> & _).
  destruct (buf_be c Hc) as (z & Hz & -> & _). rewrite !js_mul by assumption. intros H1 H2. injection H1 as <-. injection H2 as <-.
  rewrite !xor_be, js_mul by (try apply xor_word; assumption). rewrite (mulx_lin_r x). reflexivity.
Qed.
Lemma js_mul_one a : crc_buf a -> node_crc32_multiply mul [x80; x00; x00; x00] a = JReturns a.
Proof.
  intro Ha. destruct (buf_be a Ha) as (x & Hx & -> & _). change [x80; x00; x00; x00] with (be32 ONE).
  rewrite js_mul, mulx_one_l by (assumption || reflexivity). reflexivity.
Qed.
Lemma js_mul_zero_divisors a b : crc_buf a -> crc_buf b ->
  node_crc32_multiply mul a b = JReturns [x00; x00; x00; x00] -> a = [x00; x00; x00; x00] \/ b = [x00; x00; x00; x00].
Proof.
  intros Ha Hb H. apply js_mul_inv in H; try assumption. destruct H as (x & y & Hx & Hy & -> & -> & E).
  change [x00; x00; x00; x00] with (be32 0) in *. apply be32_inj in E; [|apply zero_word|apply mulx_word, Hx].
  symmetry in E. apply no_zero_divisors in E; try assumption. destruct E as [-> | ->]; auto.
Qed.
Lemma js_mul_inverse a : crc_buf a -> a <> [x00; x00; x00; x00] ->
  exists b, crc_buf b /\ node_crc32_multiply mul a b = JReturns [x80; x00; x00; x00].
Proof.
  intros Ha Hn. destruct (buf_be a Ha) as (x & Hx & -> & _).
  destruct (inv_ok x Hx) as [Hi E]; [intros ->; apply Hn; reflexivity|].
  exists (be32 (inv x)). split; [reflexivity|]. rewrite js_mul, E by assumption. reflexivity.
Qed.
Lemma js_mul_xpow i j : node_crc32_multiply mul (be32 (xpow i)) (be32 (xpow j)) = JReturns (be32 (xpow (i + j))).
Proof. rewrite js_mul, xpow_add by apply xpow_word. reflexivity. Qed.
End Mul.

(** ** Larger lengths *)
Lemma zeroes_wrap shift init n : node_crc32_zeroes shift n init = node_crc32_zeroes shift (n + 2 ^ 32) init.
Proof.
  unfold node_crc32_zeroes. replace (to_int32 (n + 2 ^ 32)) with (to_int32 n); [reflexivity|].
  unfold to_int32. f_equal. replace (n + 2 ^ 32 + 2147483648)%Z with (n + 2147483648 + 1 * 4294967296)%Z by lia.
  rewrite Z_mod_plus_full. reflexivity.
Qed.
Lemma zeroes_wrong n : n < 2 ^ 53 -> crc32_zeros crc32_shift_generic 0 n =? 0 = false ->
  node_crc32_zeroes crc32_shift_generic (Z.of_N n) None = JReturns (be32 0) ->
  node_crc32_zeroes crc32_shift_generic (Z.of_N n) None <> JReturns (crc_of (repeat x00 (N.to_nat n))).
Proof.
  intros Hn E R. rewrite R. intro H. apply N.eqb_neq in E. apply E.
  apply (f_equal (fun r => match r with JReturns x => x | _ => [] end)) in H.
  rewrite <- (N2Nat.id n). rewrite (zeros_ok _ generic_is_shift) by (try reflexivity; rewrite N2Nat.id; lia).
  apply be32_inj; [apply spec_word; reflexivity|reflexivity|]. symmetry. unfold be32 in *. exact H.
Qed.

Section Shift2.
Variable shift : mulfun.
Hypothesis HS : is_shift shift.
Lemma js_shift_add m n b b1 b2 : crc_buf b ->
  (- 2 ^ 31 < m < 2 ^ 31)%Z -> (- 2 ^ 31 < n < 2 ^ 31)%Z -> (- 2 ^ 31 < m + n < 2 ^ 31)%Z ->
  node_crc32_shift shift n (Some b) = JReturns b1 -> node_crc32_shift shift m (Some b1) = JReturns b2 ->
  node_crc32_shift shift (m + n) (Some b) = JReturns b2.
Proof.
  intros Hb Hm Hn Hmn. destruct (buf_be b Hb) as (c & Hc & -> & _).
  rewrite !(js_shift_be shift HS) by assumption. intro H. injection H as <-.
  rewrite (js_shift_be shift HS) by (try apply zshift_word; assumption). rewrite zshift_add by assumption. auto.
Qed.
Lemma js_shift_undo n b : crc_buf b -> (- 2 ^ 31 < n < 2 ^ 31)%Z ->
  exists b1, node_crc32_shift shift n (Some b) = JReturns b1 /\ node_crc32_shift shift (- n) (Some b1) = JReturns b.
Proof.
  intros Hb Hn. destruct (buf_be b Hb) as (c & Hc & -> & _). exists (be32 (zshift n c)).
  rewrite !(js_shift_be shift HS) by (try apply zshift_word; auto; lia). split; [reflexivity|].
  rewrite zshift_add, Z.add_opp_diag_l by assumption. reflexivity.
Qed.
End Shift2.

(** ** Error detection *)
Section Err.
Variable f : crc_fun.
Hypothesis Hf : crc_ok f.
Lemma crc_of_inj d1 d2 : crc_of d1 = crc_of d2 -> crc32_spec 0 d1 = crc32_spec 0 d2.
Proof. apply be32_inj; apply spec_word; reflexivity. Qed.
Lemma js_differ d1 d2 r1 r2 : crc32_spec 0 d1 <> crc32_spec 0 d2 ->
  crc32_returns f d1 None r1 -> crc32_returns f d2 None r2 -> r1 <> r2.
Proof.
  intros N H1 H2. rewrite (js_crc_fun f _ _ _ _ H1 (js_crc f Hf d1)), (js_crc_fun f _ _ _ _ H2 (js_crc f Hf d2)).
  intro E. apply N, crc_of_inj, E.
Qed.
Lemma js_burst p a b s ra rb : length a = 4%nat -> length b = 4%nat -> a <> b ->
  crc32_returns f (p ++ a ++ s) None ra -> crc32_returns f (p ++ b ++ s) None rb -> ra <> rb.
Proof. intros La Lb N. apply js_differ. intro E. apply N. eapply burst; eauto. reflexivity. Qed.
Lemma js_burst_bits d1 d2 p a b s r1 r2 :
  msg_bits d1 = p ++ a ++ s -> msg_bits d2 = p ++ b ++ s ->
  length a = length b -> (length a <= 32)%nat -> a <> b ->
  crc32_returns f d1 None r1 -> crc32_returns f d2 None r2 -> r1 <> r2.
Proof.
  intros E1 E2 L L32 N. apply js_differ. intro E. apply N. eapply burst_bits; eauto. reflexivity.
Qed.
Lemma js_two_bits d1 d2 p a q b s r1 r2 :
  msg_bits d1 = p ++ a :: q ++ b :: s -> msg_bits d2 = p ++ negb a :: q ++ negb b :: s ->
  N.of_nat (length q) + 1 < 2 ^ 32 - 1 ->
  crc32_returns f d1 None r1 -> crc32_returns f d2 None r2 -> r1 <> r2.
Proof. intros E1 E2 L. apply js_differ. eapply two_bits; eauto. reflexivity. Qed.
End Err.

Lemma order_iff n : xpow n = ONE <-> (2 ^ 32 - 1 | n).
Proof. split; [apply order_exact|]. intros [k ->]. apply xpow_mul_one. exact xpow_order. Qed.
