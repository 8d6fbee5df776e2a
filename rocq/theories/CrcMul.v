(** Multiplication, shifting, combining: the portable code computes products with
    powers of x; the words form a field. *)
From Verif Require Import Base BaseLemmas CrcSpec CrcLin CrcModel CrcAlg CrcProofs.
From Coq Require Import NArith Lia ZifyN ZifyBool ZifyNat.
Open Scope N_scope.

(** ** crc32_multiply_generic *)

Lemma u32_mod n : u32 n = n mod 2 ^ 32.
Proof. unfold u32. change 0xFFFFFFFF with (N.ones 32). apply N.land_ones. Qed.
Lemma u32_word n : word (u32 n).
Proof. unfold word. rewrite u32_mod. apply N.mod_lt. discriminate. Qed.
Lemma u32_id n : word n -> u32 n = n.
Proof. intro. rewrite u32_mod. apply N.mod_small. assumption. Qed.

Lemma neg32_top b a : word b -> word a -> N.land (neg32 (N.shiftr b 31)) a = if N.testbit b 31 then a else 0.
Proof.
  intros Hb Ha. assert (H : N.shiftr b 31 < 2 ^ 1) by (apply lt_shiftr; exact Hb).
  rewrite <- N.bit0_odd || idtac.
  replace (N.testbit b 31) with (N.testbit (N.shiftr b 31) 0) by (rewrite N.shiftr_spec by lia; reflexivity).
  destruct (N.shiftr b 31) as [|[p|p|]]; try (change (2 ^ 1) with 2 in H; lia); [reflexivity|].
  change (neg32 1) with (N.ones 32). cbn [N.testbit Pos.testbit]. rewrite N.land_comm, N.land_ones.
  apply N.mod_small. exact Ha.
Qed.

(** The loop as a sum. *)
Fixpoint mm (n : nat) (a b : N) : N :=
  match n with
  | O => 0
  | S n => (if N.testbit b 31 then a else 0) ⊕ mm n (step a) (shl32 b 1)
  end.

Lemma mul_loop_mm n : forall res a b, word a -> word b -> mul_loop n res a b = res ⊕ mm (S n) a b.
Proof.
  induction n as [|n IH]; intros res a b Ha Hb.
  - cbn [mul_loop mm]. rewrite neg32_top by assumption. rewrite xor_0_r. reflexivity.
  - cbn [mul_loop]. rewrite neg32_top by assumption.
    rewrite (N.land_comm 0xEDB88320), neg32_land1 by reflexivity.
    change (N.shiftr a 1 ⊕ (if N.odd a then 0xEDB88320 else 0)) with (step a).
    rewrite IH by (apply step_word || apply u32_word; assumption).
    cbn [mm]. rewrite !xor_assoc. reflexivity.
Qed.

Lemma lin_shl32 k : lin (fun b => shl32 b k).
Proof. unfold shl32, u32. auto with lin. Qed.
Lemma mm_lin_l n : forall b, lin (fun a => mm n a b).
Proof.
  induction n as [|n IH]; intro b; [apply lin_zero|].
  cbn [mm]. apply (lin_xor (fun a => if N.testbit b 31 then a else 0)).
  - apply (lin_bit2 31 (fun a => a)). apply lin_id.
  - apply (lin_comp (fun a => mm n a (shl32 b 1)) step); auto with lin.
Qed.
Lemma mm_lin_r n : forall a, lin (mm n a).
Proof.
  induction n as [|n IH]; intro a; [apply lin_zero|].
  cbn [mm]. apply (lin_xor (fun b => if N.testbit b 31 then a else 0)).
  - apply (lin_bit (fun b => b)). apply lin_id.
  - apply (lin_comp (mm n (step a)) (fun b => shl32 b 1)); [apply IH|apply lin_shl32].
Qed.

Lemma multiply_mulx a b : word a -> word b -> crc32_multiply_generic a b = mulx a b.
Proof.
  intros Ha Hb. unfold crc32_multiply_generic. rewrite mul_loop_mm by assumption. rewrite xor_0_l.
  revert a b Ha Hb. apply (bilin_check 32 32 (mm 32) mulx).
  - apply mm_lin_l.
  - apply mm_lin_r.
  - apply mulx_lin_l.
  - apply mulx_lin_r.
  - vm_cast_no_check (eq_refl true).
Qed.

(** ** Shifting *)

(** What is asked of an implementation of crc32_multiply and crc32_shift. *)
Definition is_multiply (mul : mulfun) : Prop := forall a b, word a -> word b -> mul a b = mulx a b.
Definition is_shift (shift : mulfun) : Prop := forall c n, word c -> word n -> shift c n = times_x n c.

Lemma generic_is_multiply : is_multiply crc32_multiply_generic.
Proof. exact multiply_mulx. Qed.

Lemma mul_power r i : word r -> i < 32 -> crc32_multiply_generic r (tab crc_power i) = times_x (2 ^ i) r.
Proof.
  intros Hr Hi. rewrite power_table by assumption. rewrite multiply_mulx by auto using xpow_word.
  apply mulx_xpow_r, Hr.
Qed.

Lemma clear_lowest n : n <> 0 -> N.land n (n - 1) = n - 2 ^ ctz n /\ 2 ^ ctz n <= n.
Proof.
  destruct n as [|p]; [congruence|]. intros _. unfold ctz.
  induction p as [p IH|p IH|]; cbn [ctz_pos].
  - replace (Npos p~1 - 1) with (Npos p~0) by lia. change (2 ^ 0) with 1. split; [|lia].
    replace (Npos p~1 - 1) with (Npos p~0) by lia. apply N.bits_inj. intro i. rewrite N.land_spec.
    replace (Npos p~1) with (2 * Npos p + 1) by lia. replace (Npos p~0) with (2 * Npos p) by lia.
    destruct i as [|i _] using N.peano_ind;
      [rewrite N.testbit_even_0; apply andb_false_r|rewrite N.testbit_odd_succ, N.testbit_even_succ by lia; apply andb_diag].
  - destruct IH as [IH1 IH2]. rewrite N.pow_succ_r'. split; [|lia].
    replace (Npos p~0 - 2 * 2 ^ ctz_pos p) with (2 * (Npos p - 2 ^ ctz_pos p)) by lia.
    rewrite <- IH1. replace (Npos p~0 - 1) with (2 * (Npos p - 1) + 1) by lia.
    replace (Npos p~0) with (2 * Npos p) by lia.
    apply N.bits_inj. intro i. destruct i as [|i] using N.peano_ind.
    + rewrite N.land_spec, !N.testbit_even_0. reflexivity.
    + rewrite N.land_spec, !N.testbit_even_succ, N.testbit_odd_succ by lia. rewrite N.land_spec. reflexivity.
  - change (2 ^ 0) with 1. split; [reflexivity|lia].
Qed.

Lemma ctz_divide n j : n <> 0 -> (2 ^ j | n) -> j <= ctz n.
Proof.
  destruct n as [|p]; [congruence|]. intros _. unfold ctz. revert j.
  induction p as [p IH|p IH|]; intros j H; cbn [ctz_pos].
  - destruct j as [|j] using N.peano_ind; [lia|]. exfalso. destruct H as [k H]. rewrite N.pow_succ_r' in H. lia.
  - destruct j as [|j _] using N.peano_ind; [lia|]. apply -> N.succ_le_mono. apply IH.
    destruct H as [k H]. exists k. rewrite N.pow_succ_r' in H. lia.
  - destruct j as [|j] using N.peano_ind; [lia|]. exfalso. destruct H as [k H]. rewrite N.pow_succ_r' in H. lia.
Qed.
Lemma ctz_is_divisor n : n <> 0 -> (2 ^ ctz n | n).
Proof.
  destruct n as [|p]; [congruence|]. intros _. unfold ctz.
  induction p as [p IH|p IH|]; cbn [ctz_pos].
  - exists (Npos p~1). change (2 ^ 0) with 1. lia.
  - destruct IH as [k H]. exists k. rewrite N.pow_succ_r'. lia.
  - exists 1. reflexivity.
Qed.

Lemma next_divides n : n <> 0 -> (2 ^ (ctz n + 1) | n - 2 ^ ctz n).
Proof.
  destruct n as [|p]; [congruence|]. intros _. unfold ctz.
  induction p as [p IH|p IH|]; cbn [ctz_pos].
  - exists (Npos p). change (2 ^ (0 + 1)) with 2. change (2 ^ 0) with 1. lia.
  - destruct IH as [k H]. exists k. rewrite N.add_1_r, !N.pow_succ_r' in *. lia.
  - exists 0. reflexivity.
Qed.

Lemma shift_loop_ok fuel : forall r n, (fuel <= 32)%nat -> word r -> word n ->
  (2 ^ (32 - N.of_nat fuel) | n) -> shift_loop fuel r n = times_x n r.
Proof.
  induction fuel as [|fuel IH]; intros r n Hf Hr Hn Hd; cbn [shift_loop].
  - destruct Hd as [k Hk]. unfold word in Hn. change (32 - N.of_nat 0) with 32 in Hk.
    assert (n = 0) by lia. subst n. rewrite H. reflexivity.
  - destruct (n =? 0) eqn:E; [apply N.eqb_eq in E; subst; reflexivity|]. apply N.eqb_neq in E.
    destruct (clear_lowest n E) as [C1 C2].
    assert (Hc : ctz n < 32).
    { destruct (N.lt_ge_cases (ctz n) 32) as [|L]; [assumption|].
      pose proof (N.pow_le_mono_r 2 32 (ctz n) ltac:(lia) L). unfold word in Hn. lia. }
    rewrite mul_power, C1 by assumption. rewrite IH.
    + rewrite <- times_add. f_equal. lia.
    + lia.
    + apply times_word, Hr.
    + unfold word in *. lia.
    + pose proof (ctz_divide n _ E Hd) as L. destruct (next_divides n E) as [k Hk].
      exists (k * 2 ^ (ctz n + 1 - (32 - N.of_nat fuel))).
      rewrite <- N.mul_assoc, <- N.pow_add_r. rewrite Hk. f_equal. f_equal. lia.
Qed.

Lemma generic_is_shift : is_shift crc32_shift_generic.
Proof.
  intros c n Hc Hn. unfold crc32_shift_generic. apply shift_loop_ok; auto.
  exists n. change (2 ^ (32 - N.of_nat 32)) with 1. lia.
Qed.

Lemma shift_portable_ok fuel : forall r n k, word r -> n < 2 ^ N.of_nat fuel -> k + N.of_nat fuel <= 32 ->
  shift_loop_portable fuel r n k = times_x (n * 2 ^ k) r.
Proof.
  induction fuel as [|fuel IH]; intros r n k Hr Hn Hk; cbn [shift_loop_portable].
  - change (2 ^ N.of_nat 0) with 1 in Hn. replace n with 0 by lia. reflexivity.
  - destruct (n =? 0) eqn:E; [apply N.eqb_eq in E; subst; reflexivity|].
    pose proof (N.div2_odd n) as D. rewrite <- N.div2_spec. rewrite IH.
    + rewrite N.add_1_r, N.pow_succ_r'. destruct (N.odd n); cbn [N.b2n] in D.
      * rewrite mul_power by (auto; lia). rewrite <- times_add. f_equal. rewrite D at 2. lia.
      * f_equal. rewrite D at 2. lia.
    + destruct (N.odd n); [rewrite mul_power by (auto; lia); apply times_word|]; exact Hr.
    + rewrite Nat2N.inj_succ, N.pow_succ_r' in Hn. lia.
    + lia.
Qed.
Lemma portable_is_shift : is_shift crc32_shift_portable.
Proof.
  intros c n Hc Hn. unfold crc32_shift_portable. rewrite shift_portable_ok; auto; [|reflexivity].
  f_equal. change (2 ^ 0) with 1. lia.
Qed.

(** ** Exponents *)

Lemma shiftr_div n k : N.shiftr n k = n / 2 ^ k. Proof. apply N.shiftr_div_pow2. Qed.

Ltac Zify.zify_post_hook ::= Z.div_mod_to_equations.

Lemma powmod_ok n : n < 2 ^ 64 -> word (crc32_powmod n) /\ exists q, n = crc32_powmod n + q * ORDER.
Proof.
  intro H. unfold crc32_powmod. cbv zeta. rewrite !u32_mod, !shiftr_div.
  set (h := (n / 2 ^ 32) mod 2 ^ 32). set (l := n mod 2 ^ 32).
  assert (E : n = h * 2 ^ 32 + l) by (unfold h, l; lia).
  assert (Hh : h < 2 ^ 32) by (unfold h; lia). assert (Hl : l < 2 ^ 32) by (unfold l; lia).
  clearbody h l. subst n. unfold word, ORDER in *. split; [lia|].
  exists (h + (h + l) / 2 ^ 32). lia.
Qed.
Lemma powmod_portable_ok n : n < 2 ^ 64 -> crc32_powmod_portable n = crc32_powmod n.
Proof.
  intro H. unfold crc32_powmod, crc32_powmod_portable. cbv zeta. change (N.land n 0xFFFFFFFF) with (u32 n).
  rewrite !u32_mod, !shiftr_div. lia.
Qed.

Lemma lor_add a b k : b < 2 ^ k -> N.lor (N.shiftl a k) b = a * 2 ^ k + b.
Proof.
  intro H. rewrite N.lor_comm, lor_xor by assumption. rewrite N.lxor_comm.
  rewrite <- N.add_nocarry_lxor; [rewrite N.shiftl_mul_pow2; reflexivity|].
  apply N.bits_inj. intro i. rewrite N.land_spec, N.bits_0. destruct (N.lt_ge_cases i k) as [L|L].
  - rewrite N.shiftl_spec_low by assumption. reflexivity.
  - rewrite (proj1 (lt_pow2_bits _ _) H i L). apply andb_false_r.
Qed.

Lemma rot3 r : word r -> N.lor (shl32 r 3) (N.shiftr r 29) = (r mod 2 ^ 29) * 8 + r / 2 ^ 29.
Proof.
  intro H. unfold word in H. replace (shl32 r 3) with (N.shiftl (r mod 2 ^ 29) 3).
  - rewrite shiftr_div. apply (lor_add _ _ 3). lia.
  - unfold shl32. rewrite u32_mod, !N.shiftl_mul_pow2. lia.
Qed.

Lemma bytepow_ok n : n < 2 ^ 64 -> word (crc32_bytepow n) /\ exists q, 8 * n = crc32_bytepow n + q * ORDER.
Proof.
  intro H. destruct (powmod_ok n H) as [Hw [q E]]. unfold crc32_bytepow. cbv zeta.
  rewrite rot3 by exact Hw. revert Hw E. generalize (crc32_powmod n). intros r Hw E.
  unfold word, ORDER in *. split; [lia|]. exists (8 * q + r / 2 ^ 29). lia.
Qed.
Ltac Zify.zify_post_hook ::= idtac.

Lemma times_powmod n c : n < 2 ^ 64 -> word c -> times_x (crc32_powmod n) c = times_x n c.
Proof.
  intros H Hc. destruct (powmod_ok n H) as [_ [q E]]. rewrite E at 2.
  rewrite times_add, times_order_mul by assumption. reflexivity.
Qed.
Lemma times_bytepow n c : n < 2 ^ 64 -> word c -> times_x (crc32_bytepow n) c = times_x (8 * n) c.
Proof.
  intros H Hc. destruct (bytepow_ok n H) as [_ [q E]]. rewrite E.
  rewrite times_add, times_order_mul by assumption. reflexivity.
Qed.

Lemma not32_sub n : word n -> not32 n = ORDER - n /\ n <= ORDER.
Proof.
  intro H. unfold not32. change 0xFFFFFFFF with (N.ones 32). change ORDER with (N.ones 32).
  change (n ⊕ N.ones 32) with (N.lnot n 32). unfold word in H. rewrite N.ones_equiv. split; [|lia].
  destruct (N.eq_dec n 0) as [->|Hn]; [reflexivity|].
  rewrite N.lnot_sub_low; [reflexivity|]. apply N.log2_lt_pow2; lia.
Qed.
(** Shifting by the complement of an exponent undoes shifting by the exponent. *)
Lemma times_not n c : word n -> word c -> times_x (not32 n) (times_x n c) = c.
Proof.
  intros Hn Hc. destruct (not32_sub n Hn) as [-> Hle]. rewrite <- times_add.
  replace (ORDER - n + n) with ORDER by lia. apply times_order, Hc.
Qed.
Lemma times_not' n c : word n -> word c -> times_x n (times_x (not32 n) c) = c.
Proof. intros. rewrite times_comm. apply times_not; assumption. Qed.

Lemma not32_word n : word n -> word (not32 n).
Proof. apply compl_word. Qed.

(** ** Combining *)

Section Shift.
Variable shift : mulfun.
Hypothesis HS : is_shift shift.

Definition nlen (l : list byte) : N := N.of_nat (length l).

Lemma combine_ok a b : nlen b < 2 ^ 64 ->
  crc32_combine shift (crc32_spec 0 a) (crc32_spec 0 b) (nlen b) = crc32_spec 0 (a ++ b).
Proof.
  intro Hb. unfold crc32_combine, crc32_spec.
  assert (Wa : word (crc_bytes (compl 0) a)) by (apply crc_bytes_word; reflexivity).
  rewrite HS by first [apply compl_word, Wa | apply bytepow_ok; exact Hb].
  rewrite times_bytepow by (auto using compl_word).
  rewrite crc_bytes_app, (crc_bytes_from0 (crc_bytes (compl 0) a) b), (crc_bytes_from0 (compl 0) b).
  change (bits_of b) with (8 * nlen b). unfold compl at 1. rewrite lin_times. unfold compl.
  rewrite xor_0_l. xor_solve.
Qed.

(** The same for running values. *)
Lemma combine_run i a b : word i -> nlen b < 2 ^ 64 ->
  crc32_combine shift (crc32_spec i a) (crc32_spec 0 b) (nlen b) = crc32_spec i (a ++ b).
Proof.
  intros Hi Hb. unfold crc32_combine, crc32_spec.
  assert (Wa : word (crc_bytes (compl i) a)) by (apply crc_bytes_word, compl_word, Hi).
  rewrite HS by first [apply compl_word, Wa | apply bytepow_ok; exact Hb].
  rewrite times_bytepow by (auto using compl_word).
  rewrite crc_bytes_app, (crc_bytes_from0 (crc_bytes (compl i) a) b), (crc_bytes_from0 (compl 0) b).
  change (bits_of b) with (8 * nlen b). unfold compl at 1. rewrite lin_times. unfold compl.
  rewrite xor_0_l. xor_solve.
Qed.

Lemma crc_bytes_zeros c n : crc_bytes c (repeat x00 n) = times_x (8 * N.of_nat n) c.
Proof.
  revert c; induction n as [|n IH]; intro c; [reflexivity|].
  cbn [repeat]. unfold crc_bytes in *. cbn [fold_left]. rewrite IH. unfold crc_byte.
  change (Byte.to_N x00) with 0. rewrite xor_0_r, <- times_add. f_equal. lia.
Qed.

Lemma zeros_ok c n : word c -> N.of_nat n < 2 ^ 64 ->
  crc32_zeros shift c (N.of_nat n) = crc32_spec c (repeat x00 n).
Proof.
  intros Hc Hn. unfold crc32_zeros, crc32_spec. rewrite !not32_compl.
  rewrite HS by first [apply compl_word, Hc | apply bytepow_ok; exact Hn].
  rewrite times_bytepow by (auto using compl_word). rewrite crc_bytes_zeros. reflexivity.
Qed.

Lemma unzero_zeros c n : word c -> n < 2 ^ 64 ->
  crc32_unzero shift (crc32_zeros shift c n) n = c /\ crc32_zeros shift (crc32_unzero shift c n) n = c.
Proof.
  intros Hc Hn. unfold crc32_unzero, crc32_zeros. destruct (bytepow_ok n Hn) as [Hw _].
  assert (N2 : forall a, not32 (not32 a) = a) by exact compl_compl.
  assert (Hc' := not32_word c Hc). assert (Hw' := not32_word _ Hw). rewrite !N2.
  rewrite (HS (not32 c) (crc32_bytepow n)), (HS (not32 c) (not32 (crc32_bytepow n))) by assumption.
  rewrite !HS by (try apply times_word; assumption).
  rewrite times_not, times_not' by assumption. rewrite N2. auto.
Qed.

Lemma pow2_ok n : (- 2 ^ 63 < n < 2 ^ 63)%Z -> exists r, crc32_2pow shift n = Some r /\ word r /\
  if (0 <=? n)%Z then r = xpow (Z.to_N n) else times_x (Z.to_N (- n)) r = ONE.
Proof.
  intro Hn. unfold crc32_2pow. destruct (n =? - 2 ^ 63)%Z eqn:E; [lia|].
  assert (Hm : Z.to_N (Z.abs n) < 2 ^ 64) by lia. destruct (powmod_ok _ Hm) as [Hw _].
  eexists. split; [reflexivity|].
  destruct (n <? 0)%Z eqn:En.
  - change (crc32_powmod (Z.to_N (Z.abs n)) ⊕ 0xFFFFFFFF) with (not32 (crc32_powmod (Z.to_N (Z.abs n)))).
    rewrite HS by (try apply not32_word; auto; reflexivity). split; [apply times_word; reflexivity|].
    destruct (0 <=? n)%Z eqn:E2; [lia|]. replace (- n)%Z with (Z.abs n) by lia.
    rewrite <- times_powmod by (try apply times_word; auto; reflexivity).
    apply times_not'; [exact Hw|reflexivity].
  - rewrite xor_0_r. rewrite HS by (auto; reflexivity). split; [apply times_word; reflexivity|].
    destruct (0 <=? n)%Z eqn:E2; [|lia]. rewrite times_powmod by (auto; reflexivity).
    unfold xpow. rewrite Z.abs_eq by lia. reflexivity.
Qed.

Lemma pow256_ok n : n < 2 ^ 64 -> crc32_256pow shift n = xpow (8 * n).
Proof.
  intro Hn. unfold crc32_256pow. destruct (bytepow_ok n Hn) as [Hw _]. rewrite HS by (auto; reflexivity).
  apply times_bytepow; [exact Hn|reflexivity].
Qed.
End Shift.

(** ** Burst errors *)

Lemma xor0_eq a b : a ⊕ b = 0 -> a = b. Proof. apply xor_eq. Qed.

Lemma le32_inj a0 a1 a2 a3 b0 b1 b2 b3 : le32 a0 a1 a2 a3 = le32 b0 b1 b2 b3 ->
  [a0; a1; a2; a3] = [b0; b1; b2; b3].
Proof.
  intro H. rewrite <- !load32_val in H.
  assert (X : forall x y : byte, Byte.to_N x = Byte.to_N y -> x = y).
  { intros x y E. apply bz_inj. unfold bz. rewrite E. reflexivity. }
  assert (P : forall c0 c1 c2 c3, N.lor (Byte.to_N c0) (N.lor (N.shiftl (Byte.to_N c1) 8) (N.lor (N.shiftl (Byte.to_N c2) 16) (N.shiftl (Byte.to_N c3) 24)))
     = ((Byte.to_N c3 * 256 + Byte.to_N c2) * 256 + Byte.to_N c1) * 256 + Byte.to_N c0).
  { intros c0 c1 c2 c3. pose proof (byte_lt c0). pose proof (byte_lt c1). pose proof (byte_lt c2).
    replace (N.lor (N.shiftl (Byte.to_N c2) 16) (N.shiftl (Byte.to_N c3) 24))
      with (N.shiftl (N.lor (N.shiftl (Byte.to_N c3) 8) (Byte.to_N c2)) 16)
      by (rewrite N.shiftl_lor, N.shiftl_shiftl, N.lor_comm; reflexivity).
    replace (N.lor (N.shiftl (Byte.to_N c1) 8) (N.shiftl (N.lor (N.shiftl (Byte.to_N c3) 8) (Byte.to_N c2)) 16))
      with (N.shiftl (N.lor (N.shiftl (N.lor (N.shiftl (Byte.to_N c3) 8) (Byte.to_N c2)) 8) (Byte.to_N c1)) 8)
      by (rewrite (N.shiftl_lor (N.shiftl _ _)), N.shiftl_shiftl, N.lor_comm; reflexivity).
    rewrite N.lor_comm, !lor_add by assumption. reflexivity. }
  rewrite !P in H. pose proof (byte_lt a0). pose proof (byte_lt a1). pose proof (byte_lt a2). pose proof (byte_lt a3).
  pose proof (byte_lt b0). pose proof (byte_lt b1). pose proof (byte_lt b2). pose proof (byte_lt b3).
  change (2 ^ 8) with 256 in *.
  assert (Byte.to_N a0 = Byte.to_N b0 /\ Byte.to_N a1 = Byte.to_N b1 /\ Byte.to_N a2 = Byte.to_N b2 /\ Byte.to_N a3 = Byte.to_N b3)
    as (E0 & E1 & E2 & E3) by lia.
  apply X in E0, E1, E2, E3. subst. reflexivity.
Qed.

Lemma compl_inj a b : compl a = compl b -> a = b.
Proof. apply xor_inj. Qed.

Lemma burst i p a b s : word i -> length a = 4%nat -> length b = 4%nat ->
  crc32_spec i (p ++ a ++ s) = crc32_spec i (p ++ b ++ s) -> a = b.
Proof.
  intros Hi Ha Hb H. unfold crc32_spec in H. apply compl_inj in H. rewrite !crc_bytes_app in H.
  assert (Hp : word (crc_bytes (compl i) p)) by (apply crc_bytes_word, compl_word, Hi).
  revert Hp H. generalize (crc_bytes (compl i) p). intros c Hc H.
  rewrite (crc_bytes_from0 (crc_bytes c a) s), (crc_bytes_from0 (crc_bytes c b) s) in H.
  rewrite !(xor_comm (crc_bytes 0 s)) in H. apply xor_inj in H.
  apply times_inj in H; try (apply crc_bytes_word; exact Hc).
  destruct a as [|a0 [|a1 [|a2 [|a3 [|]]]]]; try discriminate.
  destruct b as [|b0 [|b1 [|b2 [|b3 [|]]]]]; try discriminate.
  rewrite !crc_bytes_4 in H. apply times_inj in H; try (apply xor_word; [exact Hc|apply le32_word]).
  rewrite !(xor_comm c) in H. apply xor_inj in H. apply le32_inj, H.
Qed.

(** ** Inverses *)

Definition sqr (a : N) : N := mulx (u32 a) (u32 a).
Lemma lin_u32 : lin u32. Proof. unfold u32. auto with lin. Qed.
Lemma lin_sqr : lin sqr.
Proof.
  intros a b. unfold sqr. rewrite lin_u32.
  rewrite (mulx_lin_r (u32 a ⊕ u32 b)). rewrite (mulx_lin_l (u32 a)), (mulx_lin_l (u32 b)).
  rewrite (mulx_comm (u32 a) (u32 b)) by apply u32_word. xor_solve.
Qed.
Lemma sqr_mul a : word a -> sqr a = mulx a a.
Proof. intro H. unfold sqr. rewrite u32_id by exact H. reflexivity. Qed.
Lemma sqr_word a : word (sqr a).
Proof. apply mulx_word, u32_word. Qed.

Fixpoint fr (n : nat) (a : N) : N := match n with O => a | S n => sqr (fr n a) end.
Lemma fr_word n a : word a -> word (fr n a).
Proof. intro. destruct n; [assumption|apply sqr_word]. Qed.
Lemma lin_fr n : lin (fr n).
Proof. induction n as [|n IH]; [apply lin_id|]. cbn [fr]. apply (lin_comp sqr (fr n)); auto using lin_sqr. Qed.
Lemma fr_32 a : word a -> fr 32 a = a.
Proof.
  revert a. apply (lin_check 32 (fr 32) (fun a => a)); [apply lin_fr|apply lin_id|vm_cast_no_check (eq_refl true)].
Qed.

(** Product of a^(2^k), k = 1..n. *)
Fixpoint pr (n : nat) (a : N) : N := match n with O => ONE | S n => mulx (pr n a) (fr (S n) a) end.
Lemma ONE_word : word ONE. Proof. reflexivity. Qed.
Lemma pr_word n a : word (pr n a).
Proof. induction n as [|n IH]; [apply ONE_word|]. apply mulx_word, IH. Qed.
Lemma mulx_one_r a : word a -> mulx a ONE = a.
Proof. intro. rewrite mulx_comm by auto using ONE_word. apply mulx_one_l. assumption. Qed.

Lemma sqr_mulx a b : word a -> word b -> sqr (mulx a b) = mulx (sqr a) (sqr b).
Proof.
  intros Ha Hb. rewrite !sqr_mul by auto using mulx_word.
  rewrite !mulx_assoc by auto using mulx_word. f_equal.
  rewrite <- (mulx_assoc b), (mulx_comm b a), mulx_assoc by auto using mulx_word. reflexivity.
Qed.
Lemma sqr_pr n a : word a -> mulx (fr 1 a) (sqr (pr n a)) = pr (S n) a.
Proof.
  intro H. induction n as [|n IH].
  - change (sqr (pr 0 a)) with ONE. cbn [pr]. rewrite mulx_one_r, mulx_one_l by (apply fr_word; assumption). reflexivity.
  - cbn [pr] in *. rewrite sqr_mulx by auto using pr_word, fr_word.
    rewrite <- mulx_assoc by auto using fr_word, sqr_word. rewrite IH. reflexivity.
Qed.
Lemma fr_pr n a : word a -> fr (S n) a = mulx a (mulx a (pr n a)).
Proof.
  intro H. induction n as [|n IH].
  - cbn [fr pr]. rewrite mulx_one_r by assumption. apply sqr_mul, H.
  - change (fr (S (S n)) a) with (sqr (fr (S n) a)). rewrite sqr_mul by (apply fr_word; assumption).
    rewrite IH at 1. cbn [pr]. rewrite !mulx_assoc by auto using mulx_word, pr_word, fr_word. reflexivity.
Qed.

Definition inv (a : N) : N := pr 31 a.
Lemma pr_succ n a : pr (S n) a = mulx (pr n a) (fr (S n) a).
Proof. reflexivity. Qed.

Definition kernel_cols : list N := [
  0x0; 0x526b0697; 0x6a44addd; 0x550af5b5; 0x746cd650; 0x24522ba; 0x60ea5cfd; 0x5a27275f;
  0x7449b02; 0x4183d314; 0x4669d755; 0x31c1bb47; 0x461a148; 0xaeb557c; 0x370870b5; 0x6cd3f24b;
  0x526a0697; 0x5508f5b5; 0x24122ba; 0x5a2f275f; 0x4193d314; 0x31e1bb47; 0xaab557c; 0x6c53f24b;
  0x5408f5b5; 0x582f275f; 0x35e1bb47; 0x6453f24b; 0x482f275f; 0x4453f24b; 0x453f24b; 0x4736eb52 ].
Definition solve_kernel (v : N) : N :=
  fold_right (fun i acc => (if N.testbit v i then tab kernel_cols i else 0) ⊕ acc) 0 (below 32).
Lemma lin_solve : lin solve_kernel.
Proof.
  unfold solve_kernel. induction (below 32) as [|i l IH]; cbn [fold_right]; [apply lin_zero|].
  apply (lin_xor (fun v => if N.testbit v i then tab kernel_cols i else 0)); [|exact IH].
  apply (lin_bit (fun v => v)). apply lin_id.
Qed.

Lemma idempotent e : word e -> sqr e = e -> e = 0 \/ e = ONE.
Proof.
  intros He H.
  assert (K : forall w, word w -> solve_kernel (sqr w ⊕ w) = w ⊕ (if N.testbit w 31 then ONE else 0)).
  { apply (lin_check 32 (fun w => solve_kernel (sqr w ⊕ w)) (fun w => w ⊕ (if N.testbit w 31 then ONE else 0))).
    - apply (lin_comp solve_kernel (fun w => sqr w ⊕ w)); [apply lin_solve|].
      apply (lin_xor sqr); [apply lin_sqr|apply lin_id].
    - auto with lin.
    - vm_cast_no_check (eq_refl true). }
  specialize (K e He). rewrite H, xor_nil, (lin_0 _ lin_solve) in K. symmetry in K. apply xor_eq in K.
  destruct (N.testbit e 31); auto.
Qed.

Lemma inv_ok a : word a -> a <> 0 -> word (inv a) /\ mulx a (inv a) = ONE.
Proof.
  intros Ha Hn. split; [apply pr_word|]. unfold inv.
  assert (He : word (mulx a (pr 31 a))) by (apply mulx_word, Ha).
  destruct (idempotent _ He) as [E|E]; [|exfalso; apply Hn|exact E].
  - rewrite sqr_mulx by auto using pr_word. change (sqr a) with (fr 1 a). rewrite sqr_pr by assumption.
    rewrite pr_succ, fr_32 by assumption. apply mulx_comm; auto using pr_word.
  - rewrite <- (fr_32 a Ha). rewrite (fr_pr 31 a Ha), E. apply lin_0, mulx_lin_r.
Qed.

Lemma no_zero_divisors a b : word a -> word b -> mulx a b = 0 -> a = 0 \/ b = 0.
Proof.
  intros Ha Hb H. destruct (N.eq_dec a 0) as [|Hn]; [auto|]. right.
  destruct (inv_ok a Ha Hn) as [Hi E].
  rewrite <- (mulx_one_l b Hb), <- E, (mulx_comm a (inv a)), mulx_assoc, H by assumption.
  apply lin_0, mulx_lin_r.
Qed.

(** ** Buffers *)

Lemma byte_of_N_small n : n < 256 -> Byte.to_N (u8 (Z.of_N n)) = n.
Proof.
  intro H. pose proof (bz_u8 (Z.of_N n)) as E. unfold bz in E. rewrite Z.mod_small in E by lia. lia.
Qed.
Lemma byte_of_N_mod n : Byte.to_N (u8 (Z.of_N n)) = n mod 256.
Proof.
  rewrite <- (byte_of_N_small (n mod 256)) by (apply N.mod_lt; lia). f_equal. apply u8_eq.
  rewrite N2Z.inj_mod. rewrite Z.mod_mod by lia. reflexivity.
Qed.

Lemma be_sum b0 b1 b2 b3 :
  N.lor (N.shiftl (Byte.to_N b0) 24) (N.lor (N.shiftl (Byte.to_N b1) 16) (N.lor (N.shiftl (Byte.to_N b2) 8) (Byte.to_N b3)))
  = ((Byte.to_N b0 * 256 + Byte.to_N b1) * 256 + Byte.to_N b2) * 256 + Byte.to_N b3.
Proof.
  pose proof (byte_lt b1). pose proof (byte_lt b2). pose proof (byte_lt b3).
  rewrite (lor_add _ _ 8) by assumption.
  rewrite (lor_add _ _ 16) by (change (2 ^ 16) with 65536; change (2 ^ 8) with 256 in *; lia).
  rewrite (lor_add _ _ 24) by (change (2 ^ 24) with 16777216; change (2 ^ 16) with 65536; change (2 ^ 8) with 256 in *; lia).
  change (2 ^ 24) with 16777216; change (2 ^ 16) with 65536; change (2 ^ 8) with 256. lia.
Qed.

Lemma read_word b : word (read_crc32 b).
Proof. apply u32_word. Qed.

Lemma read_be b0 b1 b2 b3 : read_crc32 [b0; b1; b2; b3] =
  ((Byte.to_N b0 * 256 + Byte.to_N b1) * 256 + Byte.to_N b2) * 256 + Byte.to_N b3.
Proof.
  unfold read_crc32. cbv zeta. cbn [nth]. rewrite be_sum. apply u32_id. unfold word.
  pose proof (byte_lt b0). pose proof (byte_lt b1). pose proof (byte_lt b2). pose proof (byte_lt b3).
  change (2 ^ 32) with 4294967296. change (2 ^ 8) with 256 in *. lia.
Qed.

Ltac Zify.zify_post_hook ::= Z.div_mod_to_equations.
Lemma read_pack c : word c -> read_crc32 (pack_crc32 c) = c.
Proof.
  intro H. unfold pack_crc32. cbv zeta. rewrite read_be, !byte_of_N_mod, !shiftr_div.
  unfold word in H. change (2 ^ 32) with 4294967296 in H.
  change (2 ^ 24) with 16777216. change (2 ^ 16) with 65536. change (2 ^ 8) with 256. lia.
Qed.
Lemma pack_read b : length b = 4%nat -> pack_crc32 (read_crc32 b) = b.
Proof.
  intro H. destruct b as [|b0 [|b1 [|b2 [|b3 [|]]]]]; try discriminate.
  rewrite read_be. unfold pack_crc32. cbv zeta. rewrite !shiftr_div.
  assert (X : forall n b, n mod 256 = Byte.to_N b -> u8 (Z.of_N n) = b).
  { intros n b E. apply bz_inj. unfold bz. rewrite byte_of_N_mod, E. reflexivity. }
  pose proof (byte_lt b0). pose proof (byte_lt b1). pose proof (byte_lt b2). pose proof (byte_lt b3).
  change (2 ^ 24) with 16777216. change (2 ^ 16) with 65536. change (2 ^ 8) with 256 in *.
  repeat f_equal; apply X; lia.
Qed.
Ltac Zify.zify_post_hook ::= idtac.
