(** Error detection: bursts of up to 32 bits and pairs of bits. *)
From Verif Require Import Base BaseLemmas CrcSpec CrcLin CrcModel CrcAlg CrcProofs CrcMul.
From Coq Require Import NArith Lia ZifyN ZifyBool ZifyNat Znumtheory.
Open Scope N_scope.

Definition bn (b : bool) : N := if b then 1 else 0.
Definition crc_bits (c : N) (l : list bool) : N := fold_left (fun c b => step (c ⊕ bn b)) l c.

Lemma crc_bits_app c a b : crc_bits c (a ++ b) = crc_bits (crc_bits c a) b.
Proof. apply fold_left_app. Qed.
Lemma bn_word b : word (bn b). Proof. destruct b; reflexivity. Qed.
Lemma crc_bits_word l : forall c, word c -> word (crc_bits c l).
Proof.
  induction l as [|b l IH]; intros c H; [exact H|].
  cbn [crc_bits fold_left]. apply IH, step_word, xor_word; auto using bn_word.
Qed.
Lemma crc_bits_xor l : forall a b, crc_bits (a ⊕ b) l = crc_bits a l ⊕ times_x (N.of_nat (length l)) b.
Proof.
  induction l as [|x l IH]; intros a b; [reflexivity|].
  unfold crc_bits in *. cbn [fold_left length]. replace (a ⊕ b ⊕ bn x) with ((a ⊕ bn x) ⊕ b) by xor_solve.
  rewrite lin_step, IH. f_equal. rewrite Nat2N.inj_succ, <- N.add_1_r, times_add. reflexivity.
Qed.

Lemma crc_byte_bits c b : crc_byte c b = crc_bits c (byte_bits b).
Proof.
  rewrite <- (xor_0_l c) at 2. rewrite crc_bits_xor. unfold crc_byte. rewrite lin_times, xor_comm. f_equal.
  destruct b; vm_compute; reflexivity.
Qed.
Lemma crc_bytes_bits l : forall c, crc_bytes c l = crc_bits c (msg_bits l).
Proof.
  induction l as [|b l IH]; intro c; [reflexivity|].
  cbn [crc_bytes fold_left msg_bits flat_map]. rewrite crc_bits_app, <- crc_byte_bits. apply IH.
Qed.

(** The bits as a number, first bit least significant. *)
Fixpoint bval (l : list bool) : N :=
  match l with [] => 0 | b :: l => bn b + 2 * bval l end.
Lemma bval_lt l : bval l < 2 ^ N.of_nat (length l).
Proof.
  induction l as [|b l IH]; [reflexivity|]. cbn [bval length]. rewrite Nat2N.inj_succ, N.pow_succ_r'.
  destruct b; cbn [bn]; lia.
Qed.
Lemma bval_inj a : forall b, length a = length b -> bval a = bval b -> a = b.
Proof.
  induction a as [|x a IH]; intros [|y b] L H; try discriminate; [reflexivity|].
  cbn [bval] in H. f_equal; [destruct x, y; cbn [bn] in H; first [reflexivity|lia]|].
  apply IH; [cbn in L; congruence|]. destruct x, y; cbn [bn] in H; lia.
Qed.
Lemma bval_xor b l : bval (b :: l) = bn b ⊕ N.shiftl (bval l) 1.
Proof.
  cbn [bval]. rewrite N.shiftl_mul_pow2, N.mul_comm. change (2 ^ 1) with 2.
  rewrite N.mul_comm. apply N.bits_inj. intro i. destruct i as [|i _] using N.peano_ind.
  - rewrite N.lxor_spec. destruct b; cbn [bn].
    + rewrite N.add_comm, N.testbit_odd_0, N.testbit_even_0. reflexivity.
    + rewrite N.add_0_l, N.testbit_even_0. reflexivity.
  - rewrite N.lxor_spec. destruct b; cbn [bn].
    + rewrite N.add_comm, N.testbit_odd_succ, N.testbit_even_succ by lia.
      change 1 with (2 * 0 + 1) at 1. rewrite N.testbit_odd_succ by lia. rewrite N.bits_0. symmetry. apply xorb_false_l.
    + rewrite N.add_0_l, !N.testbit_even_succ, N.bits_0 by lia. symmetry. apply xorb_false_l.
Qed.
Lemma crc_bits_val l : forall c, crc_bits c l = times_x (N.of_nat (length l)) (c ⊕ bval l).
Proof.
  induction l as [|b l IH]; intro c; [cbn; rewrite xor_0_r; reflexivity|].
  rewrite bval_xor. unfold crc_bits in *. cbn [fold_left length]. rewrite IH, Nat2N.inj_succ.
  rewrite <- N.add_1_r, times_add. f_equal.
  change (times_x 1 (c ⊕ (bn b ⊕ N.shiftl (bval l) 1))) with (step (c ⊕ (bn b ⊕ N.shiftl (bval l) 1))).
  assert (E : step (N.shiftl (bval l) 1) = bval l) by exact (times_shiftl 1 (bval l)).
  rewrite <- E at 1. rewrite <- lin_step. f_equal. xor_solve.
Qed.

Lemma bval_word l : (length l <= 32)%nat -> word (bval l).
Proof. intro H. eapply lt_weaken; [apply bval_lt|lia]. Qed.

Lemma crc_bits_inj_init l a b : word a -> word b -> crc_bits a l = crc_bits b l -> a = b.
Proof.
  intros Ha Hb H. rewrite <- (xor_0_l a), <- (xor_0_l b), !crc_bits_xor in H.
  rewrite !(xor_comm (crc_bits 0 l)) in H. apply xor_inj in H. eapply times_inj; eauto.
Qed.

Lemma spec_bits i d1 d2 : crc32_spec i d1 = crc32_spec i d2 ->
  crc_bits (compl i) (msg_bits d1) = crc_bits (compl i) (msg_bits d2).
Proof. intro H. apply compl_inj in H. rewrite !crc_bytes_bits in H. exact H. Qed.

Lemma burst_bits i d1 d2 p a b s : word i ->
  msg_bits d1 = p ++ a ++ s -> msg_bits d2 = p ++ b ++ s -> length a = length b -> (length a <= 32)%nat ->
  crc32_spec i d1 = crc32_spec i d2 -> a = b.
Proof.
  intros Hi E1 E2 L L32 H. apply spec_bits in H. rewrite E1, E2, !crc_bits_app in H.
  assert (Hp : word (crc_bits (compl i) p)) by (apply crc_bits_word, compl_word, Hi).
  revert Hp H. generalize (crc_bits (compl i) p). intros c Hp H.
  apply crc_bits_inj_init in H; try (apply crc_bits_word; exact Hp).
  rewrite !crc_bits_val, L in H. rewrite L in L32.
  apply times_inj in H; try (apply xor_word; [exact Hp|apply bval_word; lia]).
  rewrite !(xor_comm c) in H. apply xor_inj in H. apply bval_inj; assumption.
Qed.

Lemma msg_bits_length l : length (msg_bits l) = (8 * length l)%nat.
Proof. induction l as [|b l IH]; [reflexivity|]. cbn [msg_bits flat_map]. rewrite app_length. unfold msg_bits in IH. rewrite IH. cbn. lia. Qed.

(** ** The exact order of x *)

Lemma xpow_mul_one a k : xpow a = ONE -> xpow (k * a) = ONE.
Proof.
  intro H. induction k as [|k IH] using N.peano_ind; [reflexivity|].
  rewrite N.mul_succ_l, <- xpow_add, IH, H. reflexivity.
Qed.

Lemma xpow_gcd a b : xpow a = ONE -> xpow b = ONE -> a <> 0 -> xpow (N.gcd a b) = ONE.
Proof.
  intros Ha Hb Hn. destruct (N.gcd_bezout_pos a b ltac:(lia)) as (u & v & E).
  apply (f_equal xpow) in E. rewrite <- xpow_add, (xpow_mul_one a u Ha), (xpow_mul_one b v Hb) in E.
  rewrite mulx_one_r in E by apply xpow_word. symmetry. exact E || (symmetry in E; exact E).
Qed.

(** Divisors of the prime factors. *)
Definition prime_state (p n : N) : N * bool :=
  N.iter n (fun s => (fst s + 1, snd s && negb (p mod fst s =? 0))) (2, true).
Definition prime_chk (p : N) : bool := snd (prime_state p (p - 2)).
Lemma prime_state_ok p n : fst (prime_state p n) = n + 2 /\ (snd (prime_state p n) = true -> forall d, 2 <= d < n + 2 -> p mod d <> 0).
Proof.
  unfold prime_state. induction n as [|n [IH1 IH2]] using N.peano_ind; [split; [reflexivity|lia]|].
  rewrite N.iter_succ. cbn [fst snd]. split; [lia|]. intros H d Hd. apply andb_prop in H. destruct H as [H1 H2].
  rewrite IH1 in H2. destruct (N.eq_dec d (n + 2)) as [->|]; [apply N.eqb_neq, negb_true_iff, H2|].
  apply IH2; [exact H1|lia].
Qed.
Lemma prime_chk_ok p : 2 <= p -> prime_chk p = true -> forall d, (d | p) -> d = 1 \/ d = p.
Proof.
  intros Hp C d [k Hk]. destruct (N.eq_dec d 0) as [->|]; [rewrite N.mul_0_r in Hk; lia|]. destruct (N.eq_dec d 1); [auto|].
  assert (d <= p) by (apply N.divide_pos_le; [lia|exists k; exact Hk]). destruct (N.eq_dec d p); [auto|]. exfalso.
  apply (proj2 (prime_state_ok p (p - 2)) C d); [lia|]. rewrite Hk. apply N.mod_mul. assumption.
Qed.

Lemma peel p r k : 2 <= p -> prime_chk p = true -> (k | p * r) -> (p | k) \/ (k | r).
Proof.
  intros Hp C H. destruct (prime_chk_ok p Hp C (N.gcd p k) (N.gcd_divide_l _ _)) as [E|E].
  - right. apply N.gauss with p; [exact H|]. rewrite N.gcd_comm. exact E.
  - left. rewrite <- E. apply N.gcd_divide_r.
Qed.

Lemma order_exact d : xpow d = ONE -> (ORDER | d).
Proof.
  intro H. destruct (N.eq_dec d 0) as [->|Hd]; [exists 0; reflexivity|].
  set (g := N.gcd d ORDER). assert (Hg : xpow g = ONE) by (apply xpow_gcd; [exact H|apply xpow_order|exact Hd]).
  destruct (N.gcd_divide_r d ORDER) as [k Hk]. fold g in Hk.
  destruct (N.gcd_divide_l d ORDER) as [k' Hk']. fold g in Hk'.
  assert (NO : forall p q, ORDER = p * q -> q <? 2 ^ 32 = true -> crc32_shift_generic ONE q =? ONE = false -> ~ (p | k)).
  { intros p q E L Hq [j Hj]. apply N.eqb_neq in Hq. apply N.ltb_lt in L. apply Hq.
    rewrite generic_is_shift by (exact L || reflexivity). change (xpow q = ONE).
    assert (q = j * g).
    { apply (N.mul_cancel_l _ _ p); [intros ->; discriminate|]. rewrite <- E, Hk, Hj. lia. }
    subst q. apply xpow_mul_one, Hg. }
  assert (K : (k | 3 * (5 * (17 * (257 * (65537 * 1)))))) by (exists g; change (3 * _) with ORDER; lia).
  assert (k = 1).
  { apply peel in K; [|lia|vm_compute; reflexivity]. destruct K as [K|K].
    { exfalso. revert K. apply (NO 3 1431655765); vm_compute; reflexivity. }
    apply peel in K; [|lia|vm_compute; reflexivity]. destruct K as [K|K].
    { exfalso. revert K. apply (NO 5 858993459); vm_compute; reflexivity. }
    apply peel in K; [|lia|vm_compute; reflexivity]. destruct K as [K|K].
    { exfalso. revert K. apply (NO 17 252645135); vm_compute; reflexivity. }
    apply peel in K; [|lia|vm_compute; reflexivity]. destruct K as [K|K].
    { exfalso. revert K. apply (NO 257 16711935); vm_compute; reflexivity. }
    apply peel in K; [|lia|vm_compute; reflexivity]. destruct K as [K|K].
    { exfalso. revert K. apply (NO 65537 65535); vm_compute; reflexivity. }
    apply N.divide_1_r, K. }
  subst k. exists k'. lia.
Qed.

(** Two flipped bits. *)
Lemma crc_bits_flip c b s : crc_bits c (negb b :: s) = crc_bits c (b :: s) ⊕ times_x (N.of_nat (S (length s))) 1.
Proof.
  change (crc_bits c (negb b :: s)) with (crc_bits (step (c ⊕ bn (negb b))) s).
  change (crc_bits c (b :: s)) with (crc_bits (step (c ⊕ bn b)) s).
  replace (bn (negb b)) with (bn b ⊕ 1) by (destruct b; reflexivity).
  rewrite <- xor_assoc, lin_step, crc_bits_xor. f_equal.
  rewrite Nat2N.inj_succ, <- N.add_1_r, times_add. reflexivity.
Qed.

Lemma two_bits i d1 d2 p a q b s : word i ->
  msg_bits d1 = p ++ a :: q ++ b :: s -> msg_bits d2 = p ++ negb a :: q ++ negb b :: s ->
  N.of_nat (length q) + 1 < 2 ^ 32 - 1 -> crc32_spec i d1 <> crc32_spec i d2.
Proof.
  intros Hi E1 E2 L H. apply spec_bits in H. rewrite E1, E2, !crc_bits_app in H.
  revert H. generalize (crc_bits (compl i) p). intros c H.
  rewrite crc_bits_flip in H. change (a :: q ++ b :: s) with ((a :: q) ++ b :: s) in H.
  change (a :: q ++ negb b :: s) with ((a :: q) ++ negb b :: s) in H.
  rewrite !crc_bits_app, crc_bits_flip in H.
  rewrite xor_assoc in H. rewrite <- (xor_0_r (crc_bits _ _)) in H at 1.
  rewrite !(xor_comm (crc_bits (crc_bits c _) _)) in H. apply xor_inj in H. symmetry in H. apply xor_eq in H.
  rewrite app_length in H. cbn [length] in H.
  replace (N.of_nat (S (length q + S (length s)))) with (N.of_nat (S (length s)) + (N.of_nat (length q) + 1)) in H by lia.
  assert (L0 : 0 < N.of_nat (length q) + 1) by lia.
  revert L L0 H. generalize (N.of_nat (length q) + 1). intros d L L0 H.
  rewrite times_add in H. apply times_inj in H; [|reflexivity|apply times_word; reflexivity].
  replace 1 with (xpow 31) in H at 1 by reflexivity. replace 1 with (xpow 31) in H by reflexivity.
  unfold xpow in H. rewrite times_comm in H. apply times_inj in H; [|reflexivity|apply times_word; reflexivity].
  symmetry in H. apply order_exact in H. destruct H as [k H]. change ORDER with 4294967295 in *. lia.
Qed.
