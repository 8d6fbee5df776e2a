(** Proofs about multiplication and shifting on ARM. *)
From Verif Require Import Base BaseLemmas CrcSpec CrcLin CrcModel CrcAlg CrcProofs CrcMul ClmulModel ClmulProofs
  ClmulMul MulLoop ArmModel.
From Coq Require Import NArith Lia ZifyN ZifyBool ZifyNat.
Open Scope N_scope.
Ltac Zify.zify_post_hook ::= Z.to_euclidean_division_equations.

Lemma insn bits acc d : crc32_insn bits acc d = times_x bits (acc ⊕ d). Proof. reflexivity. Qed.

(** The reduction of a 64-bit product with the CRC32W instruction. *)
Lemma reduce64 x : x < 2 ^ 64 -> crc32_insn 32 0 (u32 x) ⊕ N.shiftr x 32 = times_x 32 x /\ word (times_x 32 x).
Proof.
  intro H. rewrite insn, xor_0_l. change (u32 x) with (low 32 x).
  assert (E : times_x 32 (low 32 x) ⊕ N.shiftr x 32 = times_x 32 x) by (symmetry; apply times_split).
  split; [exact E|]. rewrite <- E. apply xor_word; [apply times_word, low_bound|]. apply (lt_shiftr x 32 32). exact H.
Qed.

Local Opaque N.lxor N.land N.shiftl N.shiftr times_x crc32_insn.

(** ** crc32_multiply_arm *)
Fixpoint psum (n : nat) (A b : N) : N :=
  match n with
  | O => 0
  | S k => (if N.testbit b (N.of_nat k) then A else 0) ⊕ psum k (N.shiftr A 1) b
  end.
Lemma int64_bit z : (Z.shiftr (int64 z) 63 =? 0)%Z = negb (Z.testbit z 63).
Proof.
  assert (H : Z.testbit z 63 = Z.testbit (int64 z) 63).
  { unfold int64. replace z with ((z mod 2 ^ 64) + (z / 2 ^ 64) * 2 ^ 64)%Z at 1 by lia.
    replace (z + 2 ^ 63)%Z with ((z mod 2 ^ 64) + 2 ^ 63 + (z / 2 ^ 64) * 2 ^ 64)%Z by lia.
    rewrite Z.mod_add by lia. pose proof (Z.mod_pos_bound z (2 ^ 64) ltac:(lia)) as Hb.
    set (r := (z mod 2 ^ 64)%Z) in *. set (q := (z / 2 ^ 64)%Z). clearbody r q.
    rewrite !Z.testbit_odd, !Z.shiftr_div_pow2 by lia.
    replace ((r + q * 2 ^ 64) / 2 ^ 63)%Z with (r / 2 ^ 63 + 2 * q)%Z by lia. rewrite Z.odd_add_mul_2.
    destruct (Z.lt_ge_cases r (2 ^ 63)) as [L|L].
    - rewrite (Z.mod_small (r + 2 ^ 63)) by lia. f_equal. lia.
    - replace ((r + 2 ^ 63) mod 2 ^ 64)%Z with (r - 2 ^ 63)%Z by lia.
      replace (r / 2 ^ 63)%Z with 1%Z by lia. replace ((r - 2 ^ 63 - 2 ^ 63) / 2 ^ 63)%Z with (-1)%Z by lia. reflexivity. }
  rewrite H. assert (Hr : (- 2 ^ 63 <= int64 z < 2 ^ 63)%Z) by (unfold int64; lia). generalize dependent (int64 z). intros y _ Hr.
  rewrite Z.testbit_odd, Z.shiftr_div_pow2 by lia.
  assert (C : (y / 2 ^ 63 = 0 \/ y / 2 ^ 63 = -1)%Z) by lia. destruct C as [-> | ->]; reflexivity.
Qed.
Lemma int64_double z : int64 (int64 z + int64 z) = int64 (z + z).
Proof. unfold int64. lia. Qed.
Lemma land_W64 x : x < 2 ^ 64 -> N.land x W64 = x.
Proof. intro H. change W64 with (N.ones 64). rewrite N.land_ones. apply N.mod_small, H. Qed.
Lemma pmull_loop_ok b n : forall res A, (n <= 32)%nat -> A < 2 ^ 64 ->
  pmull_loop n true res A (int64 (Z.shiftl (Z.of_N b) (64 - Z.of_nat n))) = Some (res ⊕ psum n A b).
Proof.
  induction n as [|n IH]; intros res A Hn HA; cbn [pmull_loop psum]; cbv zeta; [rewrite xor_0_r; reflexivity|].
  rewrite int64_bit, Bool.orb_true_r, int64_double.
  replace (Z.shiftl (Z.of_N b) (64 - Z.of_nat (S n)) + Z.shiftl (Z.of_N b) (64 - Z.of_nat (S n)))%Z
    with (Z.shiftl (Z.of_N b) (64 - Z.of_nat n)).
  2:{ rewrite !Z.shiftl_mul_pow2 by lia. replace (64 - Z.of_nat n)%Z with (1 + (64 - Z.of_nat (S n)))%Z by lia.
      rewrite Z.pow_add_r by lia. lia. }
  rewrite IH; [|lia|]. 2:{ eapply lt_weaken; [apply (lt_shiftr A 1 63); exact HA|lia]. }
  f_equal. rewrite xor_assoc. f_equal. f_equal.
  rewrite Z.shiftl_spec by lia. replace (63 - (64 - Z.of_nat (S n)))%Z with (Z.of_N (N.of_nat n)) by lia.
  rewrite Z.testbit_of_N. destruct (N.testbit b (N.of_nat n)); cbn [negb]; [apply land_W64, HA|apply N.land_0_r].
Qed.
Lemma psum_lin_l n : forall b f, lin f -> lin (fun a => psum n (f a) b).
Proof.
  induction n as [|n IH]; intros b f Hf; cbn [psum]; [apply lin_zero|].
  apply (lin_xor (fun a => if N.testbit b (N.of_nat n) then f a else 0)); [apply lin_bit2, Hf|].
  apply (IH b (fun a => N.shiftr (f a) 1)). apply lin_shiftr, Hf.
Qed.
Lemma psum_lin_r n : forall A, lin (psum n A).
Proof.
  induction n as [|n IH]; intros A; cbn [psum]; [apply lin_zero|].
  apply (lin_xor (fun b => if N.testbit b (N.of_nat n) then A else 0)); [apply (lin_bit (fun b => b)), lin_id|apply IH].
Qed.
Lemma psum_bound n : forall A b, A < 2 ^ 64 -> psum n A b < 2 ^ 64.
Proof.
  induction n as [|n IH]; intros A b H; cbn [psum]; [reflexivity|]. apply lt_xor.
  - destruct (N.testbit b _); [exact H|reflexivity].
  - apply IH. eapply lt_weaken; [apply (lt_shiftr A 1 63); exact H|lia].
Qed.
Theorem arm_is_multiply : is_multiply crc32_multiply_arm.
Proof.
  intros a b Ha Hb. unfold crc32_multiply_arm, crc32_multiply_arm_opt.
  assert (HA : N.shiftl a 32 < 2 ^ 64) by (apply (lt_shiftl a 32 32), Ha).
  change 32%Z with (64 - Z.of_nat 32)%Z. rewrite pmull_loop_ok by (try exact HA; lia). rewrite xor_0_l.
  pose proof (psum_bound 32 _ b HA) as HB. destruct (reduce64 _ HB) as [E W]. rewrite E, u32_id by exact W. clear E W HB HA.
  revert a b Ha Hb. apply (bilin_check 32 32 (fun a b => times_x 32 (psum 32 (N.shiftl a 32) b)) mulx).
  - intro b. apply (lin_comp (times_x 32)); [exact (lin_times 32)|]. apply psum_lin_l. auto with lin.
  - intro a. apply (lin_comp (times_x 32)); [exact (lin_times 32)|]. apply psum_lin_r.
  - apply mulx_lin_l.
  - apply mulx_lin_r.
  - vm_cast_no_check (eq_refl true).
Qed.

(** ** crc32_shift_arm *)
Lemma arm_loop1 mul fuel : forall r n, arm_shift_loop fuel mul r n = loop1 (fun pos x => mul x (tab crc_power pos)) fuel n r.
Proof.
  induction fuel as [|fuel IH]; intros r n; cbn [arm_shift_loop loop1]; [reflexivity|]. destruct (n =? 0); [reflexivity|apply IH].
Qed.
Lemma mul_power mul pos x : is_multiply mul -> pos < 32 -> word x -> mul x (tab crc_power pos) = times_x (2 ^ pos) x.
Proof.
  intros H Hp Hx. pose proof (power_table pos Hp) as P. rewrite H; [|exact Hx|rewrite P; apply xpow_word].
  rewrite P. apply mulx_xpow_r, Hx.
Qed.
Theorem arm_is_shift : is_shift crc32_shift_arm.
Proof.
  intros c n Hc Hn. unfold crc32_shift_arm. cbv zeta. destruct (land_31 n Hn) as [A1 A2]. rewrite A1, A2.
  pose proof (N.mod_lt n 32 ltac:(lia)) as Lm. pose proof (N.mod_le n 32 ltac:(lia)) as Ln.
  assert (HB : N.shiftl c (32 - n mod 32) < 2 ^ 64) by (eapply lt_weaken; [apply lt_shiftl, Hc|lia]).
  destruct (reduce64 _ HB) as [E W]. rewrite E, u32_id by exact W.
  rewrite times_shiftl' by lia. replace (32 - (32 - n mod 32)) with (n mod 32) by lia.
  rewrite arm_loop1, loop1_ok.
  - rewrite <- times_add. replace (n - n mod 32 + n mod 32) with n by lia. reflexivity.
  - intros pos x. apply mul_power, arm_is_multiply.
  - lia.
  - unfold word in *. lia.
  - change (2 ^ (32 - N.of_nat 32)) with 1. apply N.divide_1_l.
  - apply times_word, Hc.
Qed.

(** ** crc32_multiply_pmull *)
Lemma clmul_bound a b k j : a < 2 ^ k -> b < 2 ^ j -> clmul a b < 2 ^ (k + j).
Proof. apply clmul_n_bound_r. Qed.
Lemma clmul_word_bound a b : word a -> word b -> clmul a b < 2 ^ 63.
Proof.
  intros Ha Hb. unfold clmul. replace (clmul_n 64 a b) with (clmul_n 32 a b).
  - assert (G : forall n : nat, clmul_n n a b < 2 ^ (32 + N.of_nat n - 1) \/ n = 0%nat).
    { induction n as [|n IH]; [right; reflexivity|left]. cbn [clmul_n]. apply lt_xor.
      - destruct IH as [IH| ->]; [eapply lt_weaken; [exact IH|lia]|reflexivity].
      - destruct (N.testbit b (N.of_nat n)); [eapply lt_weaken; [apply lt_shiftl, Ha|lia]|].
        pose proof (N.pow_nonzero 2 (32 + N.of_nat (S n) - 1)). lia. }
    destruct (G 32%nat) as [L|L]; [exact L|discriminate].
  - assert (G : forall k, clmul_n (k + 32) a b = clmul_n 32 a b).
    { induction k as [|k IH]; [reflexivity|]. cbn [plus clmul_n]. rewrite IH.
      rewrite (proj1 (lt_pow2_bits b 32) Hb) by lia. apply xor_0_r. }
    symmetry. exact (G 32%nat).
Qed.
Theorem pmull_is_multiply a64 : is_multiply (crc32_multiply_pmull a64).
Proof.
  intros a b Ha Hb. unfold crc32_multiply_pmull. cbv zeta. pose proof (clmul_word_bound a b Ha Hb) as Hp.
  assert (E2 : lo64 (clmul a b + clmul a b) = N.shiftl (clmul a b) 1).
  { rewrite N.shiftl_mul_pow2. rewrite lo64_id; lia. }
  rewrite E2. assert (H64 : N.shiftl (clmul a b) 1 < 2 ^ 64) by (apply (lt_shiftl _ 1 63), Hp).
  assert (E3 : N.shiftr (clmul a b) 31 = N.shiftr (N.shiftl (clmul a b) 1) 32).
  { rewrite N.shiftr_shiftl_r by lia. reflexivity. }
  assert (E4 : u32 (N.shiftr (N.shiftl (clmul a b) 1) 32) = N.shiftr (N.shiftl (clmul a b) 1) 32).
  { apply u32_id. apply (lt_shiftr _ 32 32). exact H64. }
  rewrite E3, E4. destruct (reduce64 _ H64) as [E W]. rewrite E, u32_id by exact W.
  replace (if a64 then _ else _) with (times_x 32 (N.shiftl (clmul a b) 1)) by (destruct a64; reflexivity).
  clear E E2 E3 E4 W H64 Hp. revert a b Ha Hb.
  apply (bilin_check 32 32 (fun a b => times_x 32 (N.shiftl (clmul a b) 1)) mulx).
  - intro b. apply (lin_comp (times_x 32)); [exact (lin_times 32)|]. apply lin_shiftl. apply (lin_clmul_n_l 64 b (fun a => a)), lin_id.
  - intro a. apply (lin_comp (times_x 32)); [exact (lin_times 32)|]. apply lin_shiftl. apply (lin_clmul_n_r 64 a (fun a => a)), lin_id.
  - apply mulx_lin_l.
  - apply mulx_lin_r.
  - vm_cast_no_check (eq_refl true).
Qed.

(** ** Reversing bits *)
Lemma lin_rbit k : forall f, lin f -> lin (fun x => rbit k (f x)).
Proof.
  induction k as [|k IH]; intros f Hf; cbn [rbit]; [apply lin_zero|].
  apply (lin_xor (fun x => N.shiftl (N.land (f x) 1) (N.of_nat k))); [auto with lin|].
  apply (IH (fun x => N.shiftr (f x) 1)). auto with lin.
Qed.
#[export] Hint Resolve lin_rbit : lin.
Lemma rbit_bound k : forall x, rbit k x < 2 ^ N.of_nat k.
Proof.
  induction k as [|k IH]; intro x; cbn [rbit]; [reflexivity|]. apply lt_xor.
  - eapply lt_weaken; [apply (lt_shiftl _ _ 1); apply lt_land_r; reflexivity|lia].
  - eapply lt_weaken; [apply IH|lia].
Qed.
Lemma lor_swap x m1 m2 k : N.land (N.shiftr m1 k) (N.shiftl m2 k) = 0 ->
  N.lor (N.shiftr (N.land x m1) k) (N.shiftl (N.land x m2) k) = N.shiftr (N.land x m1) k ⊕ N.shiftl (N.land x m2) k.
Proof.
  intro H. symmetry. apply N.lxor_lor. rewrite N.shiftr_land, N.shiftl_land.
  rewrite <- N.land_assoc, (N.land_assoc (N.shiftr m1 k)), (N.land_comm (N.shiftr m1 k)), <- N.land_assoc, H, !N.land_0_r. reflexivity.
Qed.
Lemma rbit64_msvc_ok x : x < 2 ^ 64 -> rbit64_msvc x = rbit 64 x.
Proof.
  set (f := fun x => let x := of_bytes 8 (fun i => byte_at x (7 - i)) in
    let x := N.shiftr (N.land x 0xaaaaaaaaaaaaaaaa) 1 ⊕ N.shiftl (N.land x 0x5555555555555555) 1 in
    let x := N.shiftr (N.land x 0xcccccccccccccccc) 2 ⊕ N.shiftl (N.land x 0x3333333333333333) 2 in
    N.shiftr (N.land x 0xf0f0f0f0f0f0f0f0) 4 ⊕ N.shiftl (N.land x 0x0f0f0f0f0f0f0f0f) 4).
  intro H. transitivity (f x).
  - unfold rbit64_msvc, f. cbv zeta. rewrite !lor_swap by reflexivity. reflexivity.
  - revert x H. apply (lin_check 64 f (fun x => rbit 64 x)).
    + unfold f. cbv zeta.
      assert (L : lin (fun x => of_bytes 8 (fun i => byte_at x (7 - i)))).
      { apply (lin_of_bytes 8 (fun x i => byte_at x (7 - i))). intro i. unfold byte_at. auto with lin. }
      auto 20 with lin.
    + auto with lin.
    + vm_cast_no_check (eq_refl true).
Qed.
Lemma rbit32_msvc_ok x : x < 2 ^ 32 -> rbit32_msvc x = rbit 32 x.
Proof.
  intro H. unfold rbit32_msvc. rewrite rbit64_msvc_ok by (eapply lt_weaken; [exact H|lia]). revert x H.
  apply (lin_check 32 (fun x => N.shiftr (rbit 64 x) 32) (fun x => rbit 32 x)); [auto with lin|auto with lin|].
  vm_cast_no_check (eq_refl true).
Qed.
Lemma nv_rbit c : word c -> nv (rbit 32 c) = c.
Proof.
  revert c. apply (lin_check 32 (fun c => nv (rbit 32 c)) (fun c => c)); [auto with lin|apply lin_id|].
  vm_cast_no_check (eq_refl true).
Qed.
Lemma rbit64_nv x : x < 2 ^ 64 -> times_x 32 (rbit 64 x) = nv x.
Proof.
  revert x. apply (lin_check 64 (fun x => times_x 32 (rbit 64 x)) nv).
  - auto with lin.
  - apply (lin_nv (fun x => x)), lin_id.
  - vm_cast_no_check (eq_refl true).
Qed.
Lemma rbit32_nv x : x < 2 ^ 64 -> times_x 32 (rbit 32 (N.shiftr x 32)) ⊕ rbit 32 (u32 x) = nv x.
Proof.
  revert x. apply (lin_check 64 (fun x => times_x 32 (rbit 32 (N.shiftr x 32)) ⊕ rbit 32 (u32 x)) nv).
  - unfold u32. auto 10 with lin.
  - apply (lin_nv (fun x => x)), lin_id.
  - vm_cast_no_check (eq_refl true).
Qed.
Lemma rbit128_nv x : x < 2 ^ 128 -> times_x 32 (rbit 64 (lo64 x)) ⊕ times_x 96 (rbit 64 (hi64 x)) = nv x.
Proof.
  revert x. apply (lin_check 128 (fun x => times_x 32 (rbit 64 (lo64 x)) ⊕ times_x 96 (rbit 64 (hi64 x))) nv).
  - auto 10 with lin.
  - apply (lin_nv (fun x => x)), lin_id.
  - vm_cast_no_check (eq_refl true).
Qed.

(** ** crc32_shift_pmull *)
Lemma same_powers : crc_power_rev_pmull = crc_power_rev. Proof. reflexivity. Qed.
Lemma power_rev_nv i : i < 32 -> tab crc_power_rev_pmull i < 2 ^ 32 /\ nv (tab crc_power_rev_pmull i) = xpow (2 ^ i).
Proof.
  rewrite same_powers. intro H. destruct (power_rev i H) as [P1 P2]. split; [exact P1|].
  unfold nlo in P2. rewrite lo64_id in P2; [exact P2|]. eapply lt_weaken; [exact P1|lia].
Qed.
Lemma pmull_red x : x < 2 ^ 96 -> nv (lo64 x ⊕ lo64 (clmul (hi64 x) 0x490d678d)) = nv x.
Proof.
  revert x. apply (lin_check 96 (fun x => nv (lo64 x ⊕ lo64 (clmul (hi64 x) 0x490d678d))) nv).
  - apply lin_nv. apply (lin_xor lo64); [apply (lin_lo64 (fun x => x)), lin_id|]. apply lin_lo64.
    apply (lin_clmul_n_l 64 0x490d678d hi64), (lin_hi64 (fun x => x)), lin_id.
  - apply (lin_nv (fun x => x)), lin_id.
  - vm_cast_no_check (eq_refl true).
Qed.
Lemma pmull_mulred_ok pos x : pos < 32 -> x < 2 ^ 64 ->
  pmull_mulred x (tab crc_power_rev_pmull pos) < 2 ^ 64 /\
  nv (pmull_mulred x (tab crc_power_rev_pmull pos)) = times_x (2 ^ pos) (nv x).
Proof.
  intros Hp Hx. destruct (power_rev_nv pos Hp) as [P1 P2]. unfold pmull_mulred. cbv zeta. split.
  - apply lt_xor; apply lo64_bound.
  - rewrite pmull_red; [|apply (clmul_bound _ _ 64 32); assumption].
    rewrite nv_clmul, P2; [apply mulx_xpow_r, nv_word|exact Hx|eapply lt_weaken; [exact P1|lia]].
Qed.
Lemma pmull_loop2 fuel : forall n r r2,
  pmull_shift_loop fuel n r r2 = loop2 (fun pos x => pmull_mulred x (tab crc_power_rev_pmull pos)) fuel n r r2.
Proof.
  induction fuel as [|fuel IH]; intros n r r2; cbn [pmull_shift_loop loop2]; cbv zeta; [reflexivity|].
  destruct (n =? 0); [reflexivity|]. destruct (_ =? 0); [reflexivity|]. apply IH.
Qed.

Section Shift.
Context (a64 : bool) (rbit32 rbit64 : N -> N).
Context (H32 : forall x, x < 2 ^ 32 -> rbit32 x = rbit 32 x) (H64 : forall x, x < 2 ^ 64 -> rbit64 x = rbit 64 x).
Theorem pmull_is_shift : is_shift (crc32_shift_pmull a64 rbit32 rbit64).
Proof.
  intros c n Hc Hn. unfold crc32_shift_pmull. cbv zeta. rewrite (H32 c Hc).
  destruct (land_31 n Hn) as [A1 A2]. rewrite A1, A2.
  pose proof (N.mod_lt n 32 ltac:(lia)) as Lm. pose proof (N.mod_le n 32 ltac:(lia)) as Ln.
  pose proof (rbit_bound 32 c) as Rb. change (2 ^ N.of_nat 32) with (2 ^ 32) in Rb.
  set (x := N.shiftl (rbit 32 c) (n mod 32)) in *.
  assert (Hx : x < 2 ^ 64) by (eapply lt_weaken; [apply lt_shiftl, Rb|lia]).
  assert (V : nv x = times_x (n mod 32) c).
  { unfold x. rewrite (nv_shiftl _ 32) by (assumption || lia). rewrite nv_rbit by exact Hc. reflexivity. }
  clearbody x. clear Rb A1 A2.
  assert (Tn : times_x n c = times_x (n - n mod 32) (times_x (n mod 32) c)).
  { rewrite <- times_add. replace (n - n mod 32 + n mod 32) with n by lia. reflexivity. }
  rewrite Tn, <- V. clear Tn V.
  set (h := n - n mod 32) in *. assert (Hh : word h) by (unfold word in *; subst h; lia). clearbody h. clear Hc Hn Lm Ln c n.
  destruct (N.eqb_spec h 0) as [->|Eh].
  - change (times_x 0 (nv x)) with (nv x). destruct a64.
    + rewrite H64 by exact Hx. pose proof (rbit_bound 64 x) as Rb. change (2 ^ N.of_nat 64) with (2 ^ 64) in Rb.
      destruct (reduce64 _ Rb) as [E W]. rewrite E, u32_id by exact W. apply rbit64_nv, Hx.
    + rewrite insn, xor_0_l, !H32 by (first [apply u32_word|apply (lt_shiftr x 32 32), Hx]). apply rbit32_nv, Hx.
  - destruct (clear_step h Eh Hh) as (C1 & C2 & C3 & C4 & C5). rewrite C1.
    destruct (power_rev_nv _ C3) as [P1 P2].
    match goal with |- context [let '(_, _) := ?p in _] =>
      assert (K : let '(a, b) := p in a < 2 ^ 64 /\ b < 2 ^ 64 /\ mulx (nv a) (nv b) = times_x h (nv x)); [|destruct p as [a b]] end.
    { destruct (N.eqb_spec (h - 2 ^ ctz h) 0) as [E1|E1].
      - split; [exact Hx|]. split; [eapply lt_weaken; [exact P1|lia]|].
        rewrite P2, mulx_xpow_r by apply nv_word. replace (2 ^ ctz h) with h by lia. reflexivity.
      - destruct (clear_step _ E1 C4) as (D1 & D2 & D3 & D4 & D5). rewrite D1.
        destruct (power_rev_nv _ D3) as [R1 R2]. set (h1 := h - 2 ^ ctz h) in *.
        assert (B : clmul (tab crc_power_rev_pmull (ctz h)) (tab crc_power_rev_pmull (ctz h1)) < 2 ^ 64).
        { apply (clmul_bound _ _ 32 32); assumption. }
        rewrite lo64_id by exact B. rewrite pmull_loop2.
        pose proof (loop2_ok _ (fun y => y < 2 ^ 64) nv nv_word pmull_mulred_ok 32 (h1 - 2 ^ ctz h1) x _
          ltac:(lia) D4 (N.divide_1_l _) Hx B) as K.
        destruct (loop2 _ _ _ _ _) as [a b]. destruct K as (K1 & K2 & K3). split; [exact K1|]. split; [exact K2|].
        rewrite K3. rewrite nv_clmul, P2, R2 by (eapply lt_weaken; [eassumption|lia]). rewrite xpow_add.
        rewrite mulx_xpow_r, <- times_add by apply nv_word.
        replace (h1 - 2 ^ ctz h1 + (2 ^ ctz h + 2 ^ ctz h1)) with h by (subst h1; lia). reflexivity. }
    destruct K as (K1 & K2 & K3). rewrite <- K3, <- nv_clmul by assumption.
    pose proof (clmul_bound a b 64 64 K1 K2) as Bp. change (64 + 64) with 128 in Bp.
    rewrite <- (rbit128_nv _ Bp). set (l0 := rbit 64 (lo64 (clmul a b))). set (l1 := rbit 64 (hi64 (clmul a b))).
    assert (B0 : l0 < 2 ^ 64) by apply (rbit_bound 64). assert (B1 : l1 < 2 ^ 64) by apply (rbit_bound 64).
    clearbody l0 l1. clear - B0 B1. rewrite !insn, !xor_0_l.
    assert (W1 : word (times_x 64 l1)).
    { change 64 with (32 + 32). rewrite times_add. apply times_word. apply (reduce64 _ B1). }
    assert (F : times_x 32 (u32 l0 ⊕ times_x 64 l1) ⊕ N.shiftr l0 32 = times_x 32 l0 ⊕ times_x 96 l1).
    { rewrite (lin_times 32). rewrite <- times_add. rewrite (times_split 32 l0). change (low 32 l0) with (u32 l0).
      change (32 + 64) with 96. xor_solve. }
    assert (W : word (times_x 32 l0 ⊕ times_x 96 l1)).
    { apply xor_word; [apply (reduce64 _ B0)|]. change 96 with (32 + 64). rewrite times_add. apply times_word, W1. }
    destruct a64.
    + rewrite (u32_id (times_x 64 l1)) by exact W1. rewrite F. apply u32_id, W.
    + rewrite (u32_id (N.shiftr l0 32)) by (apply (lt_shiftr l0 32 32), B0).
      rewrite <- F. do 3 f_equal. rewrite (u32_id (N.shiftr l1 32)) by (apply (lt_shiftr l1 32 32), B1).
      change 64 with (32 + 32). rewrite times_add. rewrite (times_split 32 l1). change (low 32 l1) with (u32 l1). f_equal. apply xor_comm.
Qed.
End Shift.

(** ** Signed overflow *)
Lemma no_overflow n : forall res a z r, pmull_loop n false res a z = Some r ->
  (z = int64 z -> - 2 ^ 63 <= z * 2 ^ Z.of_nat n < 2 ^ 63)%Z.
Proof.
  induction n as [|n IH]; intros res a z r H Hz.
  - change (2 ^ Z.of_nat 0)%Z with 1%Z. unfold int64 in Hz. lia.
  - cbn [pmull_loop] in H. cbv zeta in H. rewrite orb_false_r in H. destruct (Z.eqb_spec (int64 (z + z)) (z + z)) as [E|E]; [|discriminate].
    apply IH in H; [|rewrite E; symmetry; exact E]. rewrite E in H. rewrite Nat2Z.inj_succ, Z.pow_succ_r by lia. lia.
Qed.
Lemma int64_int64 z : int64 z = int64 (int64 z).
Proof. unfold int64. lia. Qed.
Lemma multiply_overflows a b : word b -> b <> 0 -> crc32_multiply_arm_opt false a b = None.
Proof.
  intros Hb N0. unfold crc32_multiply_arm_opt. destruct (pmull_loop _ _ _ _ _) as [r|] eqn:E; [|reflexivity]. exfalso.
  apply no_overflow in E; [|apply int64_int64]. change (Z.of_nat 32) with 32%Z in E. revert E. unfold int64.
  rewrite Z.shiftl_mul_pow2 by lia. unfold word in Hb. lia.
Qed.
Lemma wraps n : forall res a z, pmull_loop n true res a z <> None.
Proof.
  induction n as [|n IH]; intros res a z; cbn [pmull_loop]; [discriminate|]. cbv zeta. rewrite orb_true_r. apply IH.
Qed.
Lemma multiply_wrapping a b : word a -> word b -> crc32_multiply_arm_opt true a b = Some (crc32_multiply_generic a b).
Proof.
  intros Ha Hb. pose proof (arm_is_multiply a b Ha Hb) as H. rewrite generic_is_multiply by assumption. rewrite <- H.
  unfold crc32_multiply_arm, crc32_multiply_arm_opt. pose proof (wraps 32 0 (N.shiftl a 32) (int64 (Z.shiftl (Z.of_N b) 32))) as W.
  destruct (pmull_loop _ _ _ _ _); [reflexivity|congruence].
Qed.
