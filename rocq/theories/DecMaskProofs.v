(** The escape resolution trick finds the escape leads. *)
From Verif Require Import Base DecMaskModel DecMaskSpec.
From Coq Require Import ZifyBool ZifyNat ZifyN.
Local Open Scope N_scope.

Lemma mask_bit l i : N.testbit (mask_of l) (N.of_nat i) = nth i l false.
Proof.
  revert i; induction l as [|b l IH]; intro i; cbn [mask_of].
  - rewrite N.bits_0. destruct i; reflexivity.
  - destruct i as [|i].
    + cbn [N.of_nat nth]. rewrite N.add_comm. apply N.testbit_0_r.
    + rewrite Nat2N.inj_succ, N.add_comm, N.testbit_succ_r. apply IH.
Qed.

Lemma mask_lt l : mask_of l < 2 ^ N.of_nat (length l).
Proof.
  induction l as [|b l IH]; cbn [mask_of length]; [reflexivity|].
  rewrite Nat2N.inj_succ, N.pow_succ_r'. destruct b; cbn [N.b2n]; lia.
Qed.

Lemma mask_ext l k : length l = length k -> (forall i, (i < length l)%nat -> nth i l false = nth i k false) -> l = k.
Proof. intros H1 H2. apply (nth_ext l k false false H1). exact H2. Qed.

Lemma leads_len esc l : length (leads esc l) = length l.
Proof. revert esc; induction l as [|b l IH]; intro esc; [reflexivity|]. cbn [leads length]. rewrite IH. reflexivity. Qed.

Definition prev_lead (esc : bool) (l : list bool) (i : nat) : bool :=
  match i with O => esc | S k => nth k (leads esc l) false end.

Lemma leads_nth esc l i : nth i (leads esc l) false = nth i l false && negb (prev_lead esc l i).
Proof.
  revert esc i; induction l as [|b l IH]; intros esc i.
  - destruct i; reflexivity.
  - cbn [leads]. destruct i as [|i]; cbn [nth prev_lead]; [reflexivity|].
    rewrite IH. destruct i; reflexivity.
Qed.

Lemma even_bits i : (i < 64)%nat -> N.testbit 0x5555555555555555 (N.of_nat i) = Nat.even i.
Proof.
  intro H. do 64 (destruct i as [|i]; [reflexivity|]). lia.
Qed.

Lemma fix_leads esc l : (length l <= 64)%nat ->
  let w := N.of_nat (length l) in
  fix_eqMask w (mask_of l) (uint w (mask_of (esc :: l))) = mask_of (leads esc l).
Proof.
  intros HL w. apply N.bits_inj. intro k. unfold fix_eqMask. cbv zeta.
  set (m := mask_of l). set (sh := uint w (mask_of (esc :: l))).
  set (ev := uint w 0x5555555555555555). set (a := N.land (N.land m (unot w sh)) ev).
  destruct (N.le_gt_cases w k) as [Hk|Hk].
  { rewrite N.land_spec. assert (Hm : N.testbit m k = false).
    { rewrite <- (N.mod_small m (2 ^ w)) by apply mask_lt. apply N.mod_pow2_bits_high. exact Hk. }
    rewrite Hm, andb_false_r.
    rewrite <- (N.mod_small (mask_of (leads esc l)) (2 ^ w)).
    2:{ subst w. rewrite <- (leads_len esc l). apply mask_lt. }
    rewrite N.mod_pow2_bits_high by exact Hk. reflexivity. }
  destruct (N.add_carry_bits m a false) as (c & C1 & C2 & C3). cbn [N.b2n] in C1. rewrite N.add_0_r in C1.
  rewrite <- (N2Nat.id k). assert (Hi : (N.to_nat k < length l)%nat) by lia.
  generalize dependent (N.to_nat k). clear k Hk. intros i Hi.
  assert (Mb : forall j, N.testbit m (N.of_nat j) = nth j l false) by (intro; apply mask_bit).
  assert (Sb : forall j, (j < length l)%nat -> N.testbit sh (N.of_nat j) = nth j (esc :: l) false).
  { intros j Hj. subst sh. unfold uint. rewrite N.mod_pow2_bits_low by lia. apply mask_bit. }
  assert (Eb : forall j, (j < length l)%nat -> N.testbit ev (N.of_nat j) = Nat.even j).
  { intros j Hj. subst ev. unfold uint. rewrite N.mod_pow2_bits_low by lia. apply even_bits. lia. }
  assert (Ab : forall j, (j < length l)%nat ->
     N.testbit a (N.of_nat j) = nth j l false && negb (nth j (esc :: l) false) && Nat.even j).
  { intros j Hj. subst a. rewrite !N.land_spec, Mb, Eb by auto. unfold unot. rewrite N.lxor_spec.
    rewrite N.ones_spec_low by lia. unfold uint. rewrite N.mod_pow2_bits_low, Sb by (auto; lia).
    destruct (nth j (esc :: l) false); reflexivity. }
  assert (Cb : forall j, N.testbit c (N.of_nat (S j)) =
     let mj := N.testbit m (N.of_nat j) in let aj := N.testbit a (N.of_nat j) in let cj := N.testbit c (N.of_nat j) in
     mj && aj || cj && (mj || aj)).
  { intro j. cbv zeta. rewrite Nat2N.inj_succ.
    replace (N.testbit c (N.succ (N.of_nat j))) with (N.testbit (c / 2) (N.of_nat j)) by apply N.div2_bits.
    rewrite C2. rewrite !N.lor_spec, !N.land_spec, N.lor_spec. reflexivity. }
  (* carry into bit j *)
  assert (INV : forall j, (j <= i)%nat ->
     let p := nth j (esc :: l) false in
     let lead := prev_lead esc l j in
     (N.testbit c (N.of_nat j) = true -> p = true /\ lead = Nat.odd j) /\
     (N.testbit c (N.of_nat j) = false -> p = true -> lead = Nat.even j)).
  { induction j as [|j IH]; intro Hj; cbv zeta.
    - change (N.of_nat 0) with 0. rewrite C3. split; [discriminate|]. intros _ Hp. exact Hp.
    - specialize (IH ltac:(lia)). cbv zeta in IH. destruct IH as [I1 I2].
      cbn [prev_lead]. rewrite leads_nth. rewrite (Cb j). cbv zeta. rewrite Mb, Ab by lia.
      change (nth (S j) (esc :: l) false) with (nth j l false).
      change (Nat.odd (S j)) with (negb (Nat.even (S j))). rewrite Nat.even_succ, <- Nat.negb_even, negb_involutive.
      unfold Nat.odd in I1.
      destruct (nth j l false); cbn [andb orb].
      2:{ rewrite andb_false_r. split; intro; discriminate. }
      destruct (N.testbit c (N.of_nat j)).
      + destruct (I1 eq_refl) as [P1 P2]. rewrite P1, P2. cbn [negb andb orb]. rewrite negb_involutive. split; [auto|discriminate].
      + destruct (nth j (esc :: l) false) eqn:Ep; cbn [negb andb orb].
        * rewrite (I2 eq_refl eq_refl). split; [discriminate|auto].
        * assert (Z : prev_lead esc l j = false).
          { destruct j as [|j]; [exact Ep|]. cbn [prev_lead]. rewrite leads_nth. 
            change (nth (S j) (esc :: l) false) with (nth j l false) in Ep. rewrite Ep. reflexivity. }
          rewrite Z. cbn [negb]. destruct (Nat.even j); split; auto; discriminate. }
  specialize (INV i ltac:(lia)). cbv zeta in INV. destruct INV as [I1 I2].
  rewrite mask_bit, leads_nth, N.land_spec, N.lxor_spec, Mb, Eb by auto.
  unfold uint. rewrite N.mod_pow2_bits_low by lia. rewrite C1.
  rewrite !N.lxor_spec, Mb, Ab by auto. unfold Nat.odd in I1.
  destruct (nth i l false); [|rewrite andb_false_r; reflexivity]. cbn [andb].
  rewrite andb_true_r.
  destruct (N.testbit c (N.of_nat i)).
  - destruct (I1 eq_refl) as [P1 P2]. rewrite P1, P2. destruct (Nat.even i); reflexivity.
  - destruct (nth i (esc :: l) false) eqn:Ep; cbn [negb andb].
    + rewrite (I2 eq_refl eq_refl). destruct (Nat.even i); reflexivity.
    + assert (Z : prev_lead esc l i = false).
      { destruct i as [|i]; [exact Ep|]. cbn [prev_lead]. rewrite leads_nth. 
        change (nth (S i) (esc :: l) false) with (nth i l false) in Ep. rewrite Ep. reflexivity. }
      rewrite Z. destruct (Nat.even i); reflexivity.
Qed.
