(** The field of 32-bit words: multiplication by x, products, powers, order of x,
    inverses. *)
From Verif Require Import Base CrcSpec CrcLin CrcModel.
From Coq Require Import NArith Lia ZifyN ZifyBool ZifyNat.
Open Scope N_scope.

Lemma lin_step : lin step.
Proof. unfold step. auto with lin. Qed.
Lemma lin_times n : lin (times_x n).
Proof. unfold times_x. apply lin_iter, lin_step. Qed.
Lemma lin_step' f : lin f -> lin (fun a => step (f a)).
Proof. intro. apply (lin_comp step); [apply lin_step|assumption]. Qed.
Lemma lin_times' n f : lin f -> lin (fun a => times_x n (f a)).
Proof. intro. apply (lin_comp (times_x n)); [apply lin_times|assumption]. Qed.
#[export] Hint Resolve lin_step lin_times lin_step' lin_times' : lin.

Lemma times_add a b c : times_x (a + b) c = times_x a (times_x b c).
Proof. unfold times_x. apply N.iter_add. Qed.
Lemma times_comm a b c : times_x a (times_x b c) = times_x b (times_x a c).
Proof. rewrite <- !times_add, N.add_comm. reflexivity. Qed.
Lemma times_0 c : times_x 0 c = c. Proof. reflexivity. Qed.
Lemma times_1 c : times_x 1 c = step c. Proof. reflexivity. Qed.
Lemma times_succ n c : times_x (N.succ n) c = step (times_x n c).
Proof. rewrite <- N.add_1_l. rewrite times_add. reflexivity. Qed.
Lemma times_zero n : times_x n 0 = 0.
Proof. apply lin_0, lin_times. Qed.

Lemma POLY_word : word POLY. Proof. reflexivity. Qed.
Lemma step_word c : word c -> word (step c).
Proof.
  intro H. apply lt_xor.
  - apply lt_shiftr. eapply lt_weaken; [exact H|lia].
  - destruct (N.odd c); [apply POLY_word|reflexivity].
Qed.
Lemma times_word n c : word c -> word (times_x n c).
Proof.
  intro H. induction n as [|n IH] using N.peano_ind; [exact H|]. rewrite times_succ. apply step_word, IH.
Qed.
Lemma xpow_word n : word (xpow n).
Proof. apply times_word. reflexivity. Qed.
Lemma xor_word a b : word a -> word b -> word (a ⊕ b).
Proof. apply lt_xor. Qed.
Lemma mask_word : word mask32. Proof. reflexivity. Qed.
Lemma compl_word c : word c -> word (compl c).
Proof. intro. apply xor_word; [assumption|apply mask_word]. Qed.
Lemma compl_compl c : compl (compl c) = c.
Proof. unfold compl. apply xor_cancel. Qed.

(** ** Step can be undone *)
Definition unstep (c : N) : N :=
  N.shiftl (c ⊕ (if N.testbit c 31 then POLY else 0)) 1 ⊕ (if N.testbit c 31 then 1 else 0).
Lemma lin_unstep : lin unstep.
Proof. unfold unstep. auto with lin. Qed.
Lemma unstep_step c : word c -> unstep (step c) = c.
Proof.
  revert c. apply (lin_check 32 (fun c => unstep (step c)) (fun c => c)).
  - apply (lin_comp unstep); [apply lin_unstep|apply lin_step].
  - apply lin_id.
  - vm_cast_no_check (eq_refl true).
Qed.
Lemma step_inj a b : word a -> word b -> step a = step b -> a = b.
Proof. intros Ha Hb H. rewrite <- (unstep_step a), H, unstep_step; auto. Qed.
Lemma times_inj n a b : word a -> word b -> times_x n a = times_x n b -> a = b.
Proof.
  intros Ha Hb. induction n as [|n IH] using N.peano_ind; [auto|]. rewrite !times_succ. intro H.
  apply IH, step_inj; auto using times_word.
Qed.

(** ** Products *)
Definition mulx (a b : N) : N :=
  fold_right (fun i acc => (if N.testbit b (31 - i) then times_x i a else 0) ⊕ acc) 0 (below 32).

Lemma mulx_lin_l b : lin (fun a => mulx a b).
Proof.
  unfold mulx. induction (below 32) as [|i l IH]; cbn [fold_right]; [apply lin_zero|].
  apply (lin_xor (fun a => if N.testbit b (31 - i) then times_x i a else 0)); [|exact IH].
  apply lin_bit2. apply lin_times.
Qed.
Lemma mulx_lin_r a : lin (mulx a).
Proof.
  unfold mulx. induction (below 32) as [|i l IH]; cbn [fold_right]; [apply lin_zero|].
  apply (lin_xor (fun b => if N.testbit b (31 - i) then times_x i a else 0)); [|exact IH].
  apply (lin_bit (fun b => b)). apply lin_id.
Qed.
Lemma mulx_word a b : word a -> word (mulx a b).
Proof.
  intro H. unfold mulx. induction (below 32) as [|i l IH]; cbn [fold_right]; [reflexivity|].
  apply xor_word; [|exact IH]. destruct (N.testbit _ _); [apply times_word, H|reflexivity].
Qed.
Lemma mulx_times n a b : mulx (times_x n a) b = times_x n (mulx a b).
Proof.
  unfold mulx. induction (below 32) as [|i l IH]; cbn [fold_right]; [symmetry; apply times_zero|].
  rewrite IH, (lin_times n). f_equal. destruct (N.testbit _ _); [apply times_comm|symmetry; apply times_zero].
Qed.

Lemma mulx_comm a b : word a -> word b -> mulx a b = mulx b a.
Proof.
  revert a b. apply (bilin_check 32 32 mulx (fun a b => mulx b a)).
  - intro. apply mulx_lin_l.
  - intro. apply mulx_lin_r.
  - intro. apply mulx_lin_r.
  - intro. apply mulx_lin_l.
  - vm_cast_no_check (eq_refl true).
Qed.
Lemma mulx_one_l b : word b -> mulx ONE b = b.
Proof. revert b. apply (lin_check 32 (mulx ONE) (fun b => b)); [apply mulx_lin_r|apply lin_id|vm_cast_no_check (eq_refl true)]. Qed.
Lemma mulx_xpow_l n b : word b -> mulx (xpow n) b = times_x n b.
Proof. intro H. unfold xpow. rewrite mulx_times, mulx_one_l by assumption. reflexivity. Qed.
Lemma mulx_xpow_r n a : word a -> mulx a (xpow n) = times_x n a.
Proof. intro H. rewrite mulx_comm by auto using xpow_word. apply mulx_xpow_l, H. Qed.

Lemma basis_xpow i : i < 32 -> 2 ^ i = xpow (31 - i).
Proof.
  assert (H : forallb (fun i => 2 ^ i =? xpow (31 - i)) (below 32) = true) by (vm_compute; reflexivity).
  intro Hi. apply N.eqb_eq. exact (forallb_below _ _ H i Hi).
Qed.

Lemma mulx_assoc a b c : word a -> word b -> word c -> mulx (mulx a b) c = mulx a (mulx b c).
Proof.
  intros Ha Hb. revert c. apply (lin_basis 32 (mulx (mulx a b)) (fun c => mulx a (mulx b c))).
  - apply mulx_lin_r.
  - apply (lin_comp (mulx a)); apply mulx_lin_r.
  - intros i Hi. rewrite basis_xpow by assumption.
    rewrite !mulx_xpow_r by auto using mulx_word.
    rewrite (mulx_comm a (times_x _ b)) by auto using times_word.
    rewrite mulx_times, (mulx_comm b a) by assumption. reflexivity.
Qed.

Lemma xpow_add m n : mulx (xpow m) (xpow n) = xpow (m + n).
Proof. rewrite mulx_xpow_l by apply xpow_word. unfold xpow. symmetry. apply times_add. Qed.

(** ** The order of x *)
Lemma power_table i : i < 32 -> tab crc_power i = xpow (2 ^ i).
Proof.
  assert (C : forallb (fun i => mulx (tab crc_power i) (tab crc_power i) =? tab crc_power (i + 1)) (below 31) = true)
    by (vm_compute; reflexivity).
  induction i as [|i IH] using N.peano_ind; intro Hi; [vm_compute; reflexivity|].
  rewrite <- N.add_1_r. rewrite <- (proj1 (N.eqb_eq _ _) (forallb_below _ _ C i ltac:(lia))).
  rewrite IH by lia. rewrite xpow_add. f_equal. rewrite N.add_1_r, N.pow_succ_r'. lia.
Qed.

Definition ORDER : N := 2 ^ 32 - 1.

Lemma xpow_2_32 : xpow (2 ^ 32) = xpow 1.
Proof.
  replace (2 ^ 32) with (2 ^ 31 + 2 ^ 31) by reflexivity.
  rewrite <- xpow_add, <- power_table by lia. vm_compute. reflexivity.
Qed.
Lemma xpow_order : xpow ORDER = ONE.
Proof.
  apply step_inj; [apply xpow_word|reflexivity|].
  rewrite <- (times_1 ONE). change (times_x 1 ONE) with (xpow 1). rewrite <- xpow_2_32.
  unfold xpow. rewrite <- times_succ. reflexivity.
Qed.
Lemma times_order c : word c -> times_x ORDER c = c.
Proof. intro H. rewrite <- mulx_xpow_l, xpow_order by assumption. apply mulx_one_l, H. Qed.
Lemma times_order_mul k c : word c -> times_x (k * ORDER) c = c.
Proof.
  intro H. induction k as [|k IH] using N.peano_ind; [reflexivity|].
  rewrite N.mul_succ_l, times_add, times_order, IH by assumption. reflexivity.
Qed.
Lemma times_mod n c : word c -> times_x n c = times_x (n mod ORDER) c.
Proof.
  intro H. rewrite (N.div_mod n ORDER) at 1 by discriminate.
  rewrite N.add_comm, times_add, N.mul_comm, times_order_mul by assumption. reflexivity.
Qed.
Lemma times_cong m n c : word c -> m mod ORDER = n mod ORDER -> times_x m c = times_x n c.
Proof. intros H E. rewrite times_mod, E, <- times_mod by assumption. reflexivity. Qed.
