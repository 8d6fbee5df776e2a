(** Linear algebra over GF(2) on numbers with [N.lxor], enough to reduce
    statements about linear functions to checks on powers of two. *)
From Verif Require Import Base.
From Coq Require Import NArith Lia ZifyN ZifyBool ZifyNat.
Open Scope N_scope.

Infix "⊕" := N.lxor (at level 50, left associativity) : N_scope.

Definition lin (f : N -> N) : Prop := forall a b, f (a ⊕ b) = f a ⊕ f b.

Lemma xor_0_l a : 0 ⊕ a = a. Proof. apply N.lxor_0_l. Qed.
Lemma xor_0_r a : a ⊕ 0 = a. Proof. apply N.lxor_0_r. Qed.
Lemma xor_nil a : a ⊕ a = 0. Proof. apply N.lxor_nilpotent. Qed.
Lemma xor_comm a b : a ⊕ b = b ⊕ a. Proof. apply N.lxor_comm. Qed.
Lemma xor_assoc a b c : a ⊕ b ⊕ c = a ⊕ (b ⊕ c). Proof. apply N.lxor_assoc. Qed.
Lemma xor_cancel a b : a ⊕ b ⊕ b = a.
Proof. rewrite xor_assoc, xor_nil. apply xor_0_r. Qed.
Lemma xor_eq a b : a ⊕ b = 0 -> a = b. Proof. apply N.lxor_eq. Qed.
Lemma xor_inj a b c : a ⊕ c = b ⊕ c -> a = b.
Proof. intro H. rewrite <- (xor_cancel a c), H. apply xor_cancel. Qed.

(** Equality up to order and duplicates, by bits. *)
Ltac xor_solve :=
  apply N.bits_inj; let i := fresh "i" in intro i; rewrite ?N.lxor_spec, ?N.bits_0;
  repeat match goal with |- context [N.testbit ?x i] => destruct (N.testbit x i) end; reflexivity.

Lemma lin_0 f : lin f -> f 0 = 0.
Proof. intro H. specialize (H 0 0). rewrite xor_0_l in H. rewrite H at 1. pose proof (xor_inj 0 (f 0) (f 0)) as K. rewrite xor_0_l in K. rewrite <- H. symmetry. apply K, H. Qed.

Lemma lin_id : lin (fun a => a). Proof. intros a b. reflexivity. Qed.
Lemma lin_zero : lin (fun _ => 0). Proof. intros a b. reflexivity. Qed.
Lemma lin_xor f g : lin f -> lin g -> lin (fun a => f a ⊕ g a).
Proof. intros Hf Hg a b. rewrite Hf, Hg. xor_solve. Qed.
Lemma lin_comp f g : lin f -> lin g -> lin (fun a => f (g a)).
Proof. intros Hf Hg a b. rewrite Hg, Hf. reflexivity. Qed.
Lemma lin_shiftr f k : lin f -> lin (fun a => N.shiftr (f a) k).
Proof. intros Hf a b. rewrite Hf. apply N.shiftr_lxor. Qed.
Lemma lin_shiftl f k : lin f -> lin (fun a => N.shiftl (f a) k).
Proof. intros Hf a b. rewrite Hf. apply N.shiftl_lxor. Qed.
Lemma land_xor_l a b c : N.land (a ⊕ b) c = N.land a c ⊕ N.land b c.
Proof.
  apply N.bits_inj. intro i. rewrite !N.lxor_spec, !N.land_spec, N.lxor_spec.
  destruct (N.testbit a i), (N.testbit b i), (N.testbit c i); reflexivity.
Qed.
Lemma lin_land f k : lin f -> lin (fun a => N.land (f a) k).
Proof. intros Hf a b. rewrite Hf. apply land_xor_l. Qed.
Lemma lin_bit f i k : lin f -> lin (fun a => if N.testbit (f a) i then k else 0).
Proof.
  intros Hf a b. rewrite Hf, N.lxor_spec.
  destruct (N.testbit (f a) i), (N.testbit (f b) i); cbn [xorb]; rewrite ?xor_0_r, ?xor_0_l, ?xor_nil; reflexivity.
Qed.
Lemma lin_odd f k : lin f -> lin (fun a => if N.odd (f a) then k else 0).
Proof.
  intro Hf. assert (H := lin_bit f 0 k Hf). intros a b. specialize (H a b). cbv beta in H.
  rewrite !N.bit0_odd in H. exact H.
Qed.
Lemma lin_bit2 i (f : N -> N) w : lin f -> lin (fun a => if N.testbit w i then f a else 0).
Proof. intros Hf a b. destruct (N.testbit w i); [apply Hf|reflexivity]. Qed.
Lemma lin_ext_fun f g : (forall a, f a = g a) -> lin f -> lin g.
Proof. intros E H a b. rewrite <- !E. apply H. Qed.

Lemma lin_iter n f : lin f -> lin (fun a => N.iter n f a).
Proof.
  intro Hf. intros a b. rewrite !N2Nat.inj_iter. generalize (N.to_nat n). intro k.
  induction k as [|k IH]; [reflexivity|]. simpl. rewrite IH. apply Hf.
Qed.

Create HintDb lin discriminated.
#[export] Hint Resolve lin_id lin_zero lin_xor lin_shiftr lin_shiftl lin_land lin_bit lin_odd : lin.

(** ** Words of [k] bits and the basis *)

Lemma lt_pow2_bits w k : w < 2 ^ k <-> forall i, k <= i -> N.testbit w i = false.
Proof.
  split.
  - intros H i Hi. destruct (N.eq_dec w 0) as [->|Hw]; [apply N.bits_0|].
    apply N.bits_above_log2. apply N.log2_lt_pow2 in H; lia.
  - intro H. destruct (N.eq_dec w 0) as [->|Hw]; [lia|].
    apply N.log2_lt_pow2; [lia|]. destruct (N.lt_ge_cases (N.log2 w) k) as [|Hl]; [assumption|].
    specialize (H _ Hl). rewrite N.bit_log2 in H by assumption. discriminate.
Qed.

Lemma lt_xor a b k : a < 2 ^ k -> b < 2 ^ k -> a ⊕ b < 2 ^ k.
Proof.
  rewrite !lt_pow2_bits. intros Ha Hb i Hi. rewrite N.lxor_spec, Ha, Hb by assumption. reflexivity.
Qed.
Lemma lt_land a b k : a < 2 ^ k -> N.land a b < 2 ^ k.
Proof. rewrite !lt_pow2_bits. intros Ha i Hi. rewrite N.land_spec, Ha by assumption. reflexivity. Qed.
Lemma lt_land_r a b k : b < 2 ^ k -> N.land a b < 2 ^ k.
Proof. rewrite N.land_comm. apply lt_land. Qed.
Lemma lt_shiftr a j k : a < 2 ^ (k + j) -> N.shiftr a j < 2 ^ k.
Proof. rewrite !lt_pow2_bits. intros Ha i Hi. rewrite N.shiftr_spec by lia. apply Ha. lia. Qed.
Lemma lt_shiftl a j k : a < 2 ^ k -> N.shiftl a j < 2 ^ (k + j).
Proof.
  rewrite !lt_pow2_bits. intros Ha i Hi. rewrite N.shiftl_spec_high' by lia. apply Ha. lia.
Qed.
Lemma lt_weaken a j k : a < 2 ^ j -> j <= k -> a < 2 ^ k.
Proof. intros H Hj. pose proof (N.pow_le_mono_r 2 j k ltac:(lia) Hj). lia. Qed.

(** Splitting off the top bit. *)
Lemma split_top w k : w < 2 ^ (N.succ k) ->
  w = (if N.testbit w k then 2 ^ k else 0) ⊕ N.land w (N.ones k) /\ N.land w (N.ones k) < 2 ^ k.
Proof.
  intro H. split.
  - apply N.bits_inj. intro i. rewrite N.lxor_spec, N.land_spec.
    destruct (N.lt_trichotomy i k) as [L|[->|L]].
    + rewrite N.ones_spec_low by assumption. rewrite andb_true_r.
      destruct (N.testbit w k); rewrite ?N.bits_0; [rewrite N.pow2_bits_false by lia|]; destruct (N.testbit w i); reflexivity.
    + rewrite N.ones_spec_high by lia. rewrite andb_false_r, xorb_false_r.
      destruct (N.testbit w k); [rewrite N.pow2_bits_true; reflexivity|rewrite N.bits_0; reflexivity].
    + rewrite N.ones_spec_high by lia. rewrite andb_false_r, xorb_false_r.
      rewrite (proj1 (lt_pow2_bits w (N.succ k)) H i) by lia.
      destruct (N.testbit w k); [rewrite N.pow2_bits_false by lia; reflexivity|rewrite N.bits_0; reflexivity].
  - apply lt_land_r. rewrite N.ones_equiv. pose proof (N.pow_nonzero 2 k). lia.
Qed.

Lemma lin_basis k f g : lin f -> lin g ->
  (forall i, i < k -> f (2 ^ i) = g (2 ^ i)) -> forall w, w < 2 ^ k -> f w = g w.
Proof.
  intros Hf Hg. revert k. induction k as [|k IH] using N.peano_ind; intros H w Hw.
  - assert (w = 0) by (simpl in Hw; lia). subst. rewrite !lin_0 by assumption. reflexivity.
  - destruct (split_top w k Hw) as [E L]. rewrite E, Hf, Hg. f_equal.
    + destruct (N.testbit w k); [apply H; lia|]. rewrite !lin_0 by assumption. reflexivity.
    + apply IH; [|exact L]. intros i Hi. apply H. lia.
Qed.

(** The check, computable. *)
Definition below (k : N) : list N := map N.of_nat (seq 0 (N.to_nat k)).
Lemma in_below i k : i < k -> In i (below k).
Proof. intro H. apply in_map_iff. exists (N.to_nat i). split; [lia|]. apply in_seq. lia. Qed.

Lemma forallb_below (P : N -> bool) k : forallb P (below k) = true -> forall i, i < k -> P i = true.
Proof. intros H i Hi. rewrite forallb_forall in H. apply H, in_below, Hi. Qed.

Definition same_on_basis (k : N) (f g : N -> N) : bool := forallb (fun i => f (2 ^ i) =? g (2 ^ i)) (below k).

Lemma lin_check k f g : lin f -> lin g -> same_on_basis k f g = true -> forall w, w < 2 ^ k -> f w = g w.
Proof.
  intros Hf Hg H. apply lin_basis; try assumption. intros i Hi.
  apply N.eqb_eq. apply (forallb_below _ _ H i Hi).
Qed.

(** Bilinear functions. *)
Lemma bilin_check k l (f g : N -> N -> N) :
  (forall b, lin (fun a => f a b)) -> (forall a, lin (f a)) ->
  (forall b, lin (fun a => g a b)) -> (forall a, lin (g a)) ->
  forallb (fun i => same_on_basis l (f (2 ^ i)) (g (2 ^ i))) (below k) = true ->
  forall a b, a < 2 ^ k -> b < 2 ^ l -> f a b = g a b.
Proof.
  intros F1 F2 G1 G2 H a b Ha Hb.
  revert a Ha. refine (lin_basis k (fun a => f a b) (fun a => g a b) (F1 b) (G1 b) _).
  intros i Hi. apply (lin_check l); auto. apply (forallb_below _ _ H i Hi).
Qed.

(** Bytes. *)
Lemma byte_lt b : Byte.to_N b < 2 ^ 8.
Proof. pose proof (Byte.to_N_bounded b). change (2 ^ 8) with 256. lia. Qed.
