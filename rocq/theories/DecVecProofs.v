(** Lemmas about vectors, masks and flags. *)
From Verif Require Import Base BaseLemmas DecMaskSpec DecMaskModel DecMaskProofs DecVec DecBlock.
From Coq Require Import ZifyBool ZifyNat ZifyN.
Ltac Zify.zify_post_hook ::= Z.div_mod_to_equations.

(** ** Memory *)

Lemma load_n_ok B : forall l a m, bytes_at m a l -> rlo B <= a -> a + zlen l <= rhi B ->
  load_n B a (length l) m = Ok (l, m).
Proof.
  induction l as [|c l IH]; intros a m Hb H1 H2; [reflexivity|]. destruct Hb as [Hc Hb].
  rewrite zlen_cons in H2. pose proof (zlen_nonneg l). cbn [length load_n].
  erewrite bind_ok by (apply load_r; lia). rewrite Hc. erewrite bind_ok by (apply IH; [exact Hb|lia|lia]). reflexivity.
Qed.

(** [n] characters of the text, [k] characters from its start. *)
Definition part (k n : nat) (t : list byte) : list byte := firstn n (skipn k t).

Lemma part_len k n t : (k + n <= length t)%nat -> length (part k n t) = n.
Proof. intro H. unfold part. rewrite firstn_length, skipn_length. lia. Qed.

Lemma load_part B m a t k n x : bytes_at m a t -> rlo B <= a -> a + zlen t <= rhi B ->
  (k + n <= length t)%nat -> x = a + Z.of_nat k -> load_n B x n m = Ok (part k n t, m).
Proof.
  intros Hb H1 H2 Hk ->. rewrite <- (part_len k n t Hk) at 1. apply load_n_ok.
  - rewrite <- (firstn_skipn k t) in Hb. apply bytes_at_app in Hb as [_ Hb].
    rewrite <- (firstn_skipn n (skipn k t)) in Hb. apply bytes_at_app in Hb as [Hb _].
    unfold zlen in Hb. rewrite firstn_length in Hb. replace (Z.of_nat (Nat.min k (length t))) with (Z.of_nat k) in Hb by lia.
    exact Hb.
  - lia.
  - unfold zlen in *. rewrite part_len by exact Hk. lia.
Qed.

Lemma store_n_ok B : forall v p m, wlo B <= p -> p + zlen v <= whi B ->
  exists m', store_n B p v m = Ok (tt, m') /\ bytes_at m' p v /\ (forall q, ~ (p <= q < p + zlen v) -> m' q = m q).
Proof.
  induction v as [|c v IH]; intros p m H1 H2.
  - exists m. repeat split; auto.
  - rewrite zlen_cons in H2. pose proof (zlen_nonneg v).
    destruct (IH (p + 1) (upd m p c)) as (m' & E & Hb & Hf); [lia|lia|].
    exists m'. cbn [store_n]. erewrite bind_ok by (apply store_w; lia). split; [exact E|]. rewrite zlen_cons. split.
    + cbn [bytes_at]. split; [|exact Hb]. rewrite Hf by lia. apply upd_same.
    + intros q Hq. rewrite Hf by lia. apply upd_other. lia.
Qed.

(** ** Masks as lists of flags *)

Definition vm (l : list bool) : vec := map bm l.

Lemma vm_len l : length (vm l) = length l.
Proof. apply map_length. Qed.

Lemma b_top_bm b : b_top (bm b) = b.
Proof. destruct b; reflexivity. Qed.

Lemma movemask_vm l : v_movemask (vm l) = mask_of l.
Proof. unfold v_movemask, vm. rewrite map_map. f_equal. rewrite <- (map_id l) at 2. apply map_ext. apply b_top_bm. Qed.

Lemma vm_app a b : vm (a ++ b) = vm a ++ vm b.
Proof. apply map_app. Qed.

Lemma vm_and : forall a b, v_and (vm a) (vm b) = vm (map2 andb a b).
Proof.
  induction a as [|x a IH]; intros [|y b]; try reflexivity. cbn [vm map v_and map2]. f_equal; [destruct x, y; reflexivity|apply IH].
Qed.

Lemma vm_or : forall a b, v_or (vm a) (vm b) = vm (map2 orb a b).
Proof.
  induction a as [|x a IH]; intros [|y b]; try reflexivity. cbn [vm map v_or map2]. f_equal; [destruct x, y; reflexivity|apply IH].
Qed.

Lemma beq_sym a b : beq a b = beq b a.
Proof. destruct (beq_spec a b), (beq_spec b a); congruence. Qed.

Lemma cmpeq_rep c : forall v n, (length v <= n)%nat -> v_cmpeq v (repeat c n) = vm (map (fun x => beq x c) v).
Proof.
  unfold v_cmpeq. induction v as [|x v IH]; intros [|n] H; cbn [length] in H; try reflexivity; try lia.
  cbn [repeat map2 map vm]. f_equal. apply IH. lia.
Qed.

Lemma cmpeq_rep' c : forall v n, (length v <= n)%nat -> v_cmpeq (repeat c n) v = vm (map (fun x => beq x c) v).
Proof.
  unfold v_cmpeq. induction v as [|x v IH]; intros [|n] H; cbn [length] in H; try reflexivity; try lia.
  cbn [repeat map2 map vm]. f_equal; [f_equal; apply beq_sym|]. apply IH. lia.
Qed.

Lemma nth_error_skip {A} (k : nat) (l : list A) : nth_error (skipn k l) 0 = nth_error l k.
Proof. revert l; induction k as [|k IH]; intros [|a l]; try reflexivity. cbn [skipn nth_error]. apply IH. Qed.

(** Comparing a part of the text with a character. *)
Lemma part_flags c k n t : (k + n <= length t)%nat -> map (fun x => beq x c) (part k n t) = flags (at_ k c) n t.
Proof.
  revert t; induction n as [|n IH]; intros t H.
  - destruct (skipn k t); reflexivity.
  - unfold part in *. destruct (skipn k t) as [|x r] eqn:E.
    { apply (f_equal (@length _)) in E. rewrite skipn_length in E. cbn in E. lia. }
    cbn [firstn map flags]. f_equal.
    + unfold at_. replace (nth_error t k) with (nth_error (skipn k t) 0) by (apply nth_error_skip).
      rewrite E. reflexivity.
    + assert (Hr : r = skipn k (tl t)).
      { destruct t as [|y t]; [rewrite skipn_nil in E; discriminate|]. cbn [tl].
        change r with (tl (x :: r)). rewrite <- E, tl_skipn. reflexivity. }
      rewrite Hr. apply IH. destruct t; cbn in *; lia.
Qed.

Lemma cmp_part z c k n t : u8 z = c -> (k + n <= length t)%nat -> n = 16%nat -> v_cmpeq (part k n t) (v_set1 z) = vm (flags (at_ k c) n t).
Proof. intros <- H Hn. unfold v_set1. rewrite cmpeq_rep, part_flags; auto. rewrite part_len; lia. Qed.
Lemma cmp_part' z c k n t : u8 z = c -> (k + n <= length t)%nat -> n = 16%nat -> v_cmpeq (v_set1 z) (part k n t) = vm (flags (at_ k c) n t).
Proof. intros <- H Hn. unfold v_set1. rewrite cmpeq_rep', part_flags; auto. rewrite part_len; lia. Qed.

(** ** Masks as numbers *)
Local Open Scope N_scope.

Lemma bits_ext32 a b : (forall i, N.testbit a (N.of_nat i) = N.testbit b (N.of_nat i)) -> a = b.
Proof. intro H. apply N.bits_inj. intro n. specialize (H (N.to_nat n)). rewrite !N2Nat.id in H. exact H. Qed.

Lemma map2_nth {A C D} (f : A -> C -> D) da dc dd x y i : (i < length x)%nat -> length x = length y ->
  nth i (map2 f x y) dd = f (nth i x da) (nth i y dc).
Proof.
  revert y i; induction x as [|a x IH]; intros [|b y] i H1 H2; cbn [length] in *; try lia.
  destruct i as [|i]; [reflexivity|]. cbn [map2 nth]. apply IH; lia.
Qed.

Lemma mask_map2 op f a b : (forall x y i, N.testbit (op x y) i = f (N.testbit x i) (N.testbit y i)) ->
  f false false = false -> length a = length b -> op (mask_of a) (mask_of b) = mask_of (map2 f a b).
Proof.
  intros Hop Hf Hl. apply bits_ext32. intro i. rewrite Hop, !mask_bit.
  destruct (Nat.lt_ge_cases i (length a)) as [H|H].
  - symmetry. apply map2_nth; assumption.
  - rewrite !nth_overflow; try assumption; try lia. rewrite map2_len. lia.
Qed.

Lemma mask_or a b : length a = length b -> N.lor (mask_of a) (mask_of b) = mask_of (map2 orb a b).
Proof. apply mask_map2; [intros; apply N.lor_spec|reflexivity]. Qed.
Lemma mask_and a b : length a = length b -> N.land (mask_of a) (mask_of b) = mask_of (map2 andb a b).
Proof. apply mask_map2; [intros; apply N.land_spec|reflexivity]. Qed.

Lemma mask_high l i : N.of_nat (length l) <= i -> N.testbit (mask_of l) i = false.
Proof. intro H. rewrite <- (N2Nat.id i), mask_bit. apply nth_overflow. lia. Qed.

Lemma mask_shiftl n l : N.shiftl (mask_of l) (N.of_nat n) = mask_of (repeat false n ++ l).
Proof.
  induction n as [|n IH]; [apply N.shiftl_0_r|].
  rewrite Nat2N.inj_succ. cbn [repeat app mask_of]. rewrite <- IH. cbn [N.b2n]. rewrite N.add_0_l.
  rewrite !N.shiftl_mul_pow2, N.pow_succ_r'. lia.
Qed.

Lemma mask_shiftr n l : N.shiftr (mask_of l) (N.of_nat n) = mask_of (skipn n l).
Proof.
  apply bits_ext32. intro i. rewrite N.shiftr_spec', <- Nat2N.inj_add, !mask_bit.
  destruct (Nat.lt_ge_cases (i + n) (length l)) as [H|H].
  - rewrite <- (firstn_skipn n l) at 1. rewrite app_nth2 by (rewrite firstn_length; lia). f_equal. rewrite firstn_length. lia.
  - rewrite !nth_overflow; auto. rewrite skipn_length. lia.
Qed.

Lemma mask_app a b : N.lor (mask_of a) (N.shiftl (mask_of b) (N.of_nat (length a))) = mask_of (a ++ b).
Proof.
  rewrite mask_shiftl. apply bits_ext32. intro i. rewrite N.lor_spec, !mask_bit.
  destruct (Nat.lt_ge_cases i (length a)) as [H|H].
  - rewrite !app_nth1 by (rewrite ?repeat_length; lia). rewrite nth_repeat. apply orb_false_r.
  - rewrite !app_nth2 by (rewrite ?repeat_length; lia). rewrite repeat_length, nth_overflow by lia. reflexivity.
Qed.

Lemma mask_low n l : N.land (mask_of l) (N.ones (N.of_nat n)) = mask_of (firstn n l).
Proof.
  apply bits_ext32. intro i. rewrite N.land_spec, !mask_bit.
  destruct (Nat.lt_ge_cases i n) as [H|H].
  - rewrite N.ones_spec_low by lia. rewrite andb_true_r.
    destruct (Nat.lt_ge_cases i (length l)) as [H2|H2].
    + rewrite <- (firstn_skipn n l) at 1. rewrite app_nth1 by (rewrite firstn_length; lia). reflexivity.
    + rewrite !nth_overflow; auto. rewrite firstn_length. lia.
  - rewrite N.ones_spec_high by lia. rewrite andb_false_r. symmetry. apply nth_overflow. rewrite firstn_length. lia.
Qed.

Lemma mask_uint n l : uint (N.of_nat n) (mask_of l) = mask_of (firstn n l).
Proof. unfold uint. rewrite <- N.land_ones. apply mask_low. Qed.

Lemma mask_zero l : mask_of l = 0 <-> existsb id l = false.
Proof.
  induction l as [|b l IH]; [split; reflexivity|]. cbn [mask_of existsb]. unfold id at 1.
  destruct b; cbn [N.b2n orb]; [split; [lia|discriminate]|]. rewrite <- IH. lia.
Qed.

Lemma mask_eqb0 l : N.eqb (mask_of l) 0 = negb (existsb id l).
Proof.
  destruct (N.eqb_spec (mask_of l) 0) as [H|H].
  - apply mask_zero in H. rewrite H. reflexivity.
  - destruct (existsb id l) eqn:E; [reflexivity|]. apply mask_zero in E. contradiction.
Qed.

Lemma mask_inj a b : length a = length b -> mask_of a = mask_of b -> a = b.
Proof. intros Hl H. apply mask_ext; [exact Hl|]. intros i _. rewrite <- !mask_bit, H. reflexivity. Qed.

Lemma mask_not n l : length l = n -> unot (N.of_nat n) (mask_of l) = mask_of (map negb l).
Proof.
  intro Hn. unfold unot. rewrite mask_uint, firstn_all2 by lia.
  apply bits_ext32. intro i. rewrite N.lxor_spec, !mask_bit.
  destruct (Nat.lt_ge_cases i n) as [H|H].
  - rewrite N.ones_spec_low by lia. rewrite (nth_indep (map negb l) false (negb false)) by (rewrite map_length; lia).
    rewrite map_nth. destruct (nth i l false); reflexivity.
  - rewrite N.ones_spec_high by lia. rewrite !nth_overflow; rewrite ?map_length; auto; lia.
Qed.
