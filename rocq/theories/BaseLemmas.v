(** Generic lemmas about the vocabulary of [Base]. *)
From Verif Require Import Base.
From Coq Require Import ZifyBool ZifyNat ZifyN.
Ltac Zify.zify_post_hook ::= Z.div_mod_to_equations.

(** ** Bytes *)

Lemma bz_range b : 0 <= bz b < 256.
Proof. unfold bz. pose proof (Byte.to_N_bounded b). lia. Qed.

Lemma bz_u8 z : bz (u8 z) = z mod 256.
Proof.
  unfold u8. destruct (Byte.of_N (Z.to_N (z mod 256))) eqn:E.
  - apply Byte.to_of_N in E. unfold bz. rewrite E. lia.
  - apply Byte.of_N_None_iff in E. lia.
Qed.

Lemma u8_bz b : u8 (bz b) = b.
Proof. destruct b; vm_compute; reflexivity. Qed.

Lemma bz_inj a b : bz a = bz b -> a = b.
Proof. intro H. rewrite <- (u8_bz a), <- (u8_bz b), H. reflexivity. Qed.

Lemma u8_mod z : u8 (z mod 256) = u8 z.
Proof. apply bz_inj. rewrite !bz_u8. lia. Qed.

Lemma u8_eq z1 z2 : z1 mod 256 = z2 mod 256 -> u8 z1 = u8 z2.
Proof. intro H. rewrite <- (u8_mod z1), <- (u8_mod z2), H. reflexivity. Qed.

Lemma beq_true a b : beq a b = true <-> a = b.
Proof.
  unfold beq. split.
  - apply Byte.byte_dec_bl.
  - apply Byte.byte_dec_lb.
Qed.

Lemma beq_false a b : beq a b = false <-> a <> b.
Proof.
  rewrite <- beq_true. destruct (beq a b); split; congruence.
Qed.

Lemma beq_refl a : beq a a = true.
Proof. apply beq_true; reflexivity. Qed.

Lemma beq_spec a b : reflect (a = b) (beq a b).
Proof. destruct (beq a b) eqn:E; constructor; [apply beq_true|apply beq_false]; auto. Qed.

(** ** Lists *)

Lemma zlen_nonneg {A} (l : list A) : 0 <= zlen l.
Proof. unfold zlen; lia. Qed.
Lemma zlen_nil {A} : zlen (@nil A) = 0.
Proof. reflexivity. Qed.
Lemma zlen_cons {A} (a : A) l : zlen (a :: l) = zlen l + 1.
Proof. unfold zlen; simpl length; lia. Qed.
Lemma zlen_app {A} (l k : list A) : zlen (l ++ k) = zlen l + zlen k.
Proof. unfold zlen; rewrite app_length; lia. Qed.
#[global] Hint Rewrite @zlen_nil @zlen_cons @zlen_app : zlen.

Lemma list_split_len {A} (l : list A) n :
  0 <= n <= zlen l -> exists a b, l = a ++ b /\ zlen a = n.
Proof.
  intro H. exists (firstn (Z.to_nat n) l), (skipn (Z.to_nat n) l).
  split. symmetry; apply firstn_skipn.
  unfold zlen in *. rewrite firstn_length. lia.
Qed.

(** ** Memory *)

Lemma upd_same m a b : upd m a b a = b.
Proof. unfold upd. rewrite Z.eqb_refl. reflexivity. Qed.
Lemma upd_other m a b x : x <> a -> upd m a b x = m x.
Proof. unfold upd. intro H. destruct (x =? a) eqn:E; [lia|reflexivity]. Qed.

Lemma bytes_at_app m a l k :
  bytes_at m a (l ++ k) <-> bytes_at m a l /\ bytes_at m (a + zlen l) k.
Proof.
  revert a; induction l as [|x l IH]; intro a; simpl.
  - rewrite zlen_nil, Z.add_0_r. tauto.
  - rewrite IH, zlen_cons. replace (a + 1 + zlen l) with (a + (zlen l + 1)) by lia. tauto.
Qed.

Lemma bytes_at_ext m m' a l :
  (forall x, a <= x < a + zlen l -> m' x = m x) -> bytes_at m a l -> bytes_at m' a l.
Proof.
  revert a; induction l as [|b l IH]; intros a H; simpl; auto.
  intros [H1 H2]. rewrite zlen_cons in H. pose proof (zlen_nonneg l). split.
  - rewrite H; auto; lia.
  - apply IH; auto. intros x Hx. apply H. lia.
Qed.

Lemma bytes_at_upd m a l x b :
  (x < a \/ a + zlen l <= x) -> bytes_at m a l -> bytes_at (upd m x b) a l.
Proof.
  intros Hx. apply bytes_at_ext. intros y Hy. apply upd_other. lia.
Qed.

Lemma bytes_at_snoc m a l b :
  bytes_at m a l -> m (a + zlen l) = b -> bytes_at m a (l ++ [b]).
Proof. intros. rewrite bytes_at_app. split; auto. simpl. auto. Qed.

Lemma bytes_at_snoc_upd m a l b p :
  p = a + zlen l -> bytes_at m a l -> bytes_at (upd m p b) a (l ++ [b]).
Proof.
  intros -> H. apply bytes_at_snoc.
  - apply bytes_at_upd; auto. lia.
  - apply upd_same.
Qed.

Lemma bytes_at_read m a l : bytes_at m a l -> read_n m a (length l) = l.
Proof.
  revert a; induction l as [|b l IH]; intro a; simpl; auto.
  intros [H1 H2]. rewrite H1, IH; auto.
Qed.

Lemma read_bytes_at m a n : bytes_at m a (read_n m a n).
Proof. revert a; induction n as [|n IH]; intro a; simpl; auto. Qed.

Lemma length_read_n m a n : length (read_n m a n) = n.
Proof. revert a; induction n as [|n IH]; intro a; simpl; auto. Qed.

Lemma bytes_at_inj m a l k :
  bytes_at m a l -> bytes_at m a k -> length l = length k -> l = k.
Proof.
  intros H1 H2 H3. apply bytes_at_read in H1. apply bytes_at_read in H2. congruence.
Qed.

Lemma bytes_at_mem_of a l : bytes_at (mem_of a l) a l.
Proof.
  assert (G : forall k l pre, length pre = k ->
      bytes_at (mem_of a (pre ++ l)) (a + Z.of_nat k) l).
  { intros k l0; revert k; induction l0 as [|b l0 IH]; intros k pre Hk; simpl; auto.
    split.
    - unfold mem_of. rewrite app_length; simpl length.
      destruct ((a <=? a + Z.of_nat k) && (a + Z.of_nat k <? a + Z.of_nat (length pre + S (length l0)))) eqn:E; [|lia].
      replace (Z.to_nat (a + Z.of_nat k - a)) with (length pre) by lia.
      rewrite nth_middle. reflexivity.
    - replace (pre ++ b :: l0) with ((pre ++ [b]) ++ l0) by (rewrite <- app_assoc; reflexivity).
      replace (a + Z.of_nat k + 1) with (a + Z.of_nat (S k)) by lia.
      apply IH. rewrite app_length; simpl; lia. }
  specialize (G 0%nat l [] eq_refl). simpl in G. rewrite Z.add_0_r in G. exact G.
Qed.

(** ** Running the monad *)

Lemma bind_ret {A C} (a : A) (f : A -> M C) m : bind (ret a) f m = f a m.
Proof. reflexivity. Qed.

Lemma bind_ok {A C} (x : M A) (f : A -> M C) m a m' :
  x m = Ok (a, m') -> bind x f m = f a m'.
Proof. unfold bind. intros ->. reflexivity. Qed.

Lemma bind_assoc {A C D} (x : M A) (f : A -> M C) (g : C -> M D) m :
  bind (bind x f) g m = bind x (fun a => bind (f a) g) m.
Proof. unfold bind. destruct (x m) as [[a m']| |]; reflexivity. Qed.

Lemma load_r B a m : rlo B <= a < rhi B -> load B a m = Ok (m a, m).
Proof. intro H. unfold load, can_read. destruct (_ || _) eqn:E; auto; lia. Qed.
Lemma load_w B a m : wlo B <= a < whi B -> load B a m = Ok (m a, m).
Proof. intro H. unfold load, can_read. destruct (_ || _) eqn:E; auto; lia. Qed.
Lemma store_w B a b m : wlo B <= a < whi B -> store B a b m = Ok (tt, upd m a b).
Proof. intro H. unfold store, can_write. destruct (_ && _) eqn:E; auto; lia. Qed.
Lemma chk_int_ok z m : INT_MIN <= z <= INT_MAX -> chk_int z m = Ok (z, m).
Proof. intro H. unfold chk_int, in_int. destruct (_ && _) eqn:E; auto; lia. Qed.
