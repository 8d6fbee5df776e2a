(** Flags of a block of characters as masks: counting, the place where the line ends,
    and writing the block in pieces. *)
From Verif Require Import Base BaseLemmas DecMaskSpec DecMaskModel DecMaskProofs DecVec DecVecProofs DecCompact DecSseModel
  EncModel EncSpec EncProofs EncSseModel EncBlock EncVec.
From Coq Require Import ZifyBool ZifyNat ZifyN.
Ltac Zify.zify_post_hook ::= Z.div_mod_to_equations.

(** ** Stores *)

Lemma store_n_put B : forall v p m, wlo B <= p -> p + zlen v <= whi B -> store_n B p v m = Ok (tt, put m p v).
Proof.
  induction v as [|c v IH]; intros p m H1 H2; [reflexivity|].
  rewrite zlen_cons in H2. pose proof (zlen_nonneg v). cbn [store_n put].
  erewrite bind_ok by (apply store_w; lia). apply IH; lia.
Qed.

Lemma put_ext l : forall m m' p, (forall x, m x = m' x) -> forall x, put m p l x = put m' p l x.
Proof.
  induction l as [|c l IH]; intros m m' p H x; [apply H|]. cbn [put]. apply IH. intro y.
  unfold upd. destruct (y =? p); auto.
Qed.

(** The next piece overwrites what was written behind the text so far. *)
Lemma put_next m m1 p o j v : (forall x, m1 x = put m p (o ++ j) x) -> zlen j <= zlen v ->
  forall x, put m1 (p + zlen o) v x = put m p (o ++ v) x.
Proof. intros H Hj x. rewrite <- (put_put m p o j v Hj x). apply put_ext. exact H. Qed.

Lemma put_swap m p a b : forall x, put (put m (p + zlen a) b) p a x = put m p (a ++ b) x.
Proof.
  intro x. rewrite (put_app m p a b).
  destruct (Z_lt_le_dec x (p + zlen a)) as [Hx|Hx].
  - rewrite (put_out (put m p a)) by lia.
    destruct (Z_lt_le_dec x p); [rewrite !put_out by lia; reflexivity|].
    generalize (put_in (put m (p + zlen a) b) p a) (put_in m p a).
    generalize (put (put m (p + zlen a) b) p a) (put m p a).
    intros m1 m2. revert l Hx. generalize p as q. clear. induction a as [|c a IH]; intros q H1 H2 A1 A2.
    + change (zlen (@nil byte)) with 0 in H2. lia.
    + rewrite zlen_cons in H2. cbn [bytes_at] in A1, A2. destruct A1 as [A1 A1'], A2 as [A2 A2'].
      destruct (Z.eq_dec x q) as [->|N]; [congruence|]. apply (IH (q + 1)); auto; lia.
  - rewrite (put_out _ p a) by lia.
    destruct (Z_lt_le_dec x (p + zlen a + zlen b)); [|rewrite !put_out by lia; reflexivity].
    generalize (put_in m (p + zlen a) b) (put_in (put m p a) (p + zlen a) b).
    generalize (put m (p + zlen a) b) (put (put m p a) (p + zlen a) b).
    intros m1 m2. revert l Hx. generalize (p + zlen a) as q. clear. induction b as [|c b IH]; intros q H2 H1 A1 A2.
    + change (zlen (@nil byte)) with 0 in H2. lia.
    + rewrite zlen_cons in H2. cbn [bytes_at] in A1, A2. destruct A1 as [A1 A1'], A2 as [A2 A2'].
      destruct (Z.eq_dec x q) as [->|N]; [congruence|]. apply (IH (q + 1)); auto; lia.
Qed.

(** ** Counting *)

Lemma tot_nkeep fs : tot fs = zlen fs + (zlen fs - nkeep fs).
Proof.
  induction fs as [|f fs IH]; [reflexivity|]. rewrite tot_cons, zlen_cons, nkeep_cons, IH. destruct f; cbn [wid]; lia.
Qed.

Lemma popcount_tot fs : popcount (mask_of fs) = tot fs - zlen fs.
Proof. rewrite popcount_ok, tot_nkeep. lia. Qed.

Lemma tot_repeat n : tot (repeat false n) = Z.of_nat n.
Proof. induction n as [|n IH]; [reflexivity|]. cbn [repeat]. rewrite tot_cons, IH. cbn [wid]. lia. Qed.

Lemma tot_none fs : tot fs = zlen fs -> fs = repeat false (length fs).
Proof.
  induction fs as [|f fs IH]; intro H; [reflexivity|]. rewrite tot_cons, zlen_cons in H. pose proof (tot_range fs).
  destruct f; cbn [wid] in H; [lia|]. cbn [length repeat]. rewrite <- IH by lia. reflexivity.
Qed.

Lemma tot_one fs : tot fs = zlen fs + 1 -> exists n, (n < length fs)%nat /\ fs = repeat false n ++ true :: repeat false (length fs - n - 1).
Proof.
  induction fs as [|f fs IH]; intro H; [cbv in H; congruence|]. rewrite tot_cons, zlen_cons in H. destruct f; cbn [wid] in H.
  - exists 0%nat. cbn [length repeat app]. split; [lia|]. f_equal. rewrite (tot_none fs) at 1 by lia. f_equal. lia.
  - destruct IH as (n & Hn & E); [lia|]. exists (S n). cbn [length repeat app]. split; [lia|]. f_equal. rewrite E at 1. do 3 f_equal.
Qed.

Lemma mask_repeat0 n : mask_of (repeat false n) = 0%N.
Proof. apply mask_zero. induction n; auto. Qed.

Lemma mask_single n k : mask_of (repeat false n ++ true :: repeat false k) = (2 ^ N.of_nat n)%N.
Proof.
  rewrite <- mask_shiftl. cbn [mask_of]. rewrite mask_repeat0. cbn [N.b2n]. rewrite N.shiftl_mul_pow2. lia.
Qed.

Lemma mask_pad l k : mask_of (l ++ repeat false k) = mask_of l.
Proof. rewrite <- mask_app, mask_repeat0, N.shiftl_0_l, N.lor_0_r. reflexivity. Qed.

(** More than one flag, as [mask & (mask - 1)]. *)
Lemma clear_lowest l : N.eqb (N.land (mask_of l) (mask_of l - 1)) 0 = (tot l - zlen l <=? 1).
Proof.
  induction l as [|b l IH]; [reflexivity|]. cbn [mask_of]. rewrite tot_cons, zlen_cons. pose proof (tot_range l). destruct b; cbn [N.b2n wid].
  - replace (1 + 2 * mask_of l - 1)%N with (2 * mask_of l)%N by lia.
    assert (E : N.land (1 + 2 * mask_of l) (2 * mask_of l) = (2 * mask_of l)%N).
    { apply N.bits_inj. intro i. rewrite N.land_spec. destruct (N.eq_dec i 0) as [->|Hi].
      - rewrite N.testbit_even_0. apply andb_false_r.
      - replace i with (N.succ (N.pred i)) by lia. rewrite N.add_comm, N.testbit_odd_succ, N.testbit_even_succ by lia. apply andb_diag. }
    rewrite E. pose proof (mask_eqb0 l) as Hz. rewrite <- (popcount_tot l) in *.
    assert (P : (N.eqb (mask_of l) 0 = true) <-> tot l - zlen l = 0).
    { split; intro HH.
      - apply N.eqb_eq in HH. rewrite <- popcount_tot, HH. reflexivity.
      - rewrite (tot_none l), mask_repeat0 by lia. reflexivity. }
    destruct (N.eqb (mask_of l) 0) eqn:Em; lia.
  - replace (0 + 2 * mask_of l)%N with (2 * mask_of l)%N by lia.
    replace (1 + tot l - (1 + zlen l)) with (tot l - zlen l) by lia. replace (1 + tot l - (zlen l + 1)) with (tot l - zlen l) by lia.
    rewrite <- IH. destruct (N.eq_dec (mask_of l) 0) as [->|Hm]; [reflexivity|].
    assert (E : N.land (2 * mask_of l) (2 * mask_of l - 1) = (2 * N.land (mask_of l) (mask_of l - 1))%N).
    { replace (2 * mask_of l - 1)%N with (2 * (mask_of l - 1) + 1)%N by lia.
      apply N.bits_inj. intro i. rewrite N.land_spec. destruct (N.eq_dec i 0) as [->|Hi].
      - rewrite !N.testbit_even_0. reflexivity.
      - replace i with (N.succ (N.pred i)) by lia. rewrite N.testbit_odd_succ, !N.testbit_even_succ, N.land_spec by lia. reflexivity. }
    rewrite E. destruct (N.eqb (N.land (mask_of l) (mask_of l - 1)) 0) eqn:E2; lia.
Qed.

Lemma many_bits l : (length l <= 32)%nat -> negb (N.eqb (N.land (mask_of l) (uint 32 (mask_of l + 0xffffffff))) 0) = (1 <? tot l - zlen l).
Proof.
  intro Hl. assert (Hlt : (mask_of l < 2 ^ 32)%N).
  { eapply N.lt_le_trans; [apply mask_lt|]. apply N.pow_le_mono_r; lia. }
  assert (E : N.land (mask_of l) (uint 32 (mask_of l + 0xffffffff)) = N.land (mask_of l) (mask_of l - 1)).
  { destruct (N.eq_dec (mask_of l) 0) as [->|Hm]; [reflexivity|]. f_equal. unfold uint.
    replace (mask_of l + 0xffffffff)%N with (mask_of l - 1 + 1 * 2 ^ 32)%N by (change (2 ^ 32)%N with 4294967296%N; lia).
    rewrite N.mod_add by discriminate. apply N.mod_small. lia. }
  rewrite E, clear_lowest. lia.
Qed.

Lemma bits_plus8 fs : length fs = 8%nat -> bits_set_plus8 (mask_of fs) = tot fs.
Proof.
  intro H. do 8 (destruct fs as [|[] fs]; [discriminate H| |]; try discriminate H). all: destruct fs; [|discriminate H]; reflexivity.
Qed.

Lemma tot_split n fs : tot fs = tot (firstn n fs) + tot (skipn n fs).
Proof. rewrite <- tot_app, firstn_skipn. reflexivity. Qed.

(** Counting with the table, byte by byte. *)
Lemma count_bytes l : (length l <= 32)%nat ->
  bits_set_plus8 (N.land (mask_of l) 0xff) + bits_set_plus8 (N.land (N.shiftr (mask_of l) 8) 0xff)
  + bits_set_plus8 (N.land (N.shiftr (mask_of l) 16) 0xff) + bits_set_plus8 (N.land (N.shiftr (mask_of l) 24) 0xff) - 32
  = tot l - zlen l.
Proof.
  intro H. assert (E : exists k, length (l ++ repeat false k) = 32%nat) by (exists (32 - length l)%nat; rewrite app_length, repeat_length; lia).
  destruct E as (k & E). assert (Et : tot l - zlen l = tot (l ++ repeat false k) - 32).
  { rewrite tot_app, tot_repeat. rewrite app_length, repeat_length in E. unfold zlen. lia. }
  rewrite Et, <- (mask_pad l k). clear Et H. revert E. generalize (l ++ repeat false k). clear. intros l E.
  change 8%N with (N.of_nat 8). change 16%N with (N.of_nat 16). change 24%N with (N.of_nat 24).
  change 0xff%N with (N.ones (N.of_nat 8)). rewrite !mask_shiftr, !mask_low.
  rewrite !bits_plus8 by (rewrite firstn_length, ?skipn_length; lia).
  rewrite (tot_split 8 l), (tot_split 8 (skipn 8 l)), (tot_split 8 (skipn 8 (skipn 8 l))).
  assert (S : forall a b (u : list bool), skipn a (skipn b u) = skipn (a + b) u).
  { clear. induction b as [|b IH]; intro u; [rewrite Nat.add_0_r; reflexivity|]. destruct u as [|x u]; [rewrite !skipn_nil; reflexivity|].
    rewrite Nat.add_succ_r. cbn [skipn]. apply IH. }
  rewrite !S. change (8 + 8)%nat with 16%nat. change (8 + (8 + 8))%nat with 24%nat. change (8 + 16)%nat with 24%nat.
  rewrite (firstn_all2 (n := 8) (skipn 24 l)) by (rewrite skipn_length; lia). lia.
Qed.

(** ** Where the line ends *)

Lemma cut_0 fs : cut fs 0 = (0, 0).
Proof. destruct fs as [|[] fs]; reflexivity. Qed.

Lemma cut_app a : forall b T, 0 <= T ->
  cut (a ++ b) T = if T <=? tot a then cut a T else let '(k, q) := cut b (T - tot a) in (zlen a + k, tot a + q).
Proof.
  induction a as [|f a IH]; intros b T HT.
  - cbn [app]. change (tot []) with 0. change (zlen (@nil bool)) with 0. destruct (T <=? 0) eqn:E.
    + replace T with 0 by lia. rewrite !cut_0. reflexivity.
    + rewrite Z.sub_0_r. destruct (cut b T); f_equal; lia.
  - cbn [app cut]. rewrite tot_cons, zlen_cons. pose proof (wid_range f). pose proof (tot_range a). pose proof (zlen_nonneg a).
    destruct (T <? wid f) eqn:E1.
    + destruct (T <=? wid f + tot a) eqn:E2; [reflexivity|lia].
    + rewrite IH by lia. destruct (T - wid f <=? tot a) eqn:E2; destruct (T <=? wid f + tot a) eqn:E3; try lia; [reflexivity|].
      replace (T - wid f - tot a) with (T - (wid f + tot a)) by lia. destruct (cut b (T - (wid f + tot a))). f_equal; lia.
Qed.

Lemma cut_repeat n : forall T, 0 <= T <= Z.of_nat n -> cut (repeat false n) T = (T, T).
Proof.
  induction n as [|n IH]; intros T HT; [replace T with 0 by lia; reflexivity|]. cbn [repeat cut wid].
  destruct (T <? 1) eqn:E; [f_equal; lia|]. rewrite IH by lia. f_equal; lia.
Qed.

Lemma cut_single n k T : 0 <= T <= Z.of_nat n + 2 + Z.of_nat k ->
  cut (repeat false n ++ true :: repeat false k) T =
  if T <=? Z.of_nat n then (T, T) else if T =? Z.of_nat n + 1 then (T - 1, T - 1) else (T - 1, T).
Proof.
  intro H. rewrite cut_app by lia. rewrite tot_repeat. unfold zlen. rewrite repeat_length.
  destruct (T <=? Z.of_nat n) eqn:E1; [rewrite cut_repeat by lia; reflexivity|]. cbn [cut wid].
  destruct (T - Z.of_nat n <? 2) eqn:E2.
  - destruct (T =? Z.of_nat n + 1) eqn:E3; [|lia]. f_equal; lia.
  - destruct (T =? Z.of_nat n + 1) eqn:E3; [lia|]. rewrite cut_repeat by lia. f_equal; lia.
Qed.

(** Which bytes of the text are the escape character. *)
Definition eqs (fs : list bool) : list bool := flat_map (fun f : bool => if f then [true; false] else [false]) fs.

Lemma eqs_len fs : zlen (eqs fs) = tot fs.
Proof. induction fs as [|f fs IH]; [reflexivity|]. cbn [eqs flat_map]. fold (eqs fs). rewrite zlen_app, IH, tot_cons. destruct f; reflexivity. Qed.

Lemma eqs_app a b : eqs (a ++ b) = eqs a ++ eqs b.
Proof. apply flat_map_app. Qed.

Lemma eqs_tot fs : tot (eqs fs) = 2 * tot fs - zlen fs.
Proof. induction fs as [|f fs IH]; [reflexivity|]. cbn [eqs flat_map]. fold (eqs fs). rewrite tot_app, IH, tot_cons, zlen_cons. destruct f; rewrite ?tot_cons; change (tot []) with 0; cbn [wid]; lia. Qed.

Definition bz1 (b : bool) : Z := if b then 1 else 0.

(** The end of the line from the escape characters at and after the last column. *)
Lemma cut_eqs fs : forall T, 1 <= T <= tot fs ->
  let r := skipn (Z.to_nat (T - 1)) (eqs fs) in
  let b := bz1 (nth 0 r false) in
  zlen r = tot fs - T + 1 /\
  cut fs T = (zlen fs + (tot r - zlen r) - (tot fs - T) - b, T - b).
Proof.
  induction fs as [|f fs IH]; intros T HT r b; [change (tot []) with 0 in HT; lia|].
  rewrite tot_cons in HT. pose proof (wid_range f). pose proof (eqs_len fs) as El. pose proof (eqs_tot fs) as Et.
  cbn [cut]. rewrite tot_cons, zlen_cons.
  destruct (T - 1 <? wid f) eqn:E1.
  - (* the last column is within the text of this character *)
    destruct f; cbn [wid] in *.
    + assert (T = 1 \/ T = 2) as [-> | ->] by lia.
      * change (Z.to_nat (1 - 1)) with 0%nat in r. cbn [skipn eqs flat_map app] in r. fold (eqs fs) in r. subst r b. cbn [nth bz1].
        rewrite !zlen_cons, !tot_cons. cbn [wid]. rewrite El, Et. split; [lia|]. change (1 <? 2) with true. cbv iota. f_equal; lia.
      * change (Z.to_nat (2 - 1)) with 1%nat in r. cbn [skipn eqs flat_map app] in r. fold (eqs fs) in r. subst r b. cbn [nth bz1].
        rewrite !zlen_cons, !tot_cons. cbn [wid]. rewrite El, Et. split; [lia|]. change (2 <? 2) with false. cbv iota.
        change (2 - 2) with 0. rewrite cut_0. f_equal; lia.
    + assert (T = 1) as -> by lia.
      change (Z.to_nat (1 - 1)) with 0%nat in r. cbn [skipn eqs flat_map app] in r. fold (eqs fs) in r. subst r b. cbn [nth bz1].
      rewrite !zlen_cons, !tot_cons. cbn [wid]. rewrite El, Et. split; [lia|]. change (1 <? 1) with false. cbv iota.
      change (1 - 1) with 0. rewrite cut_0. f_equal; lia.
  - destruct (IH (T - wid f)) as [I1 I2]; [lia|]. cbv zeta in I1, I2.
    assert (Er : r = skipn (Z.to_nat (T - wid f - 1)) (eqs fs)).
    { subst r. replace (Z.to_nat (T - 1)) with (Z.to_nat (T - wid f - 1) + Z.to_nat (wid f))%nat by lia.
      cbn [eqs flat_map]. fold (eqs fs). destruct f; cbn [wid].
      - change (Z.to_nat 2) with 2%nat. rewrite Nat.add_comm. reflexivity.
      - change (Z.to_nat 1) with 1%nat. rewrite Nat.add_comm. reflexivity. }
    rewrite <- Er in I1, I2. fold b in I2. split; [lia|].
    destruct (T <? wid f) eqn:E2; [lia|]. rewrite I2. f_equal; lia.
Qed.

Lemma land1_mask l : N.land (mask_of l) 1 = N.b2n (nth 0 l false).
Proof. rewrite <- (mask_bit l 0). change (N.of_nat 0) with 0%N. change 1%N with (N.ones 1). rewrite N.land_ones, N.pow_1_r, <- N.bit0_mod. reflexivity. Qed.
