(** Lemmas about the pieces of the NEON kernels of the decoder. *)
From Verif Require Import Base BaseLemmas EncSpec DecSpec DecModel DecProofs DecMaskSpec DecMaskModel DecMaskProofs
  DecSimdModel DecSimdSpec DecVec DecKernelModel DecBlock DecKernel DecVecProofs DecBlockFacts DecSseModel DecCompact DecSseProofs
  EncSseModel EncNeonModel EncNeonVec DecRvvProofs DecNeonModel.
From Coq Require Import ZifyBool ZifyNat ZifyN.
Ltac Zify.zify_post_hook ::= Z.div_mod_to_equations.

(** ** Vectors position by position *)

(** 16 characters from position [k] on, and 16 flags. *)
Definition bv (C : nat -> byte) (k : nat) : vec := map (fun j => C (k + j)%nat) (seq 0 16).
Definition cv (F : nat -> bool) (k : nat) : vec := vm (map (fun j => F (k + j)%nat) (seq 0 16)).
(** The vectors of a block, the characters taken [k] further on. *)
Definition bvs (C : nat -> byte) (k h : nat) : list vec := map (fun i => bv C (16 * i + k)) (seq 0 h).
Definition cvs (F : nat -> bool) (h : nat) : list vec := map (fun i => cv F (16 * i)) (seq 0 h).
Definition row (F : nat -> bool) (n : nat) : list bool := map F (seq 0 n).

Lemma row_len F n : length (row F n) = n.
Proof. unfold row. rewrite map_length, seq_length. reflexivity. Qed.

Lemma row_ext F G n : (forall p, (p < n)%nat -> F p = G p) -> row F n = row G n.
Proof. intro H. apply map_ext_in. intros p Hp. apply in_seq in Hp. apply H. lia. Qed.

Lemma row_nth F n p : (p < n)%nat -> nth p (row F n) false = F p.
Proof.
  intro H. unfold row. rewrite (nth_indep _ false (F 0%nat)) by (rewrite map_length, seq_length; lia).
  rewrite map_nth, seq_nth by lia. reflexivity.
Qed.

Lemma flags_row f F n t : (forall p, (p < n)%nat -> f (skipn p t) = F p) -> flags f n t = row F n.
Proof.
  intro H. apply (nth_ext _ _ false false); rewrite ?flags_len, ?row_len; [reflexivity|].
  intros p Hp. rewrite flags_nth, row_nth by exact Hp. apply H. exact Hp.
Qed.

Lemma at_C t k c p : (k + p < length t)%nat -> at_ k c (skipn p t) = beq (nth (k + p) t x00) c.
Proof.
  intro H. unfold at_. assert (E : nth_error (skipn p t) k = nth_error t (k + p)).
  { clear. revert t. induction p as [|p IH]; intro t; [rewrite Nat.add_0_r; reflexivity|].
    rewrite Nat.add_succ_r. destruct t; [destruct k; reflexivity|]. cbn [skipn nth_error]. apply IH. }
  rewrite E, (nth_error_nth' t x00) by exact H. reflexivity.
Qed.

Lemma part_bv t k : (k + 16 <= length t)%nat -> part k 16 t = bv (fun p => nth p t x00) k.
Proof.
  intro H. apply (nth_ext _ _ x00 (nth k t x00)); [rewrite part_len by exact H; reflexivity|].
  rewrite part_len by exact H. intros j Hj. unfold part, bv.
  replace (nth k t x00) with ((fun j => nth (k + j) t x00) 0%nat) by (cbv beta; f_equal; lia).
  rewrite (map_nth (fun j => nth (k + j) t x00) (seq 0 16) 0%nat), seq_nth by lia. cbn [Nat.add].
  rewrite <- (firstn_skipn k t) at 2. rewrite app_nth2 by (rewrite firstn_length; lia). rewrite firstn_length.
  replace (k + j - Nat.min k (length t))%nat with j by lia.
  rewrite <- (firstn_skipn 16 (skipn k t)) at 2. rewrite app_nth1 by (rewrite firstn_length, skipn_length; lia). reflexivity.
Qed.

Lemma bv_len C k : length (bv C k) = 16%nat. Proof. reflexivity. Qed.
Lemma cv_len F k : length (cv F k) = 16%nat. Proof. reflexivity. Qed.

Lemma cmp_bvs C k h z c : u8 z = c -> map (fun v => v_cmpeq v (v_set1 z)) (bvs C k h) = cvs (fun p => beq (C (k + p)%nat) c) h.
Proof.
  intros <-. unfold bvs, cvs. rewrite map_map. apply map_ext. intro i. unfold v_set1. rewrite cmpeq_rep by reflexivity.
  unfold bv, cv. f_equal. rewrite map_map. apply map_ext. intro j. do 2 f_equal. lia.
Qed.

Lemma and_cvs F G h : map2 v_and (cvs F h) (cvs G h) = cvs (fun p => F p && G p) h.
Proof.
  unfold cvs. generalize (seq 0 h). induction l as [|i l IH]; [reflexivity|]. cbn [map map2]. f_equal; [|exact IH].
  unfold cv. rewrite vm_and. reflexivity.
Qed.

Definition two_four (h : nat) : Prop := h = 2%nat \/ h = 4%nat.

Lemma exts_bvs C k h : two_four h -> (k <= 4)%nat -> exts k (bvs C 0 h) ++ [bv C (16 * (h - 1) + k)] = bvs C k h.
Proof. intros [->| ->] H; do 5 (destruct k as [|k]; [reflexivity|]); lia. Qed.

Lemma exts_cvs F k h : two_four h -> (k <= 4)%nat -> exts k (cvs F h) ++ [cv F (16 * (h - 1) + k)] = cvs (fun p => F (k + p)%nat) h.
Proof. intros [->| ->] H; do 5 (destruct k as [|k]; [reflexivity|]); lia. Qed.

Lemma last_bvs C h : two_four h -> last (bvs C 0 h) [] = bv C (16 * (h - 1)).
Proof. intros [->| ->]; reflexivity. Qed.
Lemma last_cvs F h : two_four h -> last (cvs F h) [] = cv F (16 * (h - 1)).
Proof. intros [->| ->]; reflexivity. Qed.

Lemma concat_bvs C h : two_four h -> concat (bvs C 0 h) = map C (seq 0 (16 * h)).
Proof. intros [->| ->]; reflexivity. Qed.

(** ** Is there a byte set? *)

Definition nzb (b : byte) : bool := negb (beq b x00).

Lemma lane_zero v : N.eqb (lane v) 0 = negb (existsb nzb v).
Proof.
  induction v as [|b v IH]; [reflexivity|]. cbn [lane existsb]. unfold nzb at 1.
  destruct (beq_spec b x00) as [->|H]; cbn [negb orb].
  - rewrite <- IH. change (Z.to_N (bz x00)) with 0%N. generalize (lane v). intro a. lia.
  - assert (bz b <> 0) by (destruct b; try discriminate; congruence). pose proof (bz_range b). lia.
Qed.

Lemma b_or_nz x y : nzb (b_or x y) = nzb x || nzb y.
Proof.
  assert (Z : forall b, beq b x00 = (bz b =? 0)) by (intros []; reflexivity).
  unfold nzb. rewrite !Z. unfold b_or. rewrite bz_u8.
  pose proof (bz_range x) as Hx. pose proof (bz_range y) as Hy.
  assert (Hl : 0 <= Z.lor (bz x) (bz y) < 256).
  { split; [apply Z.lor_nonneg; lia|]. destruct (Z.eq_dec (Z.lor (bz x) (bz y)) 0) as [->|Hn]; [lia|].
    change 256 with (2 ^ 8). apply Z.log2_lt_pow2; [assert (0 <= Z.lor (bz x) (bz y)) by (apply Z.lor_nonneg; lia); lia|].
    rewrite Z.log2_lor by lia.
    assert (L : forall b, 0 <= b < 256 -> Z.log2 b < 8).
    { intros b Hb. destruct (Z.eq_dec b 0) as [->|]; [reflexivity|]. apply Z.log2_lt_pow2; [lia|]. exact (proj2 Hb). }
    pose proof (L _ Hx). pose proof (L _ Hy). lia. }
  rewrite Z.mod_small by exact Hl. pose proof (Z.lor_eq_0_iff (bz x) (bz y)). lia.
Qed.

Lemma v_or_nz : forall x y, length x = length y -> existsb nzb (v_or x y) = existsb nzb x || existsb nzb y.
Proof.
  induction x as [|a x IH]; intros [|b y] H; cbn [length] in H; try lia; [reflexivity|].
  cbn [v_or map2 existsb]. fold (v_or x y). rewrite b_or_nz, IH by lia. destruct (nzb a), (nzb b), (existsb nzb x), (existsb nzb y); reflexivity.
Qed.

Lemma nonzero_ok ne v : length v = 16%nat -> n_nonzero ne v = existsb nzb v.
Proof.
  intro H. unfold n_nonzero.
  transitivity (existsb nzb (firstn 8 v ++ skipn 8 v)); [|rewrite firstn_skipn; reflexivity]. rewrite existsb_app.
  assert (H1 : length (firstn 8 v) = 8%nat) by (rewrite firstn_length; lia).
  assert (H2 : length (skipn 8 v) = 8%nat) by (rewrite skipn_length; lia).
  set (a := firstn 8 v) in *. set (b := skipn 8 v) in *. clearbody a b.
  destruct (n_a64 ne).
  - pose proof (lane_zero a) as Ha. pose proof (lane_zero b) as Hb.
    destruct (existsb nzb a), (existsb nzb b); cbn [negb orb] in *; try reflexivity; destruct (lane a), (lane b); try discriminate; try reflexivity;
      apply negb_true_iff, N.eqb_neq; lia.
  - assert (E : existsb nzb a || existsb nzb b = existsb nzb (v_or a b)) by (symmetry; apply v_or_nz; lia).
    rewrite E. set (t := v_or a b).
    transitivity (existsb nzb (firstn 4 t ++ skipn 4 t)); [|rewrite firstn_skipn; reflexivity]. rewrite existsb_app.
    pose proof (lane_zero (firstn 4 t)) as Ha. pose proof (lane_zero (skipn 4 t)) as Hb.
    destruct (existsb nzb (firstn 4 t)), (existsb nzb (skipn 4 t)); cbn [negb orb] in *; lia.
Qed.

Lemma nz_vm l : existsb nzb (vm l) = existsb id l.
Proof. induction l as [|b l IH]; [reflexivity|]. cbn [vm map existsb]. unfold id at 1. rewrite <- IH. destruct b; reflexivity. Qed.

Lemma row_app F a b : row F (a + b) = row F a ++ row (fun p => F (a + p)%nat) b.
Proof.
  unfold row. rewrite seq_app, map_app. f_equal. cbn [Nat.add]. rewrite <- (map_map (fun p => (a + p)%nat) F). f_equal.
  clear F. revert a. induction b as [|b IH]; intro a; [reflexivity|]. cbn [seq map]. f_equal; [lia|].
  rewrite (IH (S a)), <- seq_shift, map_map. apply map_ext. intro. lia.
Qed.

Lemma any_cvs ne F h : two_four h -> n_nonzero ne (or_vecs (cvs F h)) = existsb id (row F (16 * h)).
Proof.
  intro H. rewrite nonzero_ok by (destruct H as [->| ->]; reflexivity).
  destruct H as [->| ->].
  - change (or_vecs (cvs F 2)) with (v_or (cv F 0) (cv F 16)). rewrite v_or_nz by reflexivity. unfold cv. rewrite !nz_vm.
    change (16 * 2)%nat with (16 + 16)%nat. rewrite row_app, existsb_app. reflexivity.
  - change (or_vecs (cvs F 4)) with (v_or (v_or (cv F 0) (cv F 16)) (v_or (cv F 32) (cv F 48))). rewrite !v_or_nz by reflexivity. unfold cv. rewrite !nz_vm.
    change (16 * 4)%nat with (16 + (16 + (16 + 16)))%nat. rewrite !row_app, !existsb_app, !orb_assoc. reflexivity.
Qed.

(** ** Merged vectors *)

Definition mb (l : list bool) : byte :=
  match l with
  | [a; b] => b_bsl (u8 13) (bm a) (bm b)
  | [a; b; c; d] => b_bsl (u8 61) (b_bsl (u8 121) (bm a) (bm b)) (b_bsl (u8 121) (bm c) (bm d))
  | _ => x00
  end.
Definition mg (F : nat -> bool) (h : nat) : vec := map (fun j => mb (map (fun i => F (16 * i + j)%nat) (seq 0 h))) (seq 0 16).

Lemma merge_cvs F h : two_four h -> merge_cmp (cvs F h) = mg F h.
Proof. intros [->| ->]; reflexivity. Qed.

Lemma mg2 (op : byte -> byte -> byte) (f : bool -> bool -> bool) F G h : two_four h ->
  (forall a b c d, op (mb [a; b]) (mb [c; d]) = mb [f a c; f b d]) ->
  (forall a b c d a' b' c' d', op (mb [a; b; c; d]) (mb [a'; b'; c'; d']) = mb [f a a'; f b b'; f c c'; f d d']) ->
  map2 op (mg F h) (mg G h) = mg (fun p => f (F p) (G p)) h.
Proof.
  intros H H2 H4. unfold mg. generalize (seq 0 16). induction l as [|j l IH]; [reflexivity|]. cbn [map map2]. f_equal; [|exact IH].
  destruct H as [->| ->]; cbn [seq map]; auto.
Qed.

Lemma mg_and F G h : two_four h -> v_and (mg F h) (mg G h) = mg (fun p => F p && G p) h.
Proof.
  intro H. apply mg2; [exact H| |].
  - intros [] [] [] []; reflexivity.
  - intros [] [] [] [] [] [] [] []; reflexivity.
Qed.
Lemma mg_or F G h : two_four h -> v_or (mg F h) (mg G h) = mg (fun p => F p || G p) h.
Proof.
  intro H. apply mg2; [exact H| |].
  - intros [] [] [] []; reflexivity.
  - intros [] [] [] [] [] [] [] []; reflexivity.
Qed.

Lemma existsb_row F n : existsb id (row F n) = true <-> exists p, (p < n)%nat /\ F p = true.
Proof.
  unfold row. rewrite existsb_exists. split.
  - intros (b & Hb & E). apply in_map_iff in Hb as (p & <- & Hp). apply in_seq in Hp. exists p. split; [lia|exact E].
  - intros (p & Hp & E). exists (F p). split; [|exact E]. apply in_map_iff. exists p. split; [reflexivity|]. apply in_seq. lia.
Qed.

Lemma mb_nz h (f : nat -> bool) : two_four h -> nzb (mb (map f (seq 0 h))) = existsb id (row f h).
Proof.
  intros [->| ->]; cbn [seq map row existsb]; unfold id.
  - destruct (f 0%nat), (f 1%nat); reflexivity.
  - destruct (f 0%nat), (f 1%nat), (f 2%nat), (f 3%nat); reflexivity.
Qed.

Lemma mg_any ne F h : two_four h -> n_nonzero ne (mg F h) = existsb id (row F (16 * h)).
Proof.
  intro H. rewrite nonzero_ok by reflexivity. apply eq_true_iff_eq. rewrite existsb_row. unfold mg. rewrite existsb_exists. split.
  - intros (b & Hb & E). apply in_map_iff in Hb as (j & <- & Hj). apply in_seq in Hj. rewrite mb_nz in E by exact H.
    apply existsb_row in E as (i & Hi & E). exists (16 * i + j)%nat. split; [|exact E]. destruct H as [->| ->]; lia.
  - intros (p & Hp & E). eexists. split; [apply in_map_iff; exists (p mod 16)%nat; split; [reflexivity|apply in_seq; lia]|].
    rewrite mb_nz by exact H. apply existsb_row. exists (p / 16)%nat. split; [lia|]. rewrite <- E. f_equal. lia.
Qed.

Lemma sri_pair a0 a1 b0 b1 x y : v_sri16 (a0 :: a1 :: x) (b0 :: b1 :: y) 8 = b1 :: a1 :: v_sri16 x y 8.
Proof.
  unfold v_sri16. cbn [lanes16]. cbv zeta. change (2 ^ (16 - 8)) with 256. change (2 ^ 8) with 256.
  pose proof (bz_range a0). pose proof (bz_range a1). pose proof (bz_range b0). pose proof (bz_range b1).
  replace ((bz a0 + 256 * bz a1) / 256) with (bz a1) by lia. replace ((bz b0 + 256 * bz b1) / 256) with (bz b1) by lia.
  replace ((bz a1 * 256 + bz b1) / 256) with (bz a1) by lia.
  assert (E : u8 (bz a1 * 256 + bz b1) = b1).
  { apply bz_inj. rewrite bz_u8. lia. }
  rewrite E, u8_bz. reflexivity.
Qed.

Lemma sri_mg F G h : two_four h -> v_sri16 (mg G h) (mg F h) 8 = mg (fun p => if Nat.even p then F (S p) else G p) h.
Proof.
  intros [->| ->]; unfold mg; cbn [seq map]; rewrite !sri_pair; reflexivity.
Qed.

Lemma eqy16_bvs C h : two_four h ->
  map (fun v => v_cmpeq16 v (v_set1_16 0x793d)) (bvs C 4 h) =
  cvs (fun p => let q := (if Nat.even p then p + 4 else p + 3)%nat in beq (C q) EQS && beq (C (S q)) YY) h.
Proof.
  intro H.
  assert (P : forall a b, (if bz a + 256 * bz b =? 0x793d then 65535 else 0) = if beq a EQS && beq b YY then 65535 else 0).
  { intros a b. pose proof (bz_range a). pose proof (bz_range b).
    destruct (beq_spec a EQS) as [->|Ha]; destruct (beq_spec b YY) as [->|Hb]; cbn [andb]; try reflexivity.
    - destruct (bz EQS + 256 * bz b =? 0x793d) eqn:E; [|reflexivity]. exfalso. apply Hb. apply bz_inj. change (bz YY) with 121. change (bz EQS) with 61 in E. lia.
    - destruct (bz a + 256 * bz YY =? 0x793d) eqn:E; [|reflexivity]. exfalso. apply Ha. apply bz_inj. change (bz EQS) with 61. change (bz YY) with 121 in E. lia.
    - destruct (bz a + 256 * bz b =? 0x793d) eqn:E; [|reflexivity]. exfalso. apply Ha. apply bz_inj. change (bz EQS) with 61. lia. }
  assert (Q : forall a b x y, v_cmpeq16 (a :: b :: x) (u8 0x793d :: u8 (0x793d / 256) :: y)
    = bm (beq a EQS && beq b YY) :: bm (beq a EQS && beq b YY) :: v_cmpeq16 x y).
  { intros a b x y. unfold v_cmpeq16. cbn [lanes16]. cbv zeta.
    change (bz (u8 0x793d) + 256 * bz (u8 (0x793d / 256))) with 0x793d. rewrite P. destruct (beq a EQS && beq b YY); reflexivity. }
  unfold bvs, cvs. rewrite map_map. apply map_ext_in. intros i Hi.
  assert (Ev : forall k, Nat.even (16 * i + 2 * k) = true).
  { intro k. replace (16 * i + 2 * k)%nat with (2 * (8 * i + k))%nat by lia. rewrite Nat.even_mul. reflexivity. }
  assert (Od : forall k, Nat.even (16 * i + S (2 * k)) = false).
  { intro k. replace (16 * i + S (2 * k))%nat with (S (16 * i + 2 * k)) by lia. rewrite Nat.even_succ, <- Nat.negb_even, Ev. reflexivity. }
  unfold bv, cv, v_set1_16. cbn [seq map repeat flat_map app vm].
  rewrite !Q.
  assert (X : forall k, bm (let q := (if Nat.even (16 * i + 2 * k) then 16 * i + 2 * k + 4 else 16 * i + 2 * k + 3)%nat in beq (C q) EQS && beq (C (S q)) YY)
    = bm (beq (C (16 * i + 4 + 2 * k)%nat) EQS && beq (C (16 * i + 4 + S (2 * k))%nat) YY)).
  { intro k. rewrite Ev. cbv zeta. f_equal. f_equal; do 2 f_equal; lia. }
  assert (Y : forall k, bm (let q := (if Nat.even (16 * i + S (2 * k)) then 16 * i + S (2 * k) + 4 else 16 * i + S (2 * k) + 3)%nat in beq (C q) EQS && beq (C (S q)) YY)
    = bm (beq (C (16 * i + 4 + 2 * k)%nat) EQS && beq (C (16 * i + 4 + S (2 * k))%nat) YY)).
  { intro k. rewrite Od. cbv zeta. f_equal. f_equal; do 2 f_equal; lia. }
  repeat (apply (f_equal2 cons); [symmetry; first [exact (X 0%nat)|exact (Y 0%nat)|exact (X 1%nat)|exact (Y 1%nat)|exact (X 2%nat)|exact (Y 2%nat)|exact (X 3%nat)|exact (Y 3%nat)|exact (X 4%nat)|exact (Y 4%nat)|exact (X 5%nat)|exact (Y 5%nat)|exact (X 6%nat)|exact (Y 6%nat)|exact (X 7%nat)|exact (Y 7%nat)]|]).
  reflexivity.
Qed.

(** ** Masks *)

Lemma padd_app a : forall b, Nat.even (length a) = true -> v_padd (a ++ b) = v_padd a ++ v_padd b.
Proof.
  assert (G : forall n a b, (length a <= n)%nat -> Nat.even (length a) = true -> v_padd (a ++ b) = v_padd a ++ v_padd b).
  { induction n as [|n IH]; intros [|x [|y t]] b Hn He; cbn [length] in Hn; try lia; try reflexivity; try discriminate.
    cbn [app v_padd]. rewrite IH by (exact He || lia). reflexivity. }
  intros b He. apply (G (length a)); [lia|exact He].
Qed.

(** The bits in groups of 8. *)
Fixpoint chop (k : nat) (l : list bool) : list (list bool) :=
  match k with O => [] | S k => firstn 8 l :: chop k (skipn 8 l) end.

Lemma concat_chop k : forall l, length l = (8 * k)%nat -> concat (chop k l) = l.
Proof.
  induction k as [|k IH]; intros l H; [destruct l; [reflexivity|discriminate]|]. cbn [chop concat].
  rewrite IH by (rewrite skipn_length; lia). apply firstn_skipn.
Qed.

Lemma chop_all k : forall l, length l = (8 * k)%nat -> Forall (fun o => length o = 8%nat) (chop k l).
Proof.
  induction k as [|k IH]; intros l H; constructor; [rewrite firstn_length; lia|]. apply IH. rewrite skipn_length. lia.
Qed.

Lemma bo_low l : bo (firstn 8 l) = bo l.
Proof.
  unfold bo. rewrite <- (mask_uint 8). unfold uint. apply bz_inj. rewrite !bz_u8. change (2 ^ N.of_nat 8)%N with 256%N. generalize (mask_of l). intro a. lia.
Qed.

Lemma bytes_chop k : forall l, bytes_of k (mask_of l) = map bo (chop k l).
Proof.
  induction k as [|k IH]; intro l; [reflexivity|]. cbn [bytes_of chop map]. f_equal; [symmetry; apply bo_low|].
  change 8%N with (N.of_nat 8). rewrite mask_shiftr. apply IH.
Qed.

Lemma bytes_of_len k : forall n, length (bytes_of k n) = k.
Proof. induction k as [|k IH]; intro n; [reflexivity|]. cbn [bytes_of length]. rewrite IH. reflexivity. Qed.

Lemma lane_bytes k : forall n, lane (bytes_of k n) = (n mod 2 ^ (8 * N.of_nat k))%N.
Proof.
  induction k as [|k IH]; intro n; [cbn; rewrite N.mod_1_r; reflexivity|]. cbn [bytes_of lane]. rewrite IH, bz_u8, N.shiftr_div_pow2.
  replace (8 * N.of_nat (S k))%N with (8 + 8 * N.of_nat k)%N by lia. rewrite N.pow_add_r. change (2 ^ 8)%N with 256%N.
  assert (Hp : (2 ^ (8 * N.of_nat k) <> 0)%N) by (apply N.pow_nonzero; discriminate).
  rewrite N.mod_mul_r by (discriminate || exact Hp). f_equal. lia.
Qed.

Lemma lane_mask k l : length l = (8 * k)%nat -> lane (bytes_of k (mask_of l)) = mask_of l.
Proof.
  intro H. rewrite lane_bytes. apply N.mod_small. pose proof (mask_lt l) as Hm. rewrite H in Hm. replace (8 * N.of_nat k)%N with (N.of_nat (8 * k)) by lia. exact Hm.
Qed.

Lemma byte_op (zop : Z -> Z -> Z) (nop : N -> N -> N) (f : bool -> bool -> bool) a b : f false false = false ->
  (forall x y i, 0 <= i -> Z.testbit (zop x y) i = f (Z.testbit x i) (Z.testbit y i)) ->
  (forall x y i, N.testbit (nop x y) i = f (N.testbit x i) (N.testbit y i)) ->
  u8 (zop (bz (u8 (Z.of_N a))) (bz (u8 (Z.of_N b)))) = u8 (Z.of_N (nop a b)).
Proof.
  intros F0 HZ HN. apply bz_inj. rewrite !bz_u8. change 256 with (2 ^ 8). apply Z.bits_inj'. intros i Hi.
  destruct (Z.lt_ge_cases i 8) as [Hl|Hl].
  - rewrite !Z.mod_pow2_bits_low, HZ, !Z.mod_pow2_bits_low by lia. rewrite <- (Z2N.id i) by exact Hi. rewrite !Z.testbit_of_N, HN. reflexivity.
  - rewrite !Z.mod_pow2_bits_high by lia. reflexivity.
Qed.

Lemma or_bytes k : forall a b, v_or (bytes_of k a) (bytes_of k b) = bytes_of k (N.lor a b).
Proof.
  induction k as [|k IH]; intros a b; [reflexivity|]. cbn [bytes_of v_or map2]. fold (v_or (bytes_of k (N.shiftr a 8)) (bytes_of k (N.shiftr b 8))).
  rewrite IH, N.shiftr_lor. f_equal. unfold b_or. apply (byte_op Z.lor N.lor orb); [reflexivity|intros; apply Z.lor_spec|intros; apply N.lor_spec].
Qed.

Lemma bic_bytes k : forall a b, v_bic (bytes_of k a) (bytes_of k b) = bytes_of k (N.ldiff a b).
Proof.
  induction k as [|k IH]; intros a b; [reflexivity|]. cbn [bytes_of v_bic map2]. fold (v_bic (bytes_of k (N.shiftr a 8)) (bytes_of k (N.shiftr b 8))).
  rewrite IH, N.shiftr_ldiff. f_equal. unfold b_andnot. rewrite <- (byte_op Z.ldiff N.ldiff (fun x y => x && negb y)) by (reflexivity || (intros; apply Z.ldiff_spec; assumption) || (intros; apply N.ldiff_spec)).
  rewrite Z.land_comm, <- Z.ldiff_land. reflexivity.
Qed.

Lemma pack_cvs F h : two_four h -> v_padd (n_pack (cvs F h)) = bytes_of (2 * h) (mask_of (row F (16 * h))).
Proof.
  intro H. rewrite bytes_chop. unfold row, cvs, cv, n_pack, vm, v_and, bit_select.
  destruct H as [-> | ->]; cbn [Nat.mul Nat.add seq map map2 firstn skipn app v_padd chop]; rewrite !low4, !high4, !join8; reflexivity.
Qed.

Lemma pack_len F h : two_four h -> length (n_pack (cvs F h)) = (4 * h)%nat.
Proof. intros [-> | ->]; reflexivity. Qed.

Lemma even4 h : Nat.even (4 * h) = true.
Proof. rewrite Nat.even_mul. reflexivity. Qed.

(** ** Resolving escapes *)

Lemma tst_bits o : length o = 8%nat -> v_tst (repeat (bo o) 8) (map u8 [1; 2; 4; 8; 16; 32; 64; 128]) = vm o.
Proof. intro H. eight o H. destruct b, b0, b1, b2, b3, b4, b5, b6; reflexivity. Qed.

Lemma tst_two o1 o2 : length o1 = 8%nat -> length o2 = 8%nat -> v_tst (repeat (bo o1) 8 ++ repeat (bo o2) 8) bit_select = vm (o1 ++ o2).
Proof.
  intros H1 H2. rewrite vm_app, <- (tst_bits o1 H1), <- (tst_bits o2 H2). reflexivity.
Qed.

(** The bits in groups of 16. *)
Fixpoint chop16 (k : nat) (l : list bool) : list (list bool) :=
  match k with O => [] | S k => firstn 16 l :: chop16 k (skipn 16 l) end.

Lemma concat_chop16 k : forall l, length l = (16 * k)%nat -> concat (chop16 k l) = l.
Proof.
  induction k as [|k IH]; intros l H; [destruct l; [reflexivity|discriminate]|]. cbn [chop16 concat].
  rewrite IH by (rewrite skipn_length; lia). apply firstn_skipn.
Qed.

Lemma chop16_all k : forall l, length l = (16 * k)%nat -> Forall (fun o => length o = 16%nat) (chop16 k l).
Proof.
  induction k as [|k IH]; intros l H; constructor; [rewrite firstn_length; lia|]. apply IH. rewrite skipn_length. lia.
Qed.

Definition nh (ne : neond) : nat := if n_a64 ne then 4%nat else 2%nat.

Lemma nh_24 ne : two_four (nh ne). Proof. unfold nh, two_four. destruct (n_a64 ne); auto. Qed.
Lemma nw_nh ne : nw ne = (16 * nh ne)%nat. Proof. unfold nw, nh. destruct (n_a64 ne); reflexivity. Qed.
Lemma nw8 ne : (nw ne / 8)%nat = (2 * nh ne)%nat. Proof. unfold nw, nh. destruct (n_a64 ne); reflexivity. Qed.

Lemma oct_split (l : list bool) n : length l = (8 + n)%nat -> exists o t, l = o ++ t /\ length o = 8%nat /\ length t = n.
Proof. intro H. exists (firstn 8 l), (skipn 8 l). rewrite firstn_skipn, firstn_length, skipn_length. repeat split; lia. Qed.

Lemma spread_ok ne l z : length l = nw ne -> length z = (nw ne / 8)%nat ->
  map (fun v => v_tst v bit_select) (n_spread ne (bytes_of (nw ne / 8) (mask_of l) ++ z)) = map vm (chop16 (nh ne) l).
Proof.
  intros Hl Hz. rewrite bytes_chop. unfold n_spread, nh, nw in *. destruct (n_a64 ne).
  - change (64 / 8)%nat with 8%nat in *.
    destruct (oct_split l 56 Hl) as (o0 & l0 & -> & H0 & L0). destruct (oct_split l0 48 L0) as (o1 & l1 & -> & H1 & L1).
    destruct (oct_split l1 40 L1) as (o2 & l2 & -> & H2 & L2). destruct (oct_split l2 32 L2) as (o3 & l3 & -> & H3 & L3).
    destruct (oct_split l3 24 L3) as (o4 & l4 & -> & H4 & L4). destruct (oct_split l4 16 L4) as (o5 & l5 & -> & H5 & L5).
    destruct (oct_split l5 8 L5) as (o6 & l6 & -> & H6 & L6). clear Hl L0 L1 L2 L3 L4 L5.
    assert (E : chop 8 (o0 ++ o1 ++ o2 ++ o3 ++ o4 ++ o5 ++ o6 ++ l6) = [o0; o1; o2; o3; o4; o5; o6; l6]).
    { eight o0 H0. eight o1 H1. eight o2 H2. eight o3 H3. eight o4 H4. eight o5 H5. eight o6 H6. eight l6 L6. reflexivity. }
    assert (E2 : chop16 4 (o0 ++ o1 ++ o2 ++ o3 ++ o4 ++ o5 ++ o6 ++ l6) = [o0 ++ o1; o2 ++ o3; o4 ++ o5; o6 ++ l6]).
    { eight o0 H0. eight o1 H1. eight o2 H2. eight o3 H3. eight o4 H4. eight o5 H5. eight o6 H6. eight l6 L6. reflexivity. }
    rewrite E, E2. clear E E2. eight z Hz. cbn [map]. rewrite <- !tst_two by assumption. reflexivity.
  - change (32 / 8)%nat with 4%nat in *.
    destruct (oct_split l 24 Hl) as (o0 & l0 & -> & H0 & L0). destruct (oct_split l0 16 L0) as (o1 & l1 & -> & H1 & L1).
    destruct (oct_split l1 8 L1) as (o2 & l2 & -> & H2 & L2). clear Hl L0 L1.
    assert (E : chop 4 (o0 ++ o1 ++ o2 ++ l2) = [o0; o1; o2; l2]).
    { eight o0 H0. eight o1 H1. eight o2 H2. eight l2 L2. reflexivity. }
    assert (E2 : chop16 2 (o0 ++ o1 ++ o2 ++ l2) = [o0 ++ o1; o2 ++ l2]).
    { eight o0 H0. eight o1 H1. eight o2 H2. eight l2 L2. reflexivity. }
    rewrite E, E2. clear E E2. cbn [map]. rewrite <- !tst_two by assumption. reflexivity.
Qed.

Lemma sub_sel : forall d k n, length d = n -> length k = n ->
  v_sub d (v_bsl (vm k) (repeat (u8 (64 + 42)) n) (repeat (u8 42) n)) = map2 dec1 d k.
Proof.
  induction d as [|c d IH]; intros [|b k] n Hd Hk; cbn [length] in Hd, Hk; subst n; try discriminate; [reflexivity|].
  cbn [repeat]. unfold v_sub, v_bsl, vm. cbn [map2 map fst snd]. rewrite bsl_bm. f_equal.
  - destruct b; [apply sub_esc|apply sub_off].
  - apply (IH k (length d)); [reflexivity|lia].
Qed.

Lemma sub_sels : forall ds ks, Forall (fun d => length d = 16%nat) ds -> Forall (fun k => length k = 16%nat) ks -> length ds = length ks ->
  concat (map2 (fun d v => v_sub d (v_bsl v (v_set1 (64 + 42)) (v_set1 42))) ds (map vm ks)) = map2 dec1 (concat ds) (concat ks).
Proof.
  induction ds as [|d ds IH]; intros [|k ks] Hd Hk Hl; try discriminate; [reflexivity|].
  inversion_clear Hd. inversion_clear Hk. cbn [map map2 concat]. rewrite map2_app by lia. rewrite <- IH by (try assumption; cbn [length] in Hl; lia).
  f_equal. apply sub_sel; assumption.
Qed.

Lemma sub_first esc d k : length d = 16%nat -> length k = 15%nat ->
  v_sub d (v_bsl (u8 42 :: vm k) (v_set1 (64 + 42)) (roff esc 16)) = map2 dec1 d (esc :: k).
Proof.
  intros Hd Hk. destruct d as [|c d]; [discriminate|]. unfold v_set1, roff. cbn [repeat Nat.sub].
  unfold v_sub, v_bsl. cbn [map2 fst snd]. f_equal.
  - transitivity (b_sub c (u8 (if esc then 106 else 42))); [destruct esc; reflexivity|]. destruct esc; [apply sub_esc|apply sub_off].
  - apply (sub_sel d k 15); [cbn [length] in Hd; lia|exact Hk].
Qed.

Lemma row_S F n : row F (S n) = F 0%nat :: row (fun p => F (S p)) n.
Proof. unfold row. cbn [seq map]. f_equal. rewrite <- seq_shift, map_map. reflexivity. Qed.

Lemma lead_ok F esc C h : two_four h ->
  concat (map2 v_sub (bvs C 0 h) (map2 (fun e o => v_bsl e (v_set1 (64 + 42)) o) (exts 15 (v_set1 42 :: cvs F h))
    (roff esc 16 :: repeat (v_set1 42) (length (bvs C 0 h) - 1))))
  = map2 dec1 (map C (seq 0 (16 * h))) (firstn (16 * h) (esc :: row F (16 * h))).
Proof.
  intro H.
  set (K := map (fun i => map (fun j => F (16 * i + 15 + j)%nat) (seq 0 16)) (seq 0 (h - 1))).
  set (D := map (fun i => bv C (16 * i)) (seq 1 (h - 1))).
  transitivity (v_sub (bv C 0) (v_bsl (u8 42 :: vm (row F 15)) (v_set1 (64 + 42)) (roff esc 16)) ++
    concat (map2 (fun d v => v_sub d (v_bsl v (v_set1 (64 + 42)) (v_set1 42))) D (map vm K))).
  { destruct H as [-> | ->]; reflexivity. }
  rewrite sub_first by reflexivity. rewrite sub_sels.
  - rewrite <- map2_app by reflexivity. destruct H as [-> | ->]; reflexivity.
  - apply Forall_forall. intros v Hv. apply in_map_iff in Hv as (i & <- & _). reflexivity.
  - apply Forall_forall. intros v Hv. apply in_map_iff in Hv as (i & <- & _). reflexivity.
  - unfold D, K. rewrite !map_length, !seq_length. reflexivity.
Qed.

Lemma plain_ok esc C h : two_four h ->
  concat (map2 v_sub (bvs C 0 h) (roff esc 16 :: repeat (v_set1 42) (length (bvs C 0 h) - 1)))
  = map2 dec1 (map C (seq 0 (16 * h))) (esc :: repeat false (16 * h - 1)).
Proof.
  intro H. rewrite <- (idle_rvv esc (map C (seq 0 (16 * h))) (16 * h)).
  - destruct H as [-> | ->]; reflexivity.
  - rewrite map_length, seq_length. reflexivity.
  - destruct H as [-> | ->]; lia.
Qed.

(** ** Storing the characters kept *)

Fixpoint cnt_ok (k : nat) (rms : list (list bool)) (counts : N) : Prop :=
  match rms with
  | [] => True
  | r :: t => Z.of_N (N.land counts 0xff) = nkeep r /\ cnt_ok k t (N.shiftr counts (N.of_nat k))
  end.

Lemma tbl_lut v : forall l u w, v = u ++ w -> length l = length w -> (length v <= 16)%nat ->
  v_tbl v (lut_fill (length l) (zlen u) (mask_of l)) = pick l w.
Proof.
  induction l as [|b l IH]; intros u w Hv Hl Hn; [destruct w; reflexivity|].
  destruct w as [|x w]; [discriminate Hl|]. cbn [length lut_fill pick].
  assert (E : N.shiftr (mask_of (b :: l)) 1 = mask_of l) by (change 1%N with (N.of_nat 1); rewrite mask_shiftr; reflexivity).
  assert (E1 : N.land (mask_of (b :: l)) 1 = N.b2n b).
  { change 1%N with (N.ones (N.of_nat 1)). rewrite mask_low. cbn. destruct b; reflexivity. }
  rewrite E, E1. unfold v_tbl in *. rewrite map_app.
  replace (zlen u + 1) with (zlen (u ++ [x])) by (autorewrite with zlen; lia).
  rewrite (IH (u ++ [x]) w); [|rewrite <- app_assoc; exact Hv|cbn in Hl; lia|exact Hn].
  destruct b; [reflexivity|]. cbn [N.b2n N.eqb map app]. f_equal.
  assert (Hu : 0 <= zlen u < 16). { subst v. rewrite app_length in Hn. cbn in Hn. unfold zlen. lia. }
  rewrite bz_u8. rewrite Z.mod_small by lia.
  replace (zlen u <? Z.of_nat (length v)) with true by (subst v; rewrite app_length; unfold zlen; cbn [length]; lia).
  unfold zlen. rewrite Nat2Z.id. subst v. rewrite app_nth2, Nat.sub_diag by lia. reflexivity.
Qed.

Lemma tbl_app v a b : v_tbl v (a ++ b) = v_tbl v a ++ v_tbl v b.
Proof. unfold v_tbl. apply map_app. Qed.

Definition lut_good (k : nat) (lut : N -> vec) : Prop :=
  forall l d, (k <= length l)%nat -> length d = k ->
  exists z, v_tbl d (lut (mask_of l)) = pick (firstn k l) d ++ z /\ length (pick (firstn k l) d ++ z) = k.

Lemma store_ok k lut B : lut_good k lut -> forall ds rms p counts m,
  Forall (fun d => length d = k) ds -> Forall (fun r => length r = k) rms -> length ds = length rms -> cnt_ok k rms counts ->
  wlo B <= p -> p + Z.of_nat (k * length ds) <= whi B ->
  exists m', n_store k lut B p ds (mask_of (concat rms)) counts m = Ok (p + nkeep (concat rms), m') /\
    bytes_at m' p (pick (concat rms) (concat ds)) /\
    (forall q, ~ (p <= q < p + Z.of_nat (k * length ds)) -> m' q = m q).
Proof.
  intros HL. induction ds as [|d ds IH]; intros [|r rms] p counts m Hd Hr Hl Hc Hw1 Hw2; try discriminate.
  { exists m. cbn [n_store concat]. split; [unfold ret; do 2 f_equal; unfold nkeep, zlen; cbn; lia|]. split; [exact I|auto]. }
  inversion_clear Hd as [|? ? Hd1 Hd2]. inversion_clear Hr as [|? ? Hr1 Hr2]. cbn [length] in Hl, Hw2. destruct Hc as [Hc1 Hc2].
  cbn [n_store concat].
  destruct (HL (r ++ concat rms) d) as (z & Ez & Lz); [rewrite app_length; lia|exact Hd1|].
  rewrite firstn_app, firstn_all2, Hr1, Nat.sub_diag, firstn_O, app_nil_r in Ez, Lz by lia.
  pose proof (pick_len r d ltac:(lia)) as Hpk. pose proof (nkeep_range r) as Hnr. assert (Hrk : zlen r = Z.of_nat k) by (unfold zlen; lia).
  destruct (store_n_ok B (v_tbl d (lut (mask_of (r ++ concat rms)))) p m Hw1) as (m1 & S1 & B1 & F1).
  { rewrite Ez. unfold zlen. rewrite Lz. lia. }
  erewrite bind_ok by exact S1.
  assert (Hsh : N.shiftr (mask_of (r ++ concat rms)) (N.of_nat k) = mask_of (concat rms)).
  { rewrite mask_shiftr, <- Hr1, skipn_app, skipn_all, Nat.sub_diag. reflexivity. }
  rewrite Hsh, Hc1.
  destruct (IH rms (p + nkeep r) (N.shiftr counts (N.of_nat k)) m1) as (m2 & S2 & B2 & F2); try assumption; [lia|lia|lia|].
  exists m2. split; [|split].
  - rewrite S2, nkeep_app. do 2 f_equal. lia.
  - rewrite pick_app by lia. apply bytes_at_app. split.
    + rewrite Ez in B1. apply bytes_at_app in B1 as [B1 _]. eapply bytes_at_ext; [|exact B1]. intros q Hq. apply F2. lia.
    + rewrite Hpk. exact B2.
  - intros q Hq. rewrite F2 by (cbn [length] in Hq; lia). apply F1. rewrite Ez. unfold zlen. rewrite Lz. cbn [length] in Hq. lia.
Qed.

Lemma lut_fill_le n : forall j k, (length (lut_fill n j k) <= n)%nat.
Proof.
  induction n as [|n IH]; intros j k; [cbn; lia|]. cbn [lut_fill]. rewrite app_length. specialize (IH (j + 1) (N.shiftr k 1)).
  destruct (N.eqb _ 0); cbn [length]; lia.
Qed.

Lemma lut_ok n l v : length l = n -> length v = n -> (n <= 16)%nat ->
  exists z, v_tbl v (lut_fill n 0 (mask_of l) ++ repeat x80 (n - length (lut_fill n 0 (mask_of l)))) = pick l v ++ z /\ length (pick l v ++ z) = n.
Proof.
  intros Hl Hv Hn. pose proof (tbl_lut v l [] v eq_refl ltac:(lia) ltac:(lia)) as H. rewrite Hl in H. change (zlen []) with 0 in H.
  rewrite tbl_app, H. eexists. split; [reflexivity|]. unfold v_tbl. rewrite app_length, map_length, repeat_length.
  rewrite <- H. unfold v_tbl. rewrite map_length. pose proof (lut_fill_le n 0 (mask_of l)). lia.
Qed.

Lemma lut16_good : lut_good 16 (fun mask => compact_lut (N.land mask 0x7fff)).
Proof.
  intros l v Hl Hv. change 0x7fff%N with (N.ones (N.of_nat 15)). rewrite mask_low.
  replace (mask_of (firstn 15 l)) with (mask_of (firstn 15 l ++ [false])) by (rewrite mask_snoc; cbn [N.b2n]; rewrite N.mul_0_l, N.add_0_r; reflexivity).
  destruct (lut_ok 16 (firstn 15 l ++ [false]) v) as (z & E & Hz); [rewrite app_length, firstn_length; cbn [length]; lia|exact Hv|lia|].
  destruct (pick_lut15 (firstn 16 l) v) as [y Ey]; [rewrite firstn_length; lia|exact Hv|].
  rewrite firstn_firstn in Ey. change (Nat.min 15 16) with 15%nat in Ey.
  exists (y ++ z). unfold compact_lut. cbv zeta. rewrite E. rewrite Ey in *. rewrite <- app_assoc in *. auto.
Qed.

Lemma lut8_good : lut_good 8 (fun mask => compact_lut8 (N.land mask 0xff)).
Proof.
  intros l v Hl Hv. change 0xff%N with (N.ones (N.of_nat 8)). rewrite mask_low. apply lut_ok; [rewrite firstn_length; lia|exact Hv|lia].
Qed.

(** ** Counting the characters kept *)

Lemma cnt_octs k l : length l = (8 * k)%nat ->
  v_cnt (bytes_of k (mask_of l)) = map (fun o => u8 (8 - nkeep o)) (chop k l).
Proof.
  intro H. rewrite bytes_chop. unfold v_cnt. rewrite map_map. apply map_ext_in. intros o Ho.
  pose proof (chop_all k l H) as Ha. rewrite Forall_forall in Ha. specialize (Ha o Ho). rewrite bo_N, popcount_ok by exact Ha.
  f_equal. unfold zlen. lia.
Qed.

(** Bytes as a number. *)
Fixpoint val (l : list N) : N := match l with [] => 0 | x :: t => x + 256 * val t end%N.
Definition kp (o : list bool) : N := Z.to_N (nkeep o).

Lemma nkeep8 o : length o = 8%nat -> 0 <= nkeep o <= 8.
Proof. intro H. pose proof (nkeep_range o) as R. unfold zlen in R. lia. Qed.

Lemma lane_rest os : Forall (fun o => length o = 8%nat) os ->
  (lane (map (fun o => u8 (8 - nkeep o)) os) + val (map kp os) = val (repeat 8 (length os)))%N.
Proof.
  induction 1 as [|o os Ho Hs IH]; [reflexivity|]. cbn [map lane val length repeat]. rewrite bz_u8. unfold kp at 1.
  pose proof (nkeep8 o Ho). rewrite Z.mod_small by lia. lia.
Qed.

Lemma val_lt os : Forall (fun o => length o = 8%nat) os -> (val (map kp os) < 2 ^ (8 * N.of_nat (length os)))%N.
Proof.
  induction 1 as [|o os Ho Hs IH]; [reflexivity|]. cbn [map val length]. pose proof (nkeep8 o Ho). unfold kp at 1.
  replace (8 * N.of_nat (S (length os)))%N with (8 + 8 * N.of_nat (length os))%N by lia. rewrite N.pow_add_r. change (2 ^ 8)%N with 256%N. lia.
Qed.

Lemma uint_sub w a c r : (c + r = a -> r < 2 ^ w -> c <= 2 ^ w -> uint w (a + (2 ^ w - c)) = r)%N.
Proof.
  intros H1 H2 H3. unfold uint. replace (a + (2 ^ w - c))%N with (r + 1 * 2 ^ w)%N by lia.
  rewrite N.mod_add by (apply N.pow_nonzero; discriminate). apply N.mod_small. exact H2.
Qed.

Lemma land255 a b : (a < 256)%N -> N.land (a + 256 * b) 255 = a.
Proof. intro H. change 255%N with (N.ones 8). rewrite N.land_ones. change (2 ^ 8)%N with 256%N. lia. Qed.

Lemma shr8 a b : (a < 256)%N -> N.shiftr (a + 256 * b) 8 = b.
Proof. intro H. rewrite N.shiftr_div_pow2. change (2 ^ 8)%N with 256%N. lia. Qed.

Lemma shr16 a b c : (a < 256)%N -> (b < 256)%N -> N.shiftr (a + 256 * (b + 256 * c)) 16 = c.
Proof. intros H H'. rewrite N.shiftr_div_pow2. change (2 ^ 16)%N with 65536%N. lia. Qed.

Lemma cnt8_ok os : Forall (fun o => length o = 8%nat) os -> cnt_ok 8 os (val (map kp os)).
Proof.
  induction 1 as [|o os Ho Hs IH]; [exact I|]. cbn [map val cnt_ok]. pose proof (nkeep8 o Ho) as R.
  assert (Hk : (kp o < 256)%N) by (unfold kp; lia). rewrite land255, shr8 by exact Hk. split; [unfold kp; lia|exact IH].
Qed.

Lemma firstn_map2 {A C D} (f : A -> C -> D) k : forall a b, firstn k (map2 f a b) = map2 f (firstn k a) (firstn k b).
Proof. induction k as [|k IH]; intros [|x a] [|y b]; try reflexivity. cbn [map2 firstn]. rewrite IH. reflexivity. Qed.

Lemma val8_sum a0 a1 a2 a3 a4 a5 a6 a7 : (a0 <= 8 -> a1 <= 8 -> a2 <= 8 -> a3 <= 8 -> a4 <= 8 -> a5 <= 8 -> a6 <= 8 -> a7 <= 8 ->
  uint 64 (val [a0; a1; a2; a3; a4; a5; a6; a7] + N.shiftr (val [a0; a1; a2; a3; a4; a5; a6; a7]) 8) =
  val [a0 + a1; a1 + a2; a2 + a3; a3 + a4; a4 + a5; a5 + a6; a6 + a7; a7])%N.
Proof.
  intros. cbn [val]. rewrite shr8 by lia. unfold uint. rewrite N.mod_small; [lia|]. change (2 ^ 64)%N with 18446744073709551616%N. lia.
Qed.

Lemma compact_ok ne B p ds rm packed m : length rm = nw ne -> Forall (fun d => length d = 16%nat) ds -> length ds = nh ne ->
  firstn (2 * nh ne) packed = bytes_of (2 * nh ne) (mask_of rm) -> wlo B <= p -> p + Z.of_nat (nw ne) <= whi B ->
  exists m', n_compact ne B p ds (mask_of rm) packed m = Ok (p + nkeep rm, m') /\
    bytes_at m' p (pick rm (concat ds)) /\ (forall q, ~ (p <= q < p + Z.of_nat (nw ne)) -> m' q = m q).
Proof.
  intros Hr Hd Hdl Hp Hw1 Hw2. unfold n_compact, nh, nw in *. destruct (n_a64 ne).
  - change (2 * 4)%nat with 8%nat in *. rewrite Hp. rewrite cnt_octs by exact Hr.
    pose proof (chop_all 8 rm Hr) as Ha. pose proof (lane_rest _ Ha) as Hs. pose proof (val_lt _ Ha) as Hv.
    assert (Hc : uint 64 (0x0808080808080808 + (2 ^ 64 - lane (map (fun o => u8 (8 - nkeep o)) (chop 8 rm)))) = val (map kp (chop 8 rm))).
    { apply uint_sub; [|exact Hv|].
      - rewrite Hs. reflexivity.
      - assert (val (repeat 8%N (length (chop 8 rm))) = 0x0808080808080808)%N as E by reflexivity. rewrite E in Hs.
        change (2 ^ 64)%N with 18446744073709551616%N. lia. }
    rewrite Hc. clear Hc Hs Hv.
    destruct (store_ok 16 _ B lut16_good ds (chop16 4 rm) p (uint 64 (val (map kp (chop 8 rm)) + N.shiftr (val (map kp (chop 8 rm))) 8)) m) as (m' & E1 & E2 & E3).
    + exact Hd.
    + apply chop16_all. exact Hr.
    + exact Hdl.
    + destruct (oct_split rm 56 Hr) as (o0 & l0 & -> & H0 & L0). destruct (oct_split l0 48 L0) as (o1 & l1 & -> & H1 & L1).
      destruct (oct_split l1 40 L1) as (o2 & l2 & -> & H2 & L2). destruct (oct_split l2 32 L2) as (o3 & l3 & -> & H3 & L3).
      destruct (oct_split l3 24 L3) as (o4 & l4 & -> & H4 & L4). destruct (oct_split l4 16 L4) as (o5 & l5 & -> & H5 & L5).
      destruct (oct_split l5 8 L5) as (o6 & l6 & -> & H6 & L6). clear Hr L0 L1 L2 L3 L4 L5 Hp Ha.
      assert (E : chop 8 (o0 ++ o1 ++ o2 ++ o3 ++ o4 ++ o5 ++ o6 ++ l6) = [o0; o1; o2; o3; o4; o5; o6; l6]).
      { eight o0 H0. eight o1 H1. eight o2 H2. eight o3 H3. eight o4 H4. eight o5 H5. eight o6 H6. eight l6 L6. reflexivity. }
      assert (E2 : chop16 4 (o0 ++ o1 ++ o2 ++ o3 ++ o4 ++ o5 ++ o6 ++ l6) = [o0 ++ o1; o2 ++ o3; o4 ++ o5; o6 ++ l6]).
      { eight o0 H0. eight o1 H1. eight o2 H2. eight o3 H3. eight o4 H4. eight o5 H5. eight o6 H6. eight l6 L6. reflexivity. }
      rewrite E, E2. cbn [map]. pose proof (nkeep8 _ H0). pose proof (nkeep8 _ H1). pose proof (nkeep8 _ H2). pose proof (nkeep8 _ H3).
      pose proof (nkeep8 _ H4). pose proof (nkeep8 _ H5). pose proof (nkeep8 _ H6). pose proof (nkeep8 _ L6).
      clear E E2. rewrite val8_sum by (unfold kp; lia). cbn [val cnt_ok]. rewrite !nkeep_app.
      change (N.of_nat 16) with 16%N.
      assert (K : forall o, length o = 8%nat -> (kp o <= 8)%N) by (intros o Ho; pose proof (nkeep8 o Ho); unfold kp; lia).
      pose proof (K _ H0). pose proof (K _ H1). pose proof (K _ H2). pose proof (K _ H3). pose proof (K _ H4). pose proof (K _ H5). pose proof (K _ H6). pose proof (K _ L6).
      rewrite !shr16 by lia. rewrite !land255 by lia. unfold kp. repeat split; lia.
    + exact Hw1.
    + rewrite Hdl. exact Hw2.
    + exists m'. rewrite concat_chop16 in E1, E2 by exact Hr. rewrite Hdl in E3. auto.
  - change (2 * 2)%nat with 4%nat in *.
    assert (Hpc : firstn 4 (v_cnt packed) = v_cnt (firstn 4 packed)) by (unfold v_cnt; apply firstn_map).
    rewrite Hpc, Hp, cnt_octs by exact Hr. clear Hpc.
    pose proof (chop_all 4 rm Hr) as Ha. pose proof (lane_rest _ Ha) as Hs. pose proof (val_lt _ Ha) as Hv.
    assert (Hc : uint 32 (0x08080808 + (2 ^ 32 - lane (map (fun o => u8 (8 - nkeep o)) (chop 4 rm)))) = val (map kp (chop 4 rm))).
    { apply uint_sub; [|exact Hv|].
      - rewrite Hs. reflexivity.
      - assert (val (repeat 8%N (length (chop 4 rm))) = 0x08080808)%N as E by reflexivity. rewrite E in Hs.
        change (2 ^ 32)%N with 4294967296%N. lia. }
    rewrite Hc. clear Hc Hs Hv.
    destruct ds as [|a [|b [|? ?]]]; try discriminate. inversion_clear Hd as [|? ? Da Hd1]. inversion_clear Hd1 as [|? ? Db _].
    cbn [flat_map app].
    destruct (store_ok 8 _ B lut8_good [firstn 8 a; skipn 8 a; firstn 8 b; skipn 8 b] (chop 4 rm) p (val (map kp (chop 4 rm))) m) as (m' & E1 & E2 & E3).
    + repeat constructor; rewrite ?firstn_length, ?skipn_length; lia.
    + exact Ha.
    + reflexivity.
    + apply cnt8_ok. exact Ha.
    + exact Hw1.
    + exact Hw2.
    + exists m'. rewrite concat_chop in E1, E2 by exact Hr. cbn [concat] in *. rewrite app_assoc, !firstn_skipn in E2.
      rewrite (app_assoc (firstn 8 b)), firstn_skipn in E2. auto.
Qed.

(** ** The decoded characters *)

Lemma shift1 n esc eqs : (0 < n)%nat -> N.lor (uint (N.of_nat n) (N.shiftl (mask_of eqs) 1)) (N.b2n esc) = mask_of (firstn n (esc :: eqs)).
Proof.
  intro Hn. change 1%N with (N.of_nat 1). rewrite mask_shiftl, mask_uint. destruct n as [|n]; [lia|]. cbn [repeat app firstn mask_of].
  apply N.bits_inj. intro i. rewrite N.lor_spec. destruct esc; cbn [N.b2n]; [|rewrite N.bits_0, orb_false_r; reflexivity].
  change (0 + 2 * mask_of (firstn n eqs))%N with (2 * mask_of (firstn n eqs))%N. rewrite (N.add_comm 1).
  destruct (N.eq_dec i 0) as [->|Hi].
  - rewrite N.testbit_even_0, N.testbit_odd_0. reflexivity.
  - rewrite <- (N.succ_pred i Hi). rewrite N.testbit_even_succ, N.testbit_odd_succ by lia.
    replace (N.testbit 1 (N.succ (N.pred i))) with false; [apply orb_false_r|].
    symmetry. apply N.bits_above_log2. change (N.log2 1) with 0%N. lia.
Qed.

Lemma forall_sub : forall ds ks, Forall (fun d => length d = 16%nat) ds -> Forall (fun k => length k = 16%nat) ks ->
  Forall (fun d => length d = 16%nat) (map2 (fun d v => v_sub d (v_bsl v (v_set1 (64 + 42)) (v_set1 42))) ds (map vm ks)).
Proof.
  induction ds as [|d ds IH]; intros [|k ks] Hd Hk; cbn [map map2]; try constructor; inversion_clear Hd; inversion_clear Hk; [|apply IH; assumption].
  unfold v_set1. rewrite (sub_sel d k 16) by assumption. rewrite map2_len. lia.
Qed.

Lemma bvs_all C k h : Forall (fun d => length d = 16%nat) (bvs C k h).
Proof. apply Forall_forall. intros v Hv. apply in_map_iff in Hv as (i & <- & _). reflexivity. Qed.

Lemma ldiff_mask a : forall b, length a = length b -> N.ldiff (mask_of a) (mask_of b) = mask_of (map2 (fun s e => s && negb e) a b).
Proof. intros b H. apply mask_map2; [intros; apply N.ldiff_spec|reflexivity|exact H]. Qed.

Lemma unescape_neon ne esc C sp packed : length sp = nw ne ->
  let l := map C (seq 0 (nw ne)) in
  Forall2 (fun e s : bool => e = true -> s = true) (map is_eq l) sp ->
  firstn (2 * nh ne) packed = bytes_of (2 * nh ne) (mask_of sp) ->
  let rm := map2 (fun s e => s && negb e) sp (escs esc (map is_eq l)) in
  exists ds packed',
    n_unescape ne (bvs C 0 (nh ne)) (cvs (fun p => beq (C p) EQS) (nh ne)) (mask_of sp) (mask_of (map is_eq l)) packed (N.b2n esc) (roff esc 16)
      = (ds, mask_of rm, packed', N.b2n (lead_out esc (map is_eq l))) /\
    concat ds = decoded esc l /\ Forall (fun d => length d = 16%nat) ds /\ length ds = nh ne /\
    firstn (2 * nh ne) packed' = bytes_of (2 * nh ne) (mask_of rm).
Proof.
  intros Hsp l Himp Hp rm. set (eqs := map is_eq l) in *. set (k := leads esc eqs).
  pose proof (nh_24 ne) as H24. pose proof (nw_nh ne) as Hnh. pose proof (nw8 ne) as Hn8.
  set (n := nw ne) in *. set (h := nh ne) in *.
  assert (Hn : (0 < n)%nat) by (destruct H24 as [E|E]; lia).
  assert (Hll : length l = n) by (unfold l; rewrite map_length, seq_length; reflexivity).
  assert (Hel : length eqs = n) by (unfold eqs; rewrite map_length; exact Hll).
  assert (Hkl : length k = n) by (unfold k; rewrite leads_len; exact Hel).
  assert (Hes : escs esc eqs = firstn n (esc :: k)) by (rewrite escs_leads, Hel; reflexivity).
  assert (Hesl : length (escs esc eqs) = n) by (rewrite Hes, firstn_length; cbn [length]; lia).
  assert (Hlo : lead_out esc eqs = last k false).
  { unfold lead_out. fold k. apply last_indep. intros H. rewrite H in Hkl. cbn in Hkl. lia. }
  assert (Hrow : row (fun p => beq (C p) EQS) (16 * h) = eqs).
  { unfold row, eqs, l. rewrite map_map, Hnh. reflexivity. }
  assert (Hlast : forall q, length q = n -> N.shiftr (mask_of q) (N.of_nat n - 1) = N.b2n (last q false)).
  { intros q Hq. replace (N.of_nat n - 1)%N with (N.of_nat (n - 1)) by lia. apply last_bit. lia. }
  unfold n_unescape. fold n h. cbv zeta. rewrite shift1 by exact Hn.
  assert (Hf : length (firstn n (esc :: eqs)) = n) by (rewrite firstn_length; cbn [length]; lia).
  rewrite mask_and by lia. rewrite mask_eqb0, negb_involutive.
  destruct (existsb id (map2 andb sp (firstn n (esc :: eqs)))) eqn:Ex.
  - assert (Hfix : fix_eqMask (N.of_nat n) (mask_of eqs) (mask_of (firstn n (esc :: eqs))) = mask_of k).
    { rewrite <- mask_uint. pose proof (fix_leads esc eqs) as H. rewrite Hel in H. apply H. destruct H24 as [E|E]; lia. }
    rewrite Hfix, shift1, <- Hes by exact Hn. rewrite Hlast, <- Hlo by exact Hkl.
    rewrite (mask_not n) by exact Hesl. rewrite mask_and by (rewrite map_length; lia).
    assert (Hrm : map2 andb sp (map negb (escs esc eqs)) = rm).
    { unfold rm. generalize (escs esc eqs). clear. induction sp as [|s sp IH]; intros [|e q]; try reflexivity. cbn [map map2]. rewrite IH. reflexivity. }
    rewrite Hrm. set (z := if n_a64 ne && n_gcc ne then repeat x00 8 else _).
    assert (Hz : length z = (n / 8)%nat).
    { unfold z. unfold n, nw. destruct (n_a64 ne); cbn [andb]; [destruct (n_gcc ne); [reflexivity|]|]; apply bytes_of_len. }
    pose proof (spread_ok ne (escs esc eqs) z Hesl Hz) as Hspr. fold n h in Hspr. rewrite Hspr.
    assert (Hc16 : Forall (fun o => length o = 16%nat) (chop16 h (escs esc eqs))) by (apply chop16_all; lia).
    assert (Hcl : length (chop16 h (escs esc eqs)) = h).
    { generalize (escs esc eqs). clear. induction h as [|h IH]; intro q; [reflexivity|]. cbn [chop16 length]. rewrite IH. reflexivity. }
    assert (Hbl : length (bvs C 0 h) = h) by (unfold bvs; rewrite map_length, seq_length; reflexivity).
    do 2 eexists. split; [reflexivity|]. split; [|split; [|split]].
    + rewrite sub_sels; [|apply bvs_all|exact Hc16|exact (eq_trans Hbl (eq_sym Hcl))]. rewrite concat_bvs by exact H24. rewrite concat_chop16 by lia. rewrite <- Hnh. reflexivity.
    + apply forall_sub; [apply bvs_all|exact Hc16].
    + rewrite map2_len, map_length, Hbl, Hcl. apply Nat.min_id.
    + unfold v_bic. rewrite firstn_map2. rewrite firstn_app, bytes_of_len, Hn8.
      replace (2 * h - 2 * h)%nat with 0%nat by lia. rewrite firstn_O, app_nil_r, (firstn_all2 (bytes_of _ _)) by (rewrite bytes_of_len; lia).
      rewrite Hp. fold (v_bic (bytes_of (2 * h) (mask_of sp)) (bytes_of (2 * h) (mask_of (escs esc eqs)))).
      rewrite bic_bytes, ldiff_mask by lia. reflexivity.
  - rewrite <- Hel in Ex. destruct (leads_simple eqs esc sp ltac:(lia) Himp Ex) as [Hk Hm]. fold k in Hk. fold rm in Hm.
    rewrite Hm. rewrite Hlast by exact Hel. replace (last eqs false) with (lead_out esc eqs) by (rewrite Hlo, Hk; reflexivity).
    do 2 eexists. split; [reflexivity|]. split; [|split; [|split]].
    + rewrite lead_ok by exact H24. rewrite Hrow, <- Hnh. unfold decoded. fold eqs. rewrite Hes, Hk. reflexivity.
    + destruct H24 as [-> | ->]; repeat constructor.
    + destruct H24 as [-> | ->]; reflexivity.
    + exact Hp.
Qed.
