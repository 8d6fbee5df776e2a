(** Proofs about the VPCLMULQDQ model. *)
From Verif Require Import Base BaseLemmas CrcSpec CrcLin CrcModel CrcAlg CrcProofs CrcMul ClmulModel ClmulProofs ClmulMul Clmul256Model.
From Coq Require Import NArith Lia ZifyN ZifyBool ZifyNat.
Open Scope N_scope.

Definition acc_of (c : v256 * v256) : acc := (fst (fst c), snd (fst c), fst (snd c), snd (snd c)).

Lemma of_bytes_bound n f : (forall i, f i < 256) -> of_bytes n f < 2 ^ (8 * N.of_nat n).
Proof.
  intro H. induction n as [|n IH]; cbn [of_bytes]; [reflexivity|]. apply lt_xor.
  - eapply lt_weaken; [exact IH|lia].
  - pose proof (lt_shiftl (f (N.of_nat n)) (8 * N.of_nat n) 8 (H _)) as Q. eapply lt_weaken; [exact Q|lia].
Qed.
Lemma shuffle_bound x idx : shuffle_epi8 x idx < 2 ^ 128.
Proof. apply (of_bytes_bound 16). intro i. cbv zeta. destruct (N.testbit _ 7); [lia|apply byte_at_lt]. Qed.

Lemma ternary_d8 a b m : a < 2 ^ 128 -> b < 2 ^ 128 -> m < 2 ^ 128 ->
  ternary a b m 0xd8 = N.land a (m ⊕ W128) ⊕ N.land b m.
Proof.
  intros Ha Hb Hc. ternary_bits Ha Hb Hc.
Qed.

Definition mask_of (k : N) : N := cmpgt_15 (rot_index k).
Lemma mask_small k : mask_of k < 2 ^ 128.
Proof. apply (of_bytes_bound 16). intro i. cbv zeta. destruct (_ && _); lia. Qed.

Lemma of_bytes_xor n f g h : (forall i, f i = g i ⊕ h i) -> of_bytes n f = of_bytes n g ⊕ of_bytes n h.
Proof. intro H. induction n as [|n IH]; cbn [of_bytes]; [reflexivity|]. rewrite H, IH, N.shiftl_lxor. xor_solve. Qed.

(** The 128 bits that start [k] bits into the 256 bits of [x] and [y]. *)
Definition sh (k x y : N) : N := N.shiftr x k ⊕ N.shiftl (low k y) (128 - k).

Section Avx.
Variable avx : bool.

(** The blend, as a linear function of its two arguments. *)
Definition blin (a b m : N) : N :=
  if avx then N.land a (m ⊕ W128) ⊕ N.land b m
  else of_bytes 16 (fun i => if N.testbit (byte_at m i) 7 then 0 else byte_at a i) ⊕
       of_bytes 16 (fun i => if N.testbit (byte_at m i) 7 then byte_at b i else 0).
Lemma blend_lin a b m : a < 2 ^ 128 -> b < 2 ^ 128 -> m < 2 ^ 128 -> blend1 avx a b m = blin a b m.
Proof.
  intros Ha Hb Hm. unfold blend1, blin. destruct avx; [apply ternary_d8; assumption|].
  unfold blendv. apply of_bytes_xor. intro i. destruct (N.testbit _ 7); rewrite ?xor_0_l, ?xor_0_r; reflexivity.
Qed.
Lemma lin_blin_l f m : lin f -> lin (fun x => blin (f x) 0 m).
Proof.
  intro Hf. unfold blin. destruct avx.
  - apply (lin_xor (fun x => N.land (f x) (m ⊕ W128)) (fun _ => N.land 0 m)); [auto with lin|].
    rewrite N.land_0_l. apply lin_zero.
  - apply (lin_xor (fun x => of_bytes 16 (fun i => if N.testbit (byte_at m i) 7 then 0 else byte_at (f x) i))).
    + apply (lin_of_bytes 16 (fun x i => if N.testbit (byte_at m i) 7 then 0 else byte_at (f x) i)). intro i.
      destruct (N.testbit _ 7); [apply lin_zero|]. unfold byte_at. auto with lin.
    + apply (lin_of_bytes 16 (fun x i => if N.testbit (byte_at m i) 7 then byte_at 0 i else 0)). intro i.
      replace (if N.testbit (byte_at m i) 7 then byte_at 0 i else 0) with 0; [apply lin_zero|].
      destruct (N.testbit _ 7); [|reflexivity]. unfold byte_at. rewrite N.shiftr_0_l. reflexivity.
Qed.
Lemma lin_blin_r f m : lin f -> lin (fun x => blin 0 (f x) m).
Proof.
  intro Hf. unfold blin. destruct avx.
  - apply (lin_xor (fun x => N.land 0 (m ⊕ W128)) (fun x => N.land (f x) m)); [|auto with lin].
    rewrite N.land_0_l. apply lin_zero.
  - apply (lin_xor (fun x => of_bytes 16 (fun i => if N.testbit (byte_at m i) 7 then 0 else byte_at 0 i))).
    + apply (lin_of_bytes 16 (fun x i => if N.testbit (byte_at m i) 7 then 0 else byte_at 0 i)). intro i.
      replace (if N.testbit (byte_at m i) 7 then 0 else byte_at 0 i) with 0; [apply lin_zero|].
      destruct (N.testbit _ 7); [reflexivity|]. unfold byte_at. rewrite N.shiftr_0_l. reflexivity.
    + apply (lin_of_bytes 16 (fun x i => if N.testbit (byte_at m i) 7 then byte_at (f x) i else 0)). intro i.
      destruct (N.testbit _ 7); [|apply lin_zero]. unfold byte_at. auto with lin.
Qed.
Lemma blin_split a b m : blin a b m = blin a 0 m ⊕ blin 0 b m.
Proof.
  unfold blin. destruct avx.
  - rewrite !N.land_0_l, xor_0_l, xor_0_r. reflexivity.
  - assert (Z1 : of_bytes 16 (fun i => if N.testbit (byte_at m i) 7 then byte_at 0 i else 0) = 0).
    { rewrite (of_bytes_xor 16 _ (fun i => byte_at m i) (fun i => byte_at m i)); [apply xor_nil|].
      intro i. rewrite xor_nil. destruct (N.testbit _ 7); [|reflexivity]. unfold byte_at. rewrite N.shiftr_0_l. reflexivity. }
    assert (Z2 : of_bytes 16 (fun i => if N.testbit (byte_at m i) 7 then 0 else byte_at 0 i) = 0).
    { rewrite (of_bytes_xor 16 _ (fun i => byte_at m i) (fun i => byte_at m i)); [apply xor_nil|].
      intro i. rewrite xor_nil. destruct (N.testbit _ 7); [reflexivity|]. unfold byte_at. rewrite N.shiftr_0_l. reflexivity. }
    rewrite Z1, Z2, xor_0_l, xor_0_r. reflexivity.
Qed.

Definition blends_check : bool := forallb (fun k =>
  same_on_basis 128 (fun x => blin (shuffle_epi8 x (rot_index k)) 0 (mask_of k)) (fun x => N.shiftr x (8 * k)) &&
  same_on_basis 128 (fun x => blin 0 (shuffle_epi8 x (rot_index k)) (mask_of k)) (fun x => N.shiftl (low (8 * k) x) (128 - 8 * k)) &&
  same_on_basis 128 (fun x => N.land (shuffle_epi8 x (rot_index k)) (mask_of k)) (fun x => N.shiftl (low (8 * k) x) (128 - 8 * k)))
  (below 16).
End Avx.
Lemma blends_true : blends_check true = true. Proof. vm_cast_no_check (eq_refl true). Qed.
Lemma blends_false : blends_check false = true. Proof. vm_cast_no_check (eq_refl true). Qed.
Lemma blends_ok avx : blends_check avx = true.
Proof. destruct avx; [apply blends_true|apply blends_false]. Qed.

Local Opaque mm_clmul N.lxor N.land N.shiftl N.shiftr shuffle_epi8 times_x.

Lemma blend_sh avx k x y : k < 16 -> x < 2 ^ 128 -> y < 2 ^ 128 ->
  blend1 avx (shuffle_epi8 x (rot_index k)) (shuffle_epi8 y (rot_index k)) (mask_of k) = sh (8 * k) x y.
Proof.
  intros Hk Hx Hy. rewrite blend_lin by (apply shuffle_bound || apply mask_small). rewrite blin_split. unfold sh.
  pose proof (forallb_below _ _ (blends_ok avx) k Hk) as C. cbv beta in C.
  apply andb_prop in C. destruct C as [C _]. apply andb_prop in C. destruct C as [C1 C2]. f_equal.
  - revert x Hx. refine (lin_check 128 (fun x => blin avx (shuffle_epi8 x (rot_index k)) 0 (mask_of k)) (fun x => N.shiftr x (8 * k)) _ _ C1).
    + apply lin_blin_l. auto with lin.
    + auto with lin.
  - revert y Hy. refine (lin_check 128 (fun y => blin avx 0 (shuffle_epi8 y (rot_index k)) (mask_of k)) (fun y => N.shiftl (low (8 * k) y) (128 - 8 * k)) _ _ C2).
    + apply lin_blin_r. auto with lin.
    + unfold low. auto with lin.
Qed.
Lemma and_sh k x : k < 16 -> x < 2 ^ 128 ->
  N.land (shuffle_epi8 x (rot_index k)) (mask_of k) = sh (8 * k) 0 x.
Proof.
  intros Hk Hx. unfold sh. rewrite N.shiftr_0_l, xor_0_l.
  pose proof (forallb_below _ _ (blends_ok true) k Hk) as C. cbv beta in C.
  apply andb_prop in C. destruct C as [_ C]. revert x Hx.
  refine (lin_check 128 (fun x => N.land (shuffle_epi8 x (rot_index k)) (mask_of k)) (fun y => N.shiftl (low (8 * k) y) (128 - 8 * k)) _ _ C);
    unfold low; auto with lin.
Qed.

Lemma sh_bound k x y : x < 2 ^ 128 -> k <= 128 -> sh k x y < 2 ^ 128.
Proof. intros. apply shifted_bound; auto using low_bound. Qed.

Lemma one_fold1_ok avx s d : d < 2 ^ 128 -> one_fold1 avx s d = fold64 s ⊕ d.
Proof.
  intro Hd. unfold one_fold1, fold64. destruct avx.
  - apply ternary_96; [apply mm_clmul_bound|apply mm_clmul_bound|exact Hd].
  - rewrite (xor_comm d), xor_assoc, (xor_comm d), xor_assoc. reflexivity.
Qed.
Lemma one_fold1_same avx s d : s < 2 ^ 128 -> d < 2 ^ 128 -> one_fold1 avx s d = one_fold avx s d.
Proof. intros. rewrite one_fold1_ok, one_fold_ok by assumption. reflexivity. Qed.

(** The accumulators after a partial fold. *)
Definition pf (n : N) (c : acc) (p : v256) : acc :=
  let '(a, b, c, d) := c in
  let k := 8 * (n mod 16) in
  if 16 <=? n then (sh k b c, sh k c d, fold64 (sh k 0 a) ⊕ sh k d (fst p), fold64 (sh k a b) ⊕ sh k (fst p) (snd p))
  else (sh k a b, sh k b c, fold64 0 ⊕ sh k c d, fold64 (sh k 0 a) ⊕ sh k d (fst p)).

Lemma partial_pf avx n c0 c1 p : 0 < n < 32 -> small (acc_of (c0, c1)) -> fst p < 2 ^ 128 -> snd p < 2 ^ 128 ->
  acc_of (partial_fold256 avx n c0 c1 p) = pf n (acc_of (c0, c1)) p.
Proof.
  destruct c0 as [a b], c1 as [c d], p as [p q]. unfold acc_of. cbn [fst snd]. intros Hn (Ha & Hb & Hc & Hd) Hp Hq.
  unfold partial_fold256, pf. cbv zeta. change 15 with (N.ones 4). rewrite N.land_ones. change (2 ^ 4) with 16.
  assert (Hk : n mod 16 < 16) by (apply N.mod_lt; lia).
  fold (mask_of (n mod 16)). set (k := n mod 16) in *.
  unfold shuffle256, permute2x128, blend256, one_fold256. cbn [fst snd].
  repeat match goal with |- context [N.testbit (Npos ?x) ?i] =>
    let v := eval vm_compute in (N.testbit (Npos x) i) in change (N.testbit (Npos x) i) with v end.
  cbv iota. cbn [fst snd].
  assert (S0 : 0 = shuffle_epi8 0 (rot_index k)).
  { symmetry. apply (lin_0 (fun x => shuffle_epi8 x (rot_index k))). auto with lin. }
  destruct (16 <=? n) eqn:E; cbn [fst snd].
  - rewrite S0 at 1. rewrite !blend_sh by (assumption || lia).
    rewrite !one_fold1_ok by (apply sh_bound; assumption || lia). reflexivity.
  - rewrite N.land_0_l, !and_sh, !blend_sh by assumption.
    rewrite !one_fold1_ok by (apply sh_bound; assumption || lia). reflexivity.
Qed.

Lemma pf_ok n c p v : 0 < n < 32 -> fst p < 2 ^ 128 -> snd p < 2 ^ 128 -> stands c v ->
  stands (pf n c p) (times_x (8 * n) (v ⊕ low (8 * n) (fst p ⊕ N.shiftl (snd p) 128))).
Proof.
  destruct c as [[[a b] c] d], p as [p q]. cbn [fst snd]. intros Hn Hp Hq [(Ha & Hb & Hc & Hd) Hv].
  assert (Hk : n mod 16 < 16) by (apply N.mod_lt; lia).
  unfold pf. cbv zeta. cbn [fst snd].
  set (k := 8 * (n mod 16)). assert (Lk : k <= 128) by (subst k; lia).
  assert (F : forall x, x < 2 ^ 128 -> forall j, 128 <= j -> times_x j (fold64 x) = times_x (j + 512) x).
  { intros x Hx j Hj. replace j with (j - 96 + 96) at 1 by lia. rewrite times_add, fold64_times, <- times_add by assumption.
    f_equal. lia. }
  assert (S : forall j x y, 128 <= j -> times_x j (sh k x y) = times_x j (N.shiftr x k) ⊕ times_x (j - 128) (times_x k (low k y))).
  { intros j x y Hj. unfold sh. rewrite lin_times. f_equal. rewrite times_shiftl', <- times_add by lia. f_equal. lia. }
  destruct (16 <=? n) eqn:E.
  - assert (En : 8 * n = 128 + k).
    { subst k. assert (n / 16 = 1) by (symmetry; apply (N.div_unique n 16 1 (n - 16)); lia).
      pose proof (N.div_mod n 16 ltac:(lia)). lia. }
    split; [repeat split; try (apply lt_xor; [apply fold64_bound|]); apply sh_bound; assumption|].
    rewrite <- Hv. unfold val.
    assert (EL : low (8 * n) (p ⊕ N.shiftl q 128) = p ⊕ N.shiftl (low k q) 128).
    { rewrite En. rewrite (low_split k q) at 1. rewrite N.shiftl_lxor, N.shiftl_shiftl, <- xor_assoc, (N.add_comm k).
      apply low_xor_shiftl. apply lt_xor; [eapply lt_weaken; [exact Hp|lia]|].
      pose proof (lt_shiftl _ 128 _ (low_bound k q)) as Q. rewrite N.add_comm. exact Q. }
    rewrite EL, En. rewrite !lin_times, !F by (lia || apply sh_bound; assumption || lia).
    rewrite !S by lia. rewrite N.shiftr_0_l, times_zero, xor_0_l.
    change (256 + 512 - 128) with 640. change (128 + 512) with 640. change (512 - 128) with 384.
    change (384 - 128) with 256. change (256 - 128) with 128. change (128 - 128) with 0. change (640 - 128) with 512.
    rewrite (times_shiftl' (128 + k)) by lia. replace (128 + k - 128) with k by lia.
    rewrite !(times_add 128 k), !(times_comm k).
    rewrite (times_merge 128 512 640 _ eq_refl), (times_merge 128 384 512 _ eq_refl), (times_merge 128 256 384 _ eq_refl), (times_merge 128 128 256 _ eq_refl).
    rewrite (times_split k a), (times_split k b), (times_split k c), (times_split k d), (times_split k p), !lin_times.
    rewrite ?times_0. xor_solve.
  - assert (En : 8 * n = k) by (subst k; rewrite N.mod_small by lia; reflexivity).
    split; [repeat split; try (apply lt_xor; [apply fold64_bound|]); apply sh_bound; assumption|].
    rewrite <- Hv. unfold val.
    assert (EL : low (8 * n) (p ⊕ N.shiftl q 128) = low k p).
    { rewrite En. unfold low. rewrite land_xor_l. rewrite <- (xor_0_r (N.land p (N.ones k))) at 2. f_equal.
      apply N.bits_inj. intro i. rewrite N.land_spec, N.bits_0. destruct (N.lt_ge_cases i k) as [L|L].
      - rewrite N.shiftl_spec_low by lia. reflexivity.
      - rewrite N.ones_spec_high by lia. apply andb_false_r. }
    rewrite EL, En. rewrite (lin_0 fold64 lin_fold64), xor_0_l.
    rewrite !lin_times, !F by (lia || apply sh_bound; assumption || lia).
    rewrite !S by lia. rewrite N.shiftr_0_l, times_zero, xor_0_l.
    change (128 + 512 - 128) with 512. change (512 - 128) with 384.
    change (384 - 128) with 256. change (256 - 128) with 128. change (128 - 128) with 0.
    rewrite !(times_comm k). rewrite times_0.
    rewrite (times_split k a), (times_split k b), (times_split k c), (times_split k d), !lin_times.
    xor_solve.
Qed.

Definition stands256 (c : v256 * v256) (v : N) : Prop := stands (acc_of c) v.

Lemma split_ok x : x < 2 ^ 256 -> fst (split256 x) < 2 ^ 128 /\ snd (split256 x) < 2 ^ 128 /\
  fst (split256 x) ⊕ N.shiftl (snd (split256 x)) 128 = x.
Proof.
  intro H. cbn [split256 fst snd]. change W128 with (N.ones 128). repeat split.
  - apply low_bound.
  - apply lt_shiftr. exact H.
  - symmetry. apply low_split.
Qed.

Section Run.
Variable avx : bool.

Lemma partial256_bytes c l part i d : (0 < length l < 32)%nat -> part < 2 ^ 256 -> low (bits_of l) part = le l ->
  stands256 c (crc_bytes i d) ->
  stands256 (partial_fold256 avx (N.of_nat (length l)) (fst c) (snd c) (split256 part)) (crc_bytes i (d ++ l)).
Proof.
  destruct c as [c0 c1]. intros Hl Hp Hlow H. destruct (split_ok part Hp) as (S1 & S2 & S3).
  unfold stands256. cbn [fst snd]. rewrite partial_pf by (lia || assumption || apply H).
  rewrite crc_bytes_app, crc_bytes_le, <- Hlow.
  pose proof (pf_ok (N.of_nat (length l)) _ _ _ ltac:(lia) S1 S2 H) as Q. rewrite S3 in Q. exact Q.
Qed.

Lemma le_app a b : le (a ++ b) = le a ⊕ N.shiftl (le b) (bits_of a).
Proof.
  unfold bits_of. induction a as [|x a IH]; [cbn [le app length]; rewrite xor_0_l; symmetry; apply N.shiftl_0_r|].
  cbn [le app length]. rewrite IH, N.shiftl_lxor, N.shiftl_shiftl, xor_assoc. do 3 f_equal. lia.
Qed.
Lemma split_le a b : length a = 16%nat -> length b = 16%nat -> split256 (le (a ++ b)) = (le a, le b).
Proof.
  intros La Lb. rewrite le_app. pose proof (le_bound a) as Ba. unfold bits_of in *. rewrite La in *.
  change (8 * N.of_nat 16) with 128 in *. unfold split256. change W128 with (N.ones 128). f_equal.
  - apply low_xor_shiftl, Ba.
  - rewrite N.shiftr_lxor, N.shiftr_shiftl_r, N.sub_diag, N.shiftr_0_r by lia.
    rewrite N.shiftr_div_pow2, N.div_small by exact Ba. apply xor_0_l.
Qed.

Lemma push256_ok c a b i d : length a = 16%nat -> length b = 16%nat -> stands256 c (crc_bytes i d) ->
  stands256 (snd c, one_fold256 avx (fst c) (split256 (le (a ++ b)))) (crc_bytes i (d ++ a ++ b)).
Proof.
  intros La Lb H. rewrite split_le by assumption. destruct c as [[c0 c1] [c2 c3]]. cbn [fst snd].
  assert (B : forall l, length l = 16%nat -> le l < 2 ^ 128).
  { intros l Hl. pose proof (le_bound l) as K. unfold bits_of in K. rewrite Hl in K. exact K. }
  destruct (proj1 H) as (H0 & H1 & H2 & H3). cbn [fst snd] in *.
  unfold one_fold256. cbn [fst snd]. rewrite !one_fold1_same by auto.
  apply (push_bytes avx _ _ _ _ La) in H. apply (push_bytes avx _ _ _ _ Lb) in H. rewrite <- app_assoc in H. exact H.
Qed.

Lemma cut32 B m p l : (32 <= zlen l)%Z -> readable B m p l ->
  exists a b r, l = (a ++ b) ++ r /\ length a = 16%nat /\ length b = 16%nat /\ readable B m p (a ++ b) /\
    readable B m (p + 32) r /\ zlen r = (zlen l - 32)%Z.
Proof.
  intros Hl H. destruct (cut l 32 ltac:(lia)) as (x & r & -> & Hx). destruct (cut x 16 ltac:(lia)) as (a & b & -> & Ha).
  exists a, b, r. rewrite !zlen_app in *. apply readable_app in H. rewrite zlen_app, Hx in H. destruct H as [H1 H2].
  unfold zlen in *. conjs; try assumption; try reflexivity; lia.
Qed.
Lemma aligned32 p : (p mod 32 = 0 -> (p + 32) mod 32 = 0)%Z.
Proof. intro H. rewrite <- (Z.mul_1_l 32) at 1. rewrite Z.mod_add by lia. exact H. Qed.
Lemma len32 (a b : list byte) : length a = 16%nat -> length b = 16%nat -> length (a ++ b) = 32%nat.
Proof. rewrite app_length. lia. Qed.

Lemma fold_loop256_ok s B m i : forall fuel src l c d, (Z.to_nat (zlen l) <= fuel)%nat -> readable B m src l ->
  (src mod 32 = 0)%Z -> stands256 c (crc_bytes i d) ->
  exists l1 l2 c', l = l1 ++ l2 /\ (zlen l2 < 64)%Z /\ readable B m (src + zlen l1) l2 /\ ((src + zlen l1) mod 32 = 0)%Z /\
    stands256 c' (crc_bytes i (d ++ l1)) /\
    fold_loop256 avx s fuel B src (zlen l) c m = Ok ((src + zlen l1, zlen l2, c')%Z, m).
Proof.
  induction fuel as [|fuel IH]; intros src l c d Hf H Ha Hc.
  - exists [], l, c. change (zlen (@nil byte)) with 0%Z. rewrite Z.add_0_r, app_nil_r. pose proof (zlen_nonneg l).
    cbn [fold_loop256]. destruct (64 <=? zlen l)%Z eqn:E; [lia|].
    conjs; try assumption; try lia; reflexivity.
  - cbn [fold_loop256]. destruct (64 <=? zlen l)%Z eqn:E.
    + destruct (cut32 B m src l ltac:(lia) H) as (a0 & b0 & r0 & E0 & L0 & M0 & R0 & H0 & Z0).
      destruct (cut32 B m _ r0 ltac:(lia) H0) as (a1 & b1 & r1 & E1 & L1 & M1 & R1 & H1 & Z1).
      pose proof (aligned32 _ Ha) as A1. pose proof (aligned32 _ A1) as A2.
      erewrite bind_ok by (apply loada_ok; [exact R0|apply len32; assumption|lia|exact Ha]).
      erewrite bind_ok by (apply loada_ok; [exact R1|apply len32; assumption|lia|exact A1]).
      pose proof (push256_ok _ _ _ _ _ L0 M0 Hc) as P. apply (push256_ok _ _ _ _ _ L1 M1) in P. cbn [fst snd] in P.
      replace (src + 64)%Z with (src + 32 + 32)%Z by lia. replace (zlen l - 64)%Z with (zlen r1) by lia.
      destruct (IH _ r1 _ _ ltac:(lia) H1 A2 P) as (l1 & l2 & c' & E4 & Hl & Hr & Hal & Hs & Hrun).
      exists ((a0 ++ b0) ++ (a1 ++ b1) ++ l1), l2, c'.
      replace (src + zlen ((a0 ++ b0) ++ (a1 ++ b1) ++ l1))%Z with (src + 32 + 32 + zlen l1)%Z
        by (rewrite !zlen_app; unfold zlen; lia).
      conjs; try assumption.
      * subst. rewrite <- !app_assoc. reflexivity.
      * rewrite <- !app_assoc in *. exact Hs.
    + exists [], l, c. change (zlen (@nil byte)) with 0%Z. rewrite Z.add_0_r, app_nil_r.
      conjs; try assumption; try lia; reflexivity.
Qed.

Lemma fold_done256_ok c v : stands256 c v -> fold_done256 avx c = compl v.
Proof. apply (fold_done_ok avx). Qed.

Theorem crc_fold256_ok B m src data init : readable B m src data -> word init ->
  crc_fold256 avx false B src (zlen data) init m = Ok (crc32_spec init data, m).
Proof.
  intros H Hi. unfold crc_fold256. cbv zeta. unfold crc32_spec. rewrite not32_compl.
  set (i := compl init) in *. set (c00 := ((mm_clmul i 0xdfded7ec 0, 0), (0, 0)) : v256 * v256).
  assert (S0 : stands256 c00 (crc_bytes i [])).
  { apply stands_init. apply compl_word, Hi. }
  destruct (zlen data <? 32)%Z eqn:E16.
  - destruct (zlen data =? 0)%Z eqn:E0.
    + destruct data as [|b l]; [|rewrite zlen_cons in E0; pose proof (zlen_nonneg l); lia].
      unfold ret. do 2 f_equal. symmetry. apply compl_compl.
    + destruct (zlen data <? 0)%Z eqn:En; [pose proof (zlen_nonneg data); lia|].
      replace (Z.to_nat (zlen data)) with (length data) by (unfold zlen; lia).
      erewrite bind_ok by (apply loadu_ok; exact H). unfold ret. do 2 f_equal. apply fold_done256_ok.
      replace (Z.to_N (zlen data)) with (N.of_nat (length data)) by (unfold zlen; lia).
      apply (partial256_bytes c00 data (le data) i []); [unfold zlen in *; lia| | |exact S0].
      * eapply lt_weaken; [apply le_bound|]. unfold bits_of, zlen in *. lia.
      * unfold low. rewrite N.land_ones. apply N.mod_small, le_bound.
  - set (ad := ((- src) mod 32)%Z).
    assert (Had : (0 <= ad < 32)%Z) by (apply Z.mod_pos_bound; lia).
    assert (Hal : ((src + ad) mod 32 = 0)%Z).
    { subst ad. rewrite Zplus_mod_idemp_r, Z.add_opp_diag_r. reflexivity. }
    assert (P : exists d0 l c, data = d0 ++ l /\ zlen d0 = ad /\ stands256 c (crc_bytes i d0) /\
      (if (ad =? 0)%Z then ret (src, zlen data, ((mm_clmul i 0xdfded7ec 0, 0), (0, 0)))
       else part <- loadu B 32 src ;;
         ret ((src + ad)%Z, (zlen data - ad)%Z, partial_fold256 avx (Z.to_N ad) (mm_clmul i 0xdfded7ec 0, 0) (0, 0) (split256 part))) m =
      Ok ((src + ad, zlen l, c)%Z, m)).
    { destruct (ad =? 0)%Z eqn:Ea.
      - exists [], data, c00. conjs; try assumption; try reflexivity.
        + change (zlen (@nil byte)) with 0%Z. lia.
        + replace (src + ad)%Z with src by lia. reflexivity.
      - destruct (cut data 32 ltac:(lia)) as (a & b & Ed & La). destruct (cut a ad ltac:(lia)) as (d0 & r & Ea' & Ld).
        assert (Hr : readable B m src (d0 ++ r)).
        { rewrite Ed, Ea' in H. apply readable_app in H. tauto. }
        destruct (loadu_low B m src d0 r 32 Hr) as (x & Hx & Hlow & Hb).
        { rewrite <- Ea'. unfold zlen in La. lia. }
        exists d0, (r ++ b), (partial_fold256 avx (N.of_nat (length d0)) (fst c00) (snd c00) (split256 x)). conjs.
        + rewrite Ed, Ea', <- app_assoc. reflexivity.
        + exact Ld.
        + apply (partial256_bytes c00 d0 x i []); [unfold zlen in *; lia|exact Hb|exact Hlow|exact S0].
        + erewrite bind_ok by exact Hx. unfold ret. do 2 f_equal.
          replace (Z.to_N ad) with (N.of_nat (length d0)) by (unfold zlen in *; lia).
          replace (zlen data - ad)%Z with (zlen (r ++ b)) by (rewrite Ed, Ea', !zlen_app; lia). reflexivity. }
    destruct P as (d0 & l & c & Ed & Ld & Sc & Run).
    erewrite bind_ok by exact Run. cbv beta iota. clear Run.
    assert (Hl : readable B m (src + ad) l).
    { rewrite Ed in H. apply readable_app in H. rewrite Ld in H. tauto. }
    destruct (fold_loop256_ok false B m i (Z.to_nat (zlen l)) _ l c d0 ltac:(lia) Hl Hal Sc)
      as (l1 & l2 & c' & El & L2 & R2 & A2 & S2 & Run).
    erewrite bind_ok by exact Run. cbv beta iota. clear Run.
    assert (Ed2 : data = (d0 ++ l1) ++ l2) by (rewrite Ed, El, app_assoc; reflexivity).
    rewrite Ed2. set (d := d0 ++ l1) in *. clearbody d. clear Ed El Ed2 Hl Sc.
    set (p := (src + ad + zlen l1)%Z) in *. clearbody p. clear - R2 A2 S2 L2.
    assert (P : exists l3 l4 c, l2 = l3 ++ l4 /\ (zlen l4 < 32)%Z /\ readable B m (p + zlen l3) l4 /\
      ((p + zlen l3) mod 32 = 0)%Z /\ stands256 c (crc_bytes i (d ++ l3)) /\
      (if (32 <=? zlen l2)%Z then
         t <- loada false B 32 p ;;
         ret ((p + 32)%Z, (zlen l2 - 32)%Z, (snd c', one_fold256 avx (fst c') (split256 t)))
       else ret (p, zlen l2, c')) m = Ok ((p + zlen l3)%Z, zlen l4, c, m)).
    { destruct (32 <=? zlen l2)%Z eqn:E.
      - destruct (cut32 B m p l2 ltac:(lia) R2) as (a0 & b0 & r0 & E0 & L0 & M0 & R0 & H0 & Z0).
        pose proof (push256_ok _ _ _ _ _ L0 M0 S2) as P.
        exists (a0 ++ b0), r0, (snd c', one_fold256 avx (fst c') (split256 (le (a0 ++ b0)))).
        replace (zlen (a0 ++ b0)) with 32%Z by (rewrite zlen_app; unfold zlen; lia).
        conjs; try assumption; [lia|apply aligned32, A2|].
        erewrite bind_ok by (apply loada_ok; [exact R0|apply len32; assumption|lia|exact A2]).
        rewrite Z0. reflexivity.
      - exists [], l2, c'. change (zlen (@nil byte)) with 0%Z. rewrite Z.add_0_r, app_nil_r.
        conjs; try assumption; try lia; reflexivity. }
    destruct P as (l3 & l4 & c & -> & L4 & R4 & A4 & S4 & Run). erewrite bind_ok by exact Run. cbv beta iota. clear Run.
    rewrite app_assoc. set (d' := d ++ l3) in *. clearbody d'. set (q := (p + zlen l3)%Z) in *. clearbody q.
    destruct (zlen l4 =? 0)%Z eqn:E.
    + destruct l4 as [|b l]; [|rewrite zlen_cons in E; pose proof (zlen_nonneg l); lia].
      rewrite app_nil_r. erewrite bind_ok by reflexivity. unfold ret. rewrite (fold_done256_ok _ _ S4). reflexivity.
    + assert (Hn : l4 <> []) by (intros ->; discriminate).
      destruct (loada_part B m q l4 32 R4 Hn) as (x & Hx & Hlow & Hb); [unfold zlen in *; lia|exact A4|].
      pose proof (partial256_bytes c l4 x i d' ltac:(unfold zlen in *; lia) Hb Hlow S4) as Q.
      replace (N.of_nat (length l4)) with (Z.to_N (zlen l4)) in Q by (unfold zlen; lia).
      erewrite bind_ok by (erewrite bind_ok by exact Hx; reflexivity).
      unfold ret. rewrite (fold_done256_ok _ _ Q). reflexivity.
Qed.
End Run.
