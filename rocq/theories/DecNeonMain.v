(** The NEON kernels meet the contract of the front-end. *)
From Verif Require Import Base BaseLemmas EncSpec DecSpec DecModel DecProofs DecMaskSpec DecMaskModel DecMaskProofs
  DecSimdModel DecSimdSpec DecVec DecKernelModel DecBlock DecKernel DecVecProofs DecBlockFacts DecSseModel DecCompact DecSseProofs DecSseMain
  EncSseModel EncNeonModel EncNeonVec DecRvvProofs DecRvvMain DecNeonModel DecNeonProofs.
From Coq Require Import ZifyBool ZifyNat ZifyN.
Ltac Zify.zify_post_hook ::= Z.div_mod_to_equations.

(** ** Finding the special characters *)

(** nextMaskMix or lfCompare for a dot at position [nxt] - 1. *)
Definition next_rel (ne : neond) (nxt : Z) (next : vec) : Prop :=
  if n_a64 ne then
    exists b0 b1, next = b0 :: b1 :: repeat x00 14 /\
      (if nxt =? 1 then b0 = x01 \/ b0 = xff else b0 = x00) /\ (if nxt =? 2 then b1 = x02 \/ b1 = xff else b1 = x00)
  else next = lf_n nxt 16.

Definition spc (C : nat -> byte) (nxt : Z) (p : nat) : bool :=
  special (C p) || match p with O => nxt =? 1 | 1%nat => nxt =? 2 | _ => false end.

Lemma spc_row C nxt n : (2 <= n)%nat -> row (spc C nxt) n = map2 orb (map special (map C (seq 0 n))) (early nxt n).
Proof.
  intro Hn. destruct n as [|[|n]]; [lia|lia|]. unfold row, early. cbn [seq map map2 Nat.sub]. rewrite Nat.sub_0_r. do 2 (apply (f_equal2 cons); [reflexivity|]).
  assert (G : forall q, (forall p, In p q -> (2 <= p)%nat) -> map (spc C nxt) q = map2 orb (map special (map C q)) (repeat false (length q))).
  { induction q as [|p q IH]; intro H; [reflexivity|]. cbn [map length repeat map2]. rewrite IH by (intros; apply H; right; assumption). f_equal.
    unfold spc. specialize (H p (or_introl eq_refl)). destruct p as [|[|p]]; [lia|lia|reflexivity]. }
  rewrite G, seq_length; [reflexivity|]. intros p Hp. apply in_seq in Hp. lia.
Qed.

Lemma tbx_special c : (if bz c <? Z.of_nat (length (map u8 [0;0;0;0;0;0;0;0;0;0;255;0;0;255;0;0]))
  then nth (Z.to_nat (bz c)) (map u8 [0;0;0;0;0;0;0;0;0;0;255;0;0;255;0;0]) x00 else bm (beq c (u8 61))) = bm (special c).
Proof. destruct c; vm_compute; reflexivity. Qed.

Lemma tbx_bv C k : v_tbx (v_cmpeq (bv C k) (v_set1 61)) (map u8 [0;0;0;0;0;0;0;0;0;0;255;0;0;255;0;0]) (bv C k) = cv (fun p => special (C p)) k.
Proof.
  unfold v_set1. rewrite cmpeq_rep by reflexivity. unfold vm, v_tbx, bv, cv, vm. rewrite !map_map, map2_maps. apply map_ext. intro j. apply tbx_special.
Qed.

(** The same for the masks. *)
Definition alike (v w : vec) : Prop := length v = length w /\ v_and v bit_select = v_and w bit_select /\ existsb nzb v = existsb nzb w.

Lemma cmp_a64 ne C nxt next isRaw : n_a64 ne = true -> next_rel ne nxt next -> (isRaw = false -> nxt = 0) ->
  exists a, n_cmp ne isRaw (bvs C 0 4) next = [a; cv (spc C nxt) 16; cv (spc C nxt) 32; cv (spc C nxt) 48] /\ alike a (cv (spc C nxt) 0).
Proof.
  intros H64 Hx Hp. unfold next_rel in Hx. rewrite H64 in Hx. destruct Hx as (b0 & b1 & -> & H0 & H1). unfold n_cmp. rewrite H64.
  unfold bvs. cbn [seq map Nat.mul Nat.add]. rewrite !tbx_bv.
  assert (E : forall k, (2 <= k)%nat -> cv (fun p => special (C p)) k = cv (spc C nxt) k).
  { intros k Hk. unfold cv. f_equal. apply map_ext. intro j. unfold spc. destruct (k + j)%nat as [|[|q]] eqn:Ek; [lia|lia|]. rewrite orb_false_r. reflexivity. }
  rewrite (E 16%nat), (E 32%nat), (E 48%nat) by lia. eexists. split; [reflexivity|].
  assert (E0 : cv (spc C nxt) 0 = bm (special (C 0%nat) || (nxt =? 1)) :: bm (special (C 1%nat) || (nxt =? 2)) :: vm (map (fun j => special (C (2 + j)%nat)) (seq 0 14))).
  { unfold cv. cbn [seq map vm Nat.add]. do 2 f_equal. unfold spc. rewrite !orb_false_r. reflexivity. }
  assert (E1 : cv (fun p => special (C p)) 0 = bm (special (C 0%nat)) :: bm (special (C 1%nat)) :: vm (map (fun j => special (C (2 + j)%nat)) (seq 0 14))) by reflexivity.
  rewrite E0, E1. clear E E0 E1. set (t := vm _). assert (Ht : length t = 14%nat) by reflexivity.
  generalize (special (C 0%nat)), (special (C 1%nat)). intros s0 s1.
  destruct isRaw.
  - assert (Ho : v_or (bm s0 :: bm s1 :: t) (b0 :: b1 :: repeat x00 14) = b_or (bm s0) b0 :: b_or (bm s1) b1 :: t).
    { unfold v_or. cbn [map2]. do 2 f_equal. fold v_or. unfold t. apply or0_vm. rewrite map_length, seq_length. lia. }
    rewrite Ho. clear Ho. clearbody t. unfold alike. cbn [length]. split; [reflexivity|]. unfold v_and, bit_select. cbn [map map2 existsb].
    assert (A0 : b_and (b_or (bm s0) b0) (u8 1) = b_and (bm (s0 || (nxt =? 1))) (u8 1) /\ nzb (b_or (bm s0) b0) = nzb (bm (s0 || (nxt =? 1)))).
    { destruct (nxt =? 1); [destruct H0 as [-> | ->]|subst b0]; destruct s0; split; reflexivity. }
    assert (A1 : b_and (b_or (bm s1) b1) (u8 2) = b_and (bm (s1 || (nxt =? 2))) (u8 2) /\ nzb (b_or (bm s1) b1) = nzb (bm (s1 || (nxt =? 2)))).
    { destruct (nxt =? 2); [destruct H1 as [-> | ->]|subst b1]; destruct s1; split; reflexivity. }
    destruct A0 as [-> ->], A1 as [-> ->]. split; reflexivity.
  - rewrite Hp by reflexivity. cbn [Z.eqb]. rewrite !orb_false_r. repeat split.
Qed.

Lemma or0_r b : b_or b x00 = b. Proof. destruct b; reflexivity. Qed.

Lemma cmp_v7 ne C nxt next isRaw : n_a64 ne = false -> next_rel ne nxt next -> (nxt = 0 \/ nxt = 1 \/ nxt = 2) ->
  (nxt = 1 -> C 0%nat = DOT) -> (nxt = 2 -> C 0%nat = LF /\ C 1%nat = DOT) ->
  n_cmp ne isRaw (bvs C 0 2) next = cvs (spc C nxt) 2.
Proof.
  intros H64 Hx H0 H1 H2. unfold next_rel in Hx. rewrite H64 in Hx. subst next. unfold n_cmp. rewrite H64.
  assert (S1 : forall d, b_or (b_or (bm (beq d (u8 13))) (bm (beq d (u8 10)))) (bm (beq d (u8 61))) = bm (special d)) by (intros []; reflexivity).
  assert (L : forall z, v_or (v_or (v_cmpeq (bv C 16) (v_set1 13)) (v_cmpeq (bv C 16) (v_set1 10))) (v_cmpeq (bv C 16) (v_set1 61)) = z -> z = cv (spc C nxt) 16).
  { intros z <-. unfold v_set1. rewrite !cmpeq_rep by reflexivity. unfold bv, cv, vm, v_or. rewrite !map_map, !map2_maps. apply map_ext. intro j. rewrite S1. f_equal.
    unfold spc. cbn [Nat.add]. rewrite orb_false_r. reflexivity. }
  unfold bvs, cvs. cbn [seq map map2 Nat.mul Nat.add]. rewrite (L _ eq_refl). f_equal. clear L.
  transitivity (v_or (v_or (v_cmpeq (bv C 0) (v_set1 13)) (v_cmpeq (bv C 0) (lf_n nxt 16))) (v_cmpeq (bv C 0) (v_set1 61))); [reflexivity|].
  unfold cv. cbn [seq map vm Nat.add].
  assert (T : forall k, (2 <= k)%nat -> bm (spc C nxt k) = bm (special (C k))).
  { intros k Hk. unfold spc. destruct k as [|[|k]]; [lia|lia|]. rewrite orb_false_r. reflexivity. }
  rewrite (T 2%nat), (T 3%nat), (T 4%nat), (T 5%nat), (T 6%nat), (T 7%nat), (T 8%nat), (T 9%nat), (T 10%nat), (T 11%nat), (T 12%nat), (T 13%nat), (T 14%nat), (T 15%nat) by lia. rewrite <- !S1. unfold spc.
  destruct H0 as [E|[E|E]].
  - rewrite E. cbn [Z.eqb]. rewrite !orb_false_r, <- !S1. reflexivity.
  - rewrite E. specialize (H1 E). unfold bv. cbn [seq map Nat.add]. rewrite H1. cbn [Z.eqb]. rewrite !orb_false_r, <- !S1. reflexivity.
  - rewrite E. destruct (H2 E) as [H2a H2b]. unfold bv. cbn [seq map Nat.add]. rewrite H2a, H2b. cbn [Z.eqb Pos.eqb]. rewrite !orb_false_r. reflexivity.
Qed.

(** The masks of the special characters. *)
Lemma cmp_masks ne C nxt next isRaw E : next_rel ne nxt next -> (isRaw = false -> nxt = 0) -> (nxt = 0 \/ nxt = 1 \/ nxt = 2) ->
  (nxt = 1 -> C 0%nat = DOT) -> (nxt = 2 -> C 0%nat = LF /\ C 1%nat = DOT) ->
  let cmp := n_cmp ne isRaw (bvs C 0 (nh ne)) next in
  (n_a64 ne = true -> n_nonzero ne (or_vecs cmp) = existsb id (row (spc C nxt) (nw ne))) /\
  exists packed, n_masks ne cmp (cvs E (nh ne)) = (mask_of (row (spc C nxt) (nw ne)), mask_of (row E (nw ne)), packed) /\
    firstn (2 * nh ne) packed = bytes_of (2 * nh ne) (mask_of (row (spc C nxt) (nw ne))).
Proof.
  intros Hx Hp H0 H1 H2 cmp. pose proof (nh_24 ne) as H24.
  assert (Hpk : n_pack cmp = n_pack (cvs (spc C nxt) (nh ne)) /\ (n_a64 ne = true -> n_nonzero ne (or_vecs cmp) = existsb id (row (spc C nxt) (nw ne)))).
  { unfold cmp. unfold nh, nw. destruct (n_a64 ne) eqn:E64.
    - destruct (cmp_a64 ne C nxt next isRaw E64 Hx Hp) as (a & -> & Hl & Ha & Hz). split.
      + unfold n_pack. cbn [map cvs seq Nat.mul Nat.add]. rewrite Ha. reflexivity.
      + intros _. change 64%nat with (16 * 4)%nat. rewrite <- (any_cvs ne (spc C nxt) 4) by (right; reflexivity).
        assert (Ll : length a = 16%nat) by (rewrite Hl; reflexivity).
        unfold cvs. cbn [or_vecs map seq Nat.mul Nat.add]. rewrite !nonzero_ok by (unfold v_or; rewrite !map2_len, ?Ll; reflexivity).
        assert (Lo : forall x y : vec, length x = 16%nat -> length y = 16%nat -> length (v_or x y) = 16%nat) by (intros x y Hx1 Hy1; unfold v_or; rewrite map2_len, Hx1, Hy1; reflexivity).
        rewrite !v_or_nz by (rewrite ?Lo by (exact Ll || reflexivity); rewrite ?Ll; reflexivity). rewrite Hz. reflexivity.
    - rewrite (cmp_v7 ne C nxt next isRaw E64) by assumption. split; [reflexivity|discriminate]. }
  destruct Hpk as [Hpk Hnz]. split; [exact Hnz|]. clear Hnz.
  assert (Lk : forall F, length (bytes_of (2 * nh ne) (mask_of (row F (nw ne)))) = (2 * nh ne)%nat) by (intro; apply bytes_of_len).
  assert (Hln : forall F, lane (bytes_of (2 * nh ne) (mask_of (row F (nw ne)))) = mask_of (row F (nw ne))).
  { intro F. apply lane_mask. rewrite row_len, nw_nh. lia. }
  assert (Hpd : forall F G, v_padd (n_pack (cvs F (nh ne)) ++ n_pack (cvs G (nh ne))) = bytes_of (2 * nh ne) (mask_of (row F (nw ne))) ++ bytes_of (2 * nh ne) (mask_of (row G (nw ne)))).
  { intros F G. rewrite padd_app by (rewrite pack_len by exact H24; apply even4). rewrite !pack_cvs by exact H24. rewrite nw_nh. reflexivity. }
  assert (Hfn : forall F z, firstn (2 * nh ne) (bytes_of (2 * nh ne) (mask_of (row F (nw ne))) ++ z) = bytes_of (2 * nh ne) (mask_of (row F (nw ne)))).
  { intros F z. rewrite firstn_app, Lk, Nat.sub_diag, firstn_O, app_nil_r. apply firstn_all2. rewrite Lk. lia. }
  unfold n_masks. rewrite Hpk, !Hpd. cbv zeta.
  destruct (n_a64 ne) eqn:E64.
  - assert (E8 : (2 * nh ne)%nat = 8%nat) by (unfold nh; rewrite E64; reflexivity).
    eexists. split; [|apply Hfn]. rewrite <- E8, Hfn, Hln. f_equal. f_equal.
    rewrite skipn_app, Lk, Nat.sub_diag, skipn_all2 by (rewrite Lk; lia). cbn [skipn app]. apply Hln.
  - assert (E4 : (2 * nh ne)%nat = 4%nat) by (unfold nh; rewrite E64; reflexivity).
    eexists. split; [|apply Hfn]. rewrite <- E4, !Hfn, !Hln. reflexivity.
Qed.

(** ** Loads *)

Section Text.
Variables (B : bufs) (m : mem) (x : Z) (T : list byte).
Hypothesis Hm : bytes_at m x T.
Hypothesis Hr1 : rlo B <= x.
Hypothesis Hr2 : x + zlen T <= rhi B.
Let C := fun p => nth p T x00.

Lemma load_bv k a : (k + 16 <= length T)%nat -> a = x + Z.of_nat k -> load_n B a 16 m = Ok (bv C k, m).
Proof. intros Hk ->. rewrite (load_part B m x T k 16) by (assumption || reflexivity). rewrite part_bv by exact Hk. reflexivity. Qed.

Lemma load_bvs : forall j k a, (k + 16 * j <= length T)%nat -> a = x + Z.of_nat k ->
  load_vecs B a j m = Ok (map (fun i => bv C (16 * i + k)) (seq 0 j), m).
Proof.
  induction j as [|j IH]; intros k a Hk ->; [reflexivity|]. cbn [load_vecs]. erewrite bind_ok by (apply (load_bv k); [lia|reflexivity]).
  erewrite bind_ok by (apply (IH (k + 16)%nat); lia). unfold ret. cbn [seq map]. do 3 f_equal.
  rewrite <- seq_shift, map_map. apply map_ext. intro i. f_equal. lia.
Qed.

Lemma C_skip k q : (k + q < length T)%nat -> nth q (skipn k T) x00 = C (k + q)%nat.
Proof.
  intro H. unfold C. rewrite <- (firstn_skipn k T) at 2. rewrite app_nth2 by (rewrite firstn_length; lia). f_equal. rewrite firstn_length. lia.
Qed.

(** The bytes after the block, of which the first four are in the source. *)
Lemma ext_next h k n : two_four h -> (k <= 4)%nat -> n = (16 * h)%nat -> (n + 4 <= length T)%nat ->
  v_ext (bv C (16 * (h - 1))) (read_n m (x + Z.of_nat n) 16) k = bv C (16 * (h - 1) + k).
Proof.
  intros H24 Hk -> Hl.
  assert (R : forall j, (j < 4)%nat -> nth j (read_n m (x + Z.of_nat (16 * h)) 16) x00 = C (16 * h + j)%nat).
  { intros j Hj.
    assert (E : bytes_at m (x + Z.of_nat (16 * h)) (skipn (16 * h) T)).
    { rewrite <- (firstn_skipn (16 * h) T) in Hm. apply bytes_at_app in Hm as [_ H]. replace (zlen (firstn (16 * h) T)) with (Z.of_nat (16 * h)) in H; [exact H|].
      unfold zlen. rewrite firstn_length. lia. }
    rewrite <- C_skip by lia. assert (Hs : (4 <= length (skipn (16 * h) T))%nat) by (rewrite skipn_length; lia).
    destruct (skipn (16 * h) T) as [|c0 [|c1 [|c2 [|c3 u]]]]; cbn [length] in Hs; try lia. cbn [bytes_at] in E.
    destruct E as (E0 & E1 & E2 & E3 & _). cbn [read_n].
    do 4 (destruct j as [|j]; [cbn [nth]; assumption|]). lia. }
  set (nd := read_n m (x + Z.of_nat (16 * h)) 16) in *.
  assert (Hnd : length nd = 16%nat) by (unfold nd; apply length_read_n).
  clearbody nd. destruct nd as [|d0 [|d1 [|d2 [|d3 nd]]]]; try discriminate.
  pose proof (R 0%nat ltac:(lia)) as R0. pose proof (R 1%nat ltac:(lia)) as R1. pose proof (R 2%nat ltac:(lia)) as R2. pose proof (R 3%nat ltac:(lia)) as R3.
  cbn [nth] in R0, R1, R2, R3. subst d0 d1 d2 d3. clear R. clearbody C.
  destruct H24 as [-> | ->]; do 5 (destruct k as [|k]; [reflexivity|]); lia.
Qed.

End Text.

(** ** End markers *)

Lemma cmp_bv C k z c : u8 z = c -> v_cmpeq (bv C k) (v_set1 z) = cv (fun p => beq (C p) c) k.
Proof. intros <-. unfold v_set1. rewrite cmpeq_rep by reflexivity. unfold bv, cv. rewrite map_map. reflexivity. Qed.

Lemma and_cv F G k : v_and (cv F k) (cv G k) = cv (fun p => F p && G p) k.
Proof. unfold cv. rewrite vm_and. reflexivity. Qed.

Lemma cv_ext F G k : (forall p, F p = G p) -> cv F k = cv G k.
Proof. intro H. unfold cv. f_equal. apply map_ext. intro. apply H. Qed.
Lemma cvs_ext F G h : (forall p, F p = G p) -> cvs F h = cvs G h.
Proof. intro H. unfold cvs. apply map_ext. intro. apply cv_ext, H. Qed.

(** The comparison with [c], [k] characters further on. *)
Definition is (C : nat -> byte) (c : byte) (k p : nat) : bool := beq (C (k + p)%nat) c.

Lemma cmp_exts C k h z c last : two_four h -> (k <= 4)%nat -> u8 z = c -> last = bv C (16 * (h - 1) + k) ->
  map (fun v => v_cmpeq v (v_set1 z)) (exts k (bvs C 0 h) ++ [last]) = cvs (is C c k) h.
Proof. intros H24 Hk Hz ->. rewrite exts_bvs by assumption. apply cmp_bvs. exact Hz. Qed.

Lemma eq_exts C k h last : two_four h -> (k <= 4)%nat -> last = bv C (16 * (h - 1) + k) ->
  exts k (cvs (is C EQS 0) h) ++ [v_cmpeq last (v_set1 61)] = cvs (is C EQS k) h.
Proof. intros H24 Hk ->. rewrite (cmp_bv C _ 61 EQS) by reflexivity. exact (exts_cvs (is C EQS 0) k h H24 Hk). Qed.

Definition end_at (C : nat -> byte) (p : nat) : bool :=
  (is C CR 0 p && is C DOT 2 p && is C LF 1 p && (is C CR 3 p && is C LF 4 p || is C EQS 3 p && is C YY 4 p)) ||
  (is C CR 0 p && is C LF 1 p && (is C EQS 2 p && is C YY 3 p)).

Lemma match_end_ok ne C h : two_four h ->
  n_match_end ne (bvs C 0 h) (cvs (is C EQS 0) h) (cvs (fun p => is C LF 1 p && is C CR 0 p) h)
    (cvs (fun p => is C CR 0 p && is C DOT 2 p && is C LF 1 p) h)
    (bv C (16 * (h - 1) + 2)) (bv C (16 * (h - 1) + 3)) (bv C (16 * (h - 1) + 4)) = existsb id (row (end_at C) (16 * h)).
Proof.
  intro H24. unfold n_match_end. rewrite !eq_exts by (exact H24 || lia || reflexivity).
  rewrite (cmp_exts C 3 h 121 YY) by (exact H24 || lia || reflexivity).
  rewrite (cmp_bv C _ 13 CR), (cmp_bv C _ 10 LF) by reflexivity.
  assert (E3 : v_and (cv (fun p => beq (C p) CR) (16 * (h - 1) + 3)) (cv (fun p => beq (C p) LF) (16 * (h - 1) + 4)) =
    cv (fun p => is C LF 1 p && is C CR 0 p) (16 * (h - 1) + 3)).
  { transitivity (v_and (cv (is C CR 0) (16 * (h - 1) + 3)) (cv (is C LF 1) (16 * (h - 1) + 3))).
    - f_equal. unfold cv. f_equal. apply map_ext. intro j. unfold is. do 2 f_equal. lia.
    - rewrite and_cv. apply cv_ext. intro p. apply andb_comm. }
  rewrite E3, (exts_cvs _ 3) by (exact H24 || lia). clear E3.
  rewrite exts_bvs by (exact H24 || lia). rewrite eqy16_bvs by exact H24.
  rewrite and_cvs, !merge_cvs by exact H24. rewrite sri_mg, mg_or, !mg_and, mg_or, mg_any by exact H24.
  f_equal. apply row_ext. intros p _. unfold end_at.
  assert (Ey : (if Nat.even p then is C YY 3 (S p) && is C EQS 2 (S p)
      else let q := (if Nat.even p then p + 4 else p + 3)%nat in beq (C q) EQS && beq (C (S q)) YY) = is C EQS 3 p && is C YY 4 p).
  { unfold is. destruct (Nat.even p); [replace (3 + S p)%nat with (4 + p)%nat by lia; replace (2 + S p)%nat with (3 + p)%nat by lia; apply andb_comm|].
    cbv zeta. replace (p + 3)%nat with (3 + p)%nat by lia. reflexivity. }
  cbv zeta in Ey. rewrite Ey.
  replace (is C LF 1 (3 + p)) with (is C LF 4 p) by (unfold is; do 2 f_equal; lia).
  replace (is C CR 0 (3 + p)) with (is C CR 3 p) by (unfold is; do 2 f_equal; lia).
  destruct (is C CR 0 p), (is C LF 1 p), (is C DOT 2 p), (is C CR 3 p), (is C LF 4 p), (is C EQS 3 p), (is C YY 4 p), (is C EQS 2 p), (is C YY 3 p); reflexivity.
Qed.

(** ** The dot of the next block *)

Lemma next_dot_ok ne F h nxt next x y : h = nh ne -> next_rel ne nxt next -> F (16 * h - 2)%nat = x -> F (16 * h - 1)%nat = y -> (x = true -> y = false) ->
  next_rel ne (if x then 1 else if y then 2 else 0) (n_next_dot ne (cvs F h) next).
Proof.
  intros -> Hr Hx Hy Hxy. unfold n_next_dot. rewrite last_cvs by apply nh_24. unfold next_rel, nh in *. destruct (n_a64 ne).
  - assert (E : v_ext (cv F (16 * (4 - 1))) (v_set1 0) 14 = bm (F 62%nat) :: bm (F 63%nat) :: repeat x00 14) by reflexivity.
    rewrite E. cbn [Nat.mul Nat.sub Nat.add] in Hx, Hy. rewrite Hx, Hy. do 2 eexists. split; [reflexivity|].
    destruct x; [rewrite Hxy by reflexivity; cbn; auto|]. destruct y; cbn; auto.
  - assert (E : skipn 8 next = repeat LF 8). { rewrite Hr. unfold lf_n. destruct (nxt =? 1); [reflexivity|]. destruct (nxt =? 2); reflexivity. }
    rewrite E. cbn [Nat.mul Nat.sub Nat.add] in Hx, Hy.
    assert (E2 : v_ext (skipn 8 (cv F (16 * (2 - 1)))) (repeat (u8 10) 8) 6 = bm (F 30%nat) :: bm (F 31%nat) :: repeat (u8 10) 6) by reflexivity.
    rewrite E2, Hx, Hy. destruct x; [rewrite Hxy by reflexivity; reflexivity|]. destruct y; reflexivity.
Qed.

Lemma no_dot_ok ne nxt next : next_rel ne nxt next -> next_rel ne 0 (n_no_dot ne next).
Proof.
  unfold next_rel, n_no_dot. destruct (n_a64 ne); [intros _; exists x00, x00; repeat split|].
  intros ->. unfold lf_n. destruct (nxt =? 1); [reflexivity|]. destruct (nxt =? 2); reflexivity.
Qed.

(** ** Dots to be removed *)

Lemma chop_low k : forall l, chop k (firstn (8 * k) l) = chop k l.
Proof.
  induction k as [|k IH]; intro l; [reflexivity|]. cbn [chop]. f_equal.
  - rewrite firstn_firstn. f_equal. lia.
  - rewrite <- (IH (skipn 8 l)). f_equal. replace (8 * S k)%nat with (8 + 8 * k)%nat by lia. apply skipn_firstn_part.
Qed.

Lemma bytes_low k l : bytes_of k (mask_of (firstn (8 * k) l)) = bytes_of k (mask_of l).
Proof. rewrite !bytes_chop, chop_low. reflexivity. Qed.

Lemma kill_ok ne F M0 packed : length M0 = nw ne -> firstn (2 * nh ne) packed = bytes_of (2 * nh ne) (mask_of M0) ->
  let sh := v_shl (nw ne / 8) (v_padd (n_pack (cvs F (nh ne)) ++ n_pack (cvs F (nh ne)))) 2 in
  let M1 := map2 orb M0 (firstn (nw ne) (false :: false :: row F (nw ne))) in
  N.lor (mask_of M0) (lane (firstn (nw ne / 8) sh)) = mask_of M1 /\
  firstn (2 * nh ne) (v_or packed sh) = bytes_of (2 * nh ne) (mask_of M1).
Proof.
  intros HM Hp sh M1. pose proof (nh_24 ne) as H24. pose proof (nw8 ne) as H8. pose proof (nw_nh ne) as Hnh.
  set (X := firstn (nw ne) (false :: false :: row F (nw ne))) in *.
  assert (HX : length X = nw ne) by (unfold X; rewrite firstn_length; cbn [length]; rewrite row_len; lia).
  assert (Esh : firstn (2 * nh ne) sh = bytes_of (2 * nh ne) (mask_of X)).
  { unfold sh. rewrite padd_app by (rewrite pack_len by exact H24; apply even4). rewrite pack_cvs by exact H24. rewrite <- Hnh, H8.
    assert (Ef : forall a z, firstn (2 * nh ne) (bytes_of (2 * nh ne) a ++ z) = bytes_of (2 * nh ne) a).
    { intros a z. rewrite firstn_app, bytes_of_len, Nat.sub_diag, firstn_O, app_nil_r. apply firstn_all2. rewrite bytes_of_len. lia. }
    unfold v_shl. cbv zeta. rewrite !Ef. rewrite lane_mask by (rewrite row_len; lia).
    change 2%N with (N.of_nat 2) at 1. rewrite mask_shiftl. rewrite <- bytes_low. unfold X. do 3 f_equal. lia. }
  rewrite H8, Esh. split.
  - rewrite lane_mask by lia. apply mask_or. lia.
  - unfold v_or. rewrite firstn_map2, Hp, Esh. fold (v_or (bytes_of (2 * nh ne) (mask_of M0)) (bytes_of (2 * nh ne) (mask_of X))).
    rewrite or_bytes, mask_or by lia. reflexivity.
Qed.

(** ** Lines starting with a dot and end markers *)

Lemma flag_is c k n T : (n + k <= length T)%nat -> row (is (fun p => nth p T x00) c k) n = flags (at_ k c) n T.
Proof. intro H. symmetry. apply flags_row. intros p Hp. apply at_C. lia. Qed.

Lemma newlines_ok ne searchEnd B x l look s m o s1 packed next :
  let n := nw ne in let h := nh ne in let T := l ++ look in let C := fun p => nth p T x00 in
  (searchEnd = true -> n_line ne = true) -> x mod Z.of_nat n = 0 ->
  length l = n -> lookahead true searchEnd <= zlen look ->
  bytes_at m x T -> rlo B <= x -> x + zlen T <= rhi B ->
  simple_state s -> run_raw s l = (o, s1) ->
  let M0 := map2 orb (map special l) (early (dot_next s T) n) in
  next_rel ne (dot_next s T) next -> firstn (2 * h) packed = bytes_of (2 * h) (mask_of M0) ->
  let R := n_newlines ne true searchEnd B x (bvs C 0 h) (cvs (is C EQS 0) h) (mask_of M0) (mask_of (map is_eq l)) packed next m in
  let M1 := map2 orb (map special l) (flags nldot n (pre s ++ l)) in
  (searchEnd = true /\ R = Ok (inl (dot_next s T), m) /\ marker_in (Z.of_nat n) T) \/
  (exists packed' next', R = Ok (inr (mask_of M1, packed', next'), m) /\
   firstn (2 * h) packed' = bytes_of (2 * h) (mask_of M1) /\ next_rel ne (dot_next s1 look) next' /\
   (searchEnd = true -> no_marker_in (Z.of_nat n) T)).
Proof.
  intros n h T C Hline Hal Hl Hlook Hm Hr1 Hr2 Hs Hrun M0 Hnr Hpk R M1. subst R. unfold n_newlines. cbn [orb andb].
  pose proof (nh_24 ne : two_four h) as H24. pose proof (nw_nh ne : n = (16 * h)%nat) as Hnh.
  assert (Hn : (32 <= n)%nat) by (destruct H24 as [E|E]; lia).
  assert (HT : (n + 2 <= length T)%nat) by (unfold T; rewrite app_length; unfold lookahead, zlen in Hlook; destruct searchEnd; lia).
  assert (HTe : searchEnd = true -> (n + 4 <= length T)%nat) by (intros ->; unfold T; rewrite app_length; unfold lookahead, zlen in Hlook; lia).
  destruct (next_dot s l look o s1 n Hs Hrun Hl ltac:(lia)) as [Hnx Hex]. fold T in Hnx, Hex.
  pose proof (kills_split s n T Hs ltac:(lia)) as Hk.
  pose proof (kills_local s l look Hs) as Hkl. rewrite Hl in Hkl. fold T in Hkl. rewrite Hkl in Hk. clear Hkl.
  unfold M1. rewrite Hk. clear M1.
  pose proof (early_eqs (dot_next s T) l n look Hl ltac:(lia) (dot_next_1 s _) (dot_next_2 s _) (dot_next_cases s _)) as Hee.
  pose proof (nextMask_fwd_ok B x l look s m Hm ltac:(lia) Hr1 Hr2) as Hfwd. rewrite Hl in Hfwd. fold T in Hfwd. fold M0 in Hfwd.
  set (nxt := dot_next s T) in *.
  assert (HMl : length M0 = n) by (unfold M0; rewrite map2_len, early_len, map_length by lia; lia).
  fold M0 in Hee.
  assert (Hno : flags nldot n T = repeat false n -> mask_of M0 = mask_of (map2 orb (map special l) ((nxt =? 1) :: (nxt =? 2) :: flags nldot (n - 2) T)) /\ dot_next s1 look = 0).
  { intro Hnd. split.
    - unfold M0, early. do 4 f_equal. rewrite <- (flags_firstn nldot n (n - 2)), Hnd by lia. replace n with ((n - 2) + 2)%nat at 3 by lia.
      rewrite repeat_app, firstn_app, repeat_length, Nat.sub_diag, firstn_O, app_nil_r. symmetry. apply firstn_all2. rewrite repeat_length. lia.
    - rewrite Hnx. rewrite <- (flags_nth nldot n T (n - 2)), <- (flags_nth nldot n T (n - 1)) by lia. rewrite Hnd, !nth_repeat. reflexivity. }
  destruct (N.eqb (mask_of M0) (mask_of (map is_eq l))) eqn:Eo; cbn [negb].
  { (* only '=' *)
    right. apply N.eqb_eq in Eo. apply mask_inj in Eo; [|rewrite map_length; lia].
    destruct (Hee Eo) as [Hn0 Hq]. pose proof (quiet l look n Hl Hq) as Hcr. fold T in Hcr.
    destruct (Hno (flags_weaken nldot (at_ 0 CR) n T nldot_cr Hcr)) as [E1 E2].
    exists packed, next. rewrite <- E1, E2, <- Hn0. repeat split; try assumption.
    intros _. apply no_end_flags. rewrite (flags_weaken endf (at_ 0 CR) n T endf_cr Hcr). clear; induction n; auto. }
  clear Hee.
  set (lst := (16 * (h - 1))%nat).
  assert (Elst : (n - 16)%nat = lst) by (unfold lst; lia).
  set (nd := read_n m (x + Z.of_nat n) 16).
  assert (Hld : exists nextData, (if negb searchEnd then v <- load_n B (x + 2 + (Z.of_nat (nw ne) - 16)) 16;; ret (v, [])
       else v <- n_next ne B (x + Z.of_nat (nw ne));; ret (v_ext (last (bvs C 0 h) []) v 2, v)) m = Ok ((bv C (lst + 2), nextData), m) /\
       (searchEnd = true -> nextData = nd)).
  { fold n. destruct searchEnd; cbn [negb].
    - exists nd. split; [|reflexivity]. specialize (HTe eq_refl).
      erewrite bind_ok with (a := nd) (m' := m).
      2: { unfold n_next, load_line. rewrite (Hline eq_refl).
           replace ((x + Z.of_nat n) mod 16 =? 0) with true.
           2: { symmetry. apply Z.eqb_eq. rewrite Hnh in *. assert (Ex : exists q, x = q * Z.of_nat (16 * h)).
                { exists (x / Z.of_nat (16 * h)). pose proof (Z.div_mod x (Z.of_nat (16 * h)) ltac:(lia)). lia. }
                destruct Ex as [q ->]. replace (q * Z.of_nat (16 * h) + Z.of_nat (16 * h)) with ((q * Z.of_nat h + Z.of_nat h) * 16) by lia. apply Z.mod_mul. lia. }
           replace (rlo B <=? x + Z.of_nat n) with true by lia.
           replace (x + Z.of_nat n <? rhi B) with true by (unfold zlen in Hr2; lia). reflexivity. }
      rewrite last_bvs by exact H24. unfold ret. do 3 f_equal. apply (ext_next m x T Hm h 2 n); assumption || lia.
    - exists []. split; [|discriminate]. erewrite bind_ok; [reflexivity|]. apply (load_bv B m x T Hm Hr1 Hr2); lia. }
  destruct Hld as (nextData & Hld & Hnd). erewrite bind_ok by exact Hld. clear Hld. cbv beta iota zeta.
  assert (Hnx2 : searchEnd = true -> forall k, (k <= 4)%nat -> n_next_data ne B x (bvs C 0 h) nextData k m = Ok (bv C (lst + k), m)).
  { intros Hse k Hk4. specialize (HTe Hse). rewrite (Hnd Hse). unfold n_next_data. destruct (n_a64 ne) eqn:E64.
    - rewrite last_bvs by exact H24. unfold ret. do 2 f_equal. apply (ext_next m x T Hm h k n); assumption || lia.
    - assert (Eh : h = 2%nat) by (unfold h, nh; rewrite E64; reflexivity). apply (load_bv B m x T Hm Hr1 Hr2); unfold lst; rewrite Eh; lia. }
  rewrite (cmp_exts C 2 h 46 DOT) by (exact H24 || lia || reflexivity).
  rewrite (cmp_bvs C 0 h 13 CR) by reflexivity. fold (is C CR 0).
  change (cvs (fun p => beq (C (0 + p)%nat) CR) h) with (cvs (is C CR 0) h).
  rewrite and_cvs, any_cvs by exact H24. rewrite <- Hnh.
  assert (Ecd : row (fun p => is C CR 0 p && is C DOT 2 p) n = flags (fun t => at_ 0 CR t && at_ 2 DOT t) n T).
  { symmetry. apply flags_row. intros p Hp. rewrite !at_C by lia. reflexivity. }
  rewrite Ecd.
  assert (Ean : forall f, existsb id (flags f n T) = false -> flags f n T = repeat false n) by (intros f; apply flags_none_inv).
  assert (Hend : searchEnd = true -> row (end_at C) n = flags endf n T).
  { intro Hse. specialize (HTe Hse). symmetry. apply flags_row. intros p Hp. unfold endf, nldot, crlf, eqy. rewrite !at_C by lia. unfold end_at.
    change (nth (0 + p) T x00) with (C (0 + p)%nat).
    fold (is C CR 0 p) (is C LF 1 p) (is C DOT 2 p) (is C CR 3 p) (is C LF 4 p) (is C EQS 3 p) (is C YY 4 p) (is C EQS 2 p) (is C YY 3 p).
    unfold is, C.
    destruct (beq (nth (0 + p) T x00) CR), (beq (nth (1 + p) T x00) LF), (beq (nth (2 + p) T x00) DOT), (beq (nth (3 + p) T x00) CR), (beq (nth (4 + p) T x00) LF),
      (beq (nth (3 + p) T x00) EQS), (beq (nth (4 + p) T x00) YY), (beq (nth (2 + p) T x00) EQS), (beq (nth (3 + p) T x00) YY); reflexivity. }
  assert (Hstop : searchEnd = true -> existsb id (flags endf n T) = true ->
      (nm <- nextMask_fwd true B x (mask_of M0);; ret (inl nm : Z + N * vec * vec)) m = Ok (inl nxt, m)).
  { intros _ _. erewrite bind_ok by exact Hfwd. reflexivity. }
  destruct (existsb id (flags (fun t => at_ 0 CR t && at_ 2 DOT t) n T)) eqn:Epk.
  - (* a dot after CR and another character *)
    erewrite bind_ok with (a := bv C (lst + 1)) (m' := m).
    2: { destruct searchEnd; [apply Hnx2; [reflexivity|lia]|]. fold n. apply (load_bv B m x T Hm Hr1 Hr2); lia. }
    cbv zeta. rewrite (cmp_exts C 1 h 10 LF) by (exact H24 || lia || reflexivity). rewrite !and_cvs.
    erewrite bind_ok with (a := if searchEnd then existsb id (flags endf n T) else false) (m' := m).
    2: { destruct searchEnd; [|reflexivity]. rewrite (bind_ok _ _ _ _ _ (Hnx2 eq_refl 3%nat ltac:(lia))), (bind_ok _ _ _ _ _ (Hnx2 eq_refl 4%nat ltac:(lia))).
         unfold ret. do 2 f_equal. rewrite <- (Hend eq_refl), Hnh. apply match_end_ok. exact H24. }
    destruct (if searchEnd then existsb id (flags endf n T) else false) eqn:Est.
    + left. destruct searchEnd; [|discriminate]. split; [reflexivity|]. split; [exact (Hstop eq_refl Est)|]. apply end_flags. exact Est.
    + right.
      set (F := fun p => is C CR 0 p && is C DOT 2 p && is C LF 1 p).
      assert (EF : row F n = flags nldot n T).
      { symmetry. apply flags_row. intros p Hp. unfold nldot. rewrite !at_C by lia. unfold F, is, C.
        destruct (beq (nth (0 + p) T x00) CR), (beq (nth (1 + p) T x00) LF), (beq (nth (2 + p) T x00) DOT); reflexivity. }
      assert (HF : forall p, (p < n)%nat -> F p = nldot (skipn p T)).
      { intros p Hp. rewrite <- (flags_nth nldot n T p Hp), <- EF. symmetry. apply row_nth. exact Hp. }
      destruct (kill_ok ne F M0 packed HMl Hpk) as [Ek1 Ek2]. fold n h in Ek1, Ek2. fold n.
      assert (EM : map2 orb M0 (firstn n (false :: false :: row F n)) = map2 orb (map special l) ((nxt =? 1) :: (nxt =? 2) :: flags nldot (n - 2) T)).
      { rewrite EF. apply kills_n. lia. }
      rewrite EM in Ek1, Ek2.
      do 2 eexists. split; [unfold ret; rewrite Ek1; reflexivity|].
      split; [exact Ek2|split; [|intros ->; apply no_end_flags; exact Est]].
      rewrite Hnx. apply (next_dot_ok ne F h nxt); [reflexivity|exact Hnr| | |exact Hex]; rewrite <- Hnh; apply HF; lia.
  - (* none *)
    apply Ean in Epk.
    assert (Hnl : flags nldot n T = repeat false n).
    { apply (flags_weaken nldot (fun t => at_ 0 CR t && at_ 2 DOT t)); [|exact Epk]. intro u. unfold nldot. rewrite !andb_true_iff. tauto. }
    destruct (Hno Hnl) as [E1 E2]. rewrite <- E1, E2.
    destruct searchEnd.
    2: { right. exists packed, (n_no_dot ne next). split; [reflexivity|]. split; [exact Hpk|]. split; [apply (no_dot_ok ne nxt); exact Hnr|discriminate]. }
    specialize (HTe eq_refl). rewrite (bind_ok _ _ _ _ _ (Hnx2 eq_refl 3%nat ltac:(lia))). cbv zeta.
    rewrite eq_exts by (exact H24 || lia || reflexivity). rewrite (cmp_exts C 3 h 121 YY) by (exact H24 || lia || reflexivity).
    rewrite and_cvs, any_cvs by exact H24. rewrite <- Hnh.
    assert (Eqy : row (fun p => is C EQS 2 p && is C YY 3 p) n = flags (fun t => at_ 2 EQS t && at_ 3 YY t) n T).
    { symmetry. apply flags_row. intros p Hp. rewrite !at_C by lia. reflexivity. }
    assert (Hen : flags endf n T = flags (fun t => at_ 2 EQS t && at_ 3 YY t && (at_ 1 LF t && at_ 0 CR t)) n T).
    { apply flags_ext. intros j Hj. unfold endf. rewrite <- (flags_nth nldot n T j Hj), Hnl, nth_repeat. cbn [andb orb].
      unfold crlf, eqy. destruct (at_ 0 CR (skipn j T)), (at_ 1 LF (skipn j T)), (at_ 2 EQS (skipn j T)), (at_ 3 YY (skipn j T)); reflexivity. }
    rewrite Eqy.
    erewrite bind_ok with (a := existsb id (flags endf n T)) (m' := m).
    2: { destruct (existsb id (flags (fun t => at_ 2 EQS t && at_ 3 YY t) n T)) eqn:Eq.
         - rewrite (bind_ok _ _ _ _ _ (Hnx2 eq_refl 1%nat ltac:(lia))). cbv zeta. rewrite (cmp_exts C 1 h 10 LF) by (exact H24 || lia || reflexivity).
           rewrite !and_cvs, any_cvs by exact H24. rewrite <- Hnh, Hen. unfold ret. do 3 f_equal. symmetry. apply flags_row. intros p Hp. rewrite !at_C by lia. reflexivity.
         - unfold ret. do 2 f_equal. apply Ean in Eq. rewrite Hen, (flags_weaken _ (fun t => at_ 2 EQS t && at_ 3 YY t) n T); [clear; induction n; auto| |exact Eq].
           intro u. rewrite !andb_true_iff. tauto. }
    destruct (existsb id (flags endf n T)) eqn:Eend.
    + left. split; [reflexivity|]. split; [exact (Hstop eq_refl eq_refl)|]. apply end_flags. exact Eend.
    + right. exists packed, (n_no_dot ne next). split; [reflexivity|]. split; [exact Hpk|]. split; [apply (no_dot_ok ne nxt); exact Hnr|].
      intros _. apply no_end_flags. exact Eend.
Qed.

(** ** The body of the loop *)

Lemma text_C l look n : length l = n -> map (fun p => nth p (l ++ look) x00) (seq 0 n) = l.
Proof.
  intros <-. apply (nth_ext _ _ x00 x00); [rewrite map_length, seq_length; reflexivity|]. rewrite map_length, seq_length. intros p Hp.
  rewrite (nth_indep _ x00 (nth 0 (l ++ look) x00)) by (rewrite map_length, seq_length; exact Hp).
  rewrite (map_nth (fun p => nth p (l ++ look) x00)), seq_nth by exact Hp. apply app_nth1. exact Hp.
Qed.

Lemma store_vecs_ok B : forall (vs : list vec) h p m, length vs = h -> Forall (fun v => length v = 16%nat) vs -> wlo B <= p -> p + Z.of_nat (16 * h) <= whi B ->
  exists m', store_vecs B p vs m = Ok (tt, m') /\ bytes_at m' p (concat vs) /\ (forall q, ~ (p <= q < p + Z.of_nat (16 * h)) -> m' q = m q).
Proof.
  induction vs as [|v vs IH]; intros h p m <- Hv Hw1 Hw2; [exists m; repeat split|].
  inversion_clear Hv as [|? ? Hv1 Hv2]. cbn [store_vecs length concat] in *.
  assert (Hz : zlen v = 16) by (unfold zlen; lia).
  destruct (store_n_ok B v p m Hw1 ltac:(lia)) as (m1 & S1 & B1 & F1). erewrite bind_ok by exact S1.
  destruct (IH (length vs) (p + 16) m1 eq_refl Hv2 ltac:(lia) ltac:(lia)) as (m2 & S2 & B2 & F2).
  exists m2. split; [exact S2|]. split.
  - apply bytes_at_app. rewrite Hz. split; [|exact B2]. eapply bytes_at_ext; [|exact B1]. intros q Hq. apply F2. lia.
  - intros q Hq. rewrite F2 by lia. apply F1. lia.
Qed.

Definition neon_rel (ne : neond) (t : neon_vars) (p : Z) (esc : bool) (nxt : Z) : Prop :=
  let '(p', e, yo, next) := t in p' = p /\ e = N.b2n esc /\ yo = roff esc 16 /\ next_rel ne nxt next.

Lemma set_lane_off esc e : set_lane 0 (Z.lor (Z.shiftl (Z.of_N (N.b2n e)) 6) 42) (roff esc 16) = roff e 16.
Proof. destruct esc, e; reflexivity. Qed.

Lemma neon_block_ok ne isRaw searchEnd : (searchEnd = true -> isRaw = true) -> (searchEnd = true -> n_line ne = true) ->
  block_ok true isRaw searchEnd (Z.of_nat (nw ne)) (neon_block ne isRaw searchEnd) (neon_rel ne).
Proof.
  intros Hmode Hline B src i t p s l look m o s1 Hl Hm Hal Hlook Hr1 Hr2 Hw1 Hw2 Hs HR Hrun.
  destruct t as [[[p' e] yo] next]. destruct HR as (-> & -> & -> & Hnr).
  pose proof (nh_24 ne) as H24. pose proof (nw_nh ne) as Hnh.
  assert (HL : length l = nw ne) by (unfold zlen in Hl; lia).
  pose proof (zlen_nonneg look) as Hlk.
  destruct (block_m _ _ _ _ _ Hs Hrun) as [Ho He1].
  set (n := nw ne) in *. set (h := nh ne) in *.
  assert (Hn : (32 <= n)%nat) by (destruct H24 as [E|E]; lia).
  set (x := src + i) in *. set (nxt := dot_next s (l ++ look)) in *.
  assert (Hnxt0 : nxt = 0 \/ nxt = 1 \/ nxt = 2) by apply dot_next_cases.
  assert (Hnxt1 : nxt = 1 -> exists r, l ++ look = DOT :: r) by apply dot_next_1.
  assert (Hnxt2 : nxt = 2 -> exists r, l ++ look = LF :: DOT :: r) by apply dot_next_2.
  assert (Hr2' : x + zlen (l ++ look) <= rhi B) by (rewrite zlen_app; lia).
  set (C := fun p => nth p (l ++ look) x00).
  assert (HC : map C (seq 0 n) = l) by (apply text_C; exact HL).
  unfold neon_block. fold x.
  erewrite bind_ok with (a := bvs C 0 h) (m' := m).
  2: { unfold n_load. replace (n_a64 ne || (x mod 32 =? 0)) with true.
       2: { unfold n, nw in Hal. destruct (n_a64 ne); [reflexivity|]. change (Z.of_nat 32) with 32 in Hal. rewrite Hal. reflexivity. }
       replace (nw ne / 16)%nat with h by (fold n; rewrite Hnh, Nat.mul_comm, Nat.div_mul; lia).
       apply (load_bvs B m x (l ++ look) Hm Hr1 Hr2' h 0 x); [rewrite app_length; lia|lia]. }
  cbv zeta.
  assert (Eeq : map (fun d => v_cmpeq d (v_set1 61)) (bvs C 0 h) = cvs (is C EQS 0) h) by exact (cmp_bvs C 0 h 61 EQS eq_refl).
  rewrite Eeq.
  destruct (cmp_masks ne C nxt next isRaw (is C EQS 0) Hnr) as (Hany & packed & Hmk & Hpk).
  { intros ->. apply plain_dot. exact Hs. }
  { exact Hnxt0. }
  { intro E. destruct (Hnxt1 E) as [r Hr]. unfold C. rewrite Hr. reflexivity. }
  { intro E. destruct (Hnxt2 E) as [r Hr]. unfold C. rewrite Hr. split; reflexivity. }
  fold n h in Hany, Hmk, Hpk.
  assert (Erow : row (is C EQS 0) n = map is_eq l) by (rewrite <- HC, map_map; reflexivity).
  set (M0 := map2 orb (map special l) (early nxt n)).
  assert (Espc : row (spc C nxt) n = M0) by (unfold M0; rewrite <- HC; apply spc_row; lia).
  rewrite Erow, Espc in Hmk. rewrite Espc in Hpk, Hany. rewrite Hmk. cbv beta iota.
  assert (HMl : length M0 = n) by (unfold M0; rewrite map2_len, early_len, map_length by lia; lia).
  assert (Hif : (if n_a64 ne then n_nonzero ne (or_vecs (n_cmp ne isRaw (bvs C 0 h) next)) else negb (N.eqb (mask_of M0) 0)) = existsb id M0).
  { destruct (n_a64 ne); [apply Hany; reflexivity|]. rewrite mask_eqb0. apply negb_involutive. }
  rewrite Hif. destruct (existsb id M0) eqn:Eany.
  { (* something to do *)
    set (M1 := map2 orb (map special l) (kills_of isRaw s l)).
    set (R := n_newlines ne isRaw searchEnd B x (bvs C 0 h) (cvs (is C EQS 0) h) (mask_of M0) (mask_of (map is_eq l)) packed next m).
    assert (Hnl : (searchEnd = true /\ R = Ok (inl nxt, m) /\ marker_in (Z.of_nat n) (l ++ look)) \/
      (exists packed' next', R = Ok (inr (mask_of M1, packed', next'), m) /\
        firstn (2 * h) packed' = bytes_of (2 * h) (mask_of M1) /\ next_rel ne (dot_next s1 look) next' /\
        (searchEnd = true -> no_marker_in (Z.of_nat n) (l ++ look)))).
    { unfold R, M1. destruct isRaw.
      - unfold kills_of. rewrite HL. apply (newlines_ok ne searchEnd B x l look s m o s1 packed next); assumption.
      - right. destruct searchEnd; [discriminate (Hmode eq_refl)|]. exists packed, next.
        assert (E : map2 orb (map special l) (kills_of false s l) = M0).
        { unfold M0, kills_of. rewrite HL. unfold nxt. rewrite (plain_dot s _ Hs). f_equal. unfold early. destruct n as [|[|k]]; [lia|lia|].
          cbn [Nat.sub repeat Z.eqb]. rewrite Nat.sub_0_r. reflexivity. }
        rewrite E. split; [reflexivity|]. split; [exact Hpk|]. split; [|discriminate].
        rewrite (plain_dot s1) by exact (proj1 (run_m_good _ _ _ _ _ Hs Hrun)). unfold nxt in Hnr. rewrite (plain_dot s _ Hs) in Hnr. exact Hnr. }
    unfold R in Hnl. clear R.
    destruct Hnl as [(Hse & Hnl & Hmark)|(packed' & next' & Hnl & Hpk' & Hnr' & Hno)].
    { left. split; [exact Hse|]. split; [|intros _; exact Hmark]. erewrite bind_ok by exact Hnl. reflexivity. }
    right. erewrite bind_ok by exact Hnl. cbv beta iota.
    assert (Hkl : length (kills_of isRaw s l) = n) by (unfold kills_of; destruct isRaw; rewrite ?flags_len, ?repeat_length; exact HL).
    assert (HM1 : length M1 = n) by (unfold M1; rewrite map2_len, map_length; lia).
    destruct (unescape_neon ne (is_esc s) C M1 packed' HM1) as (ds & packed2 & Hun & Hcat & Hall & Hdl & Hpk2).
    { fold n. rewrite HC. apply eqs_special. lia. }
    { exact Hpk'. }
    fold n h in Hun, Hcat, Hdl, Hpk2. rewrite HC in Hun, Hcat, Hpk2. change (fun p => beq (C p) EQS) with (is C EQS 0) in Hun.
    rewrite Hun. cbv beta iota.
    change (map2 (fun s0 e => s0 && negb e) M1 (escs (is_esc s) (map is_eq l))) with (removed (kills_of isRaw s l) (is_esc s) l) in *.
    set (rm := removed (kills_of isRaw s l) (is_esc s) l) in *.
    assert (Hrml : length rm = n) by (unfold rm; rewrite removed_len by lia; exact HL).
    destruct (compact_ok ne B p ds rm packed2 m Hrml Hall Hdl Hpk2 Hw1 Hw2) as (m' & Hst & Hb & Hf).
    erewrite bind_ok by exact Hst. rewrite <- He1. rewrite set_lane_off.
    rewrite Hcat in Hb. fold rm in Ho. rewrite <- Ho in Hb.
    assert (Hzo : zlen o = nkeep rm) by (rewrite Ho; apply pick_len; rewrite decoded_len; lia).
    eexists. exists m'. split; [reflexivity|]. split; [|split; [exact Hb|split; [exact Hf|exact Hno]]].
    unfold neon_rel. rewrite <- Hzo. repeat split. exact Hnr'. }
  (* nothing to do *)
  right.
  rename Eany into Hex. apply none_repeat with (n := n) in Hex; [|exact HMl].
  assert (Hsp : map special l = repeat false n).
  { refine (proj1 (orb_none _ _ _ _ _ Hex)); [rewrite map_length; exact HL|apply early_len; lia]. }
  destruct (early_eqs nxt l n look HL ltac:(lia) Hnxt1 Hnxt2 Hnxt0) as [Hn0 Hq].
  { fold M0. rewrite Hex. rewrite <- HL in Hsp. rewrite (proj1 (special_none l Hsp)), HL. reflexivity. }
  pose proof (quiet l look n HL Hq) as Hcr.
  pose proof (flags_weaken nldot (at_ 0 CR) n _ nldot_cr Hcr) as Hnd.
  assert (Hkill : kills_of isRaw s l = repeat false n).
  { unfold kills_of. rewrite HL. destruct isRaw; [|reflexivity].
    pose proof (kills_local s l look Hs) as Hkl. rewrite HL in Hkl. rewrite <- Hkl, (kills_split s n) by (try exact Hs; lia).
    fold nxt. rewrite Hn0. cbn [Z.eqb].
    replace (flags nldot (n - 2) (l ++ look)) with (repeat false (n - 2)); [destruct n as [|[|k]]; [lia|lia|cbn [Nat.sub repeat]; rewrite Nat.sub_0_r; reflexivity]|].
    rewrite <- (flags_firstn nldot n (n - 2)), Hnd by lia. replace n with ((n - 2) + 2)%nat at 3 by lia.
    rewrite repeat_app, firstn_app, repeat_length, Nat.sub_diag, firstn_O, app_nil_r. symmetry. apply firstn_all2. rewrite repeat_length. lia. }
  rewrite Hkill in Ho.
  destruct (idle (repeat false n) (is_esc s) l (n - 1)) as (Hp & Hlo & _ & _); [lia|rewrite repeat_length; lia| |].
  { rewrite Hsp. replace (S (n - 1)) with n by lia. clear. induction n as [|n IH]; [reflexivity|]. cbn [repeat map2]. rewrite IH. reflexivity. }
  rewrite Hp in Ho. rewrite Hlo in He1.
  pose proof (plain_ok (is_esc s) C h H24) as Hpl. rewrite <- Hnh, HC in Hpl. rewrite <- Ho in Hpl.
  set (vs := map2 v_sub (bvs C 0 h) (roff (is_esc s) 16 :: repeat (v_set1 42) (length (bvs C 0 h) - 1))) in *.
  assert (Hvs : Forall (fun v => length v = 16%nat) vs) by (unfold vs; clear; destruct (nh_24 ne) as [E|E]; unfold h; rewrite E; repeat constructor).
  assert (Hvl : length vs = h) by (unfold vs; clear; destruct (nh_24 ne) as [E|E]; unfold h; rewrite E; reflexivity).
  assert (Hzo : zlen o = Z.of_nat n) by (rewrite Ho; unfold zlen; rewrite map2_len; cbn [length]; rewrite repeat_length; lia).
  destruct (store_vecs_ok B vs h p m Hvl Hvs Hw1) as (m' & Hst & Hb & Hf); [lia|].
  rewrite <- Hnh in Hf. rewrite Hpl in Hb.
  erewrite bind_ok by exact Hst.
  eexists. exists m'. split; [reflexivity|]. split; [|split; [exact Hb|split; [exact Hf|]]].
  - unfold neon_rel. rewrite He1, Hzo.
    split; [reflexivity|]. split; [reflexivity|]. split.
    { destruct (n_a64 ne); [reflexivity|]. destruct (is_esc s); reflexivity. }
    assert (Hz : dot_next s1 look = 0).
    { destruct isRaw.
      - destruct (next_dot s l look o s1 n Hs Hrun HL ltac:(lia)) as [-> _].
        rewrite <- (flags_nth nldot n (l ++ look) (n - 2)), <- (flags_nth nldot n (l ++ look) (n - 1)) by lia.
        rewrite Hnd, !nth_repeat. reflexivity.
      - apply plain_dot. exact (proj1 (run_m_good _ _ _ _ _ Hs Hrun)). }
    rewrite Hz, <- Hn0. exact Hnr.
  - intros _. apply no_end_flags. rewrite (flags_weaken endf (at_ 0 CR) n _ endf_cr Hcr). clear; induction n; auto.
Qed.

(** ** The kernels *)

Lemma next_init_ok ne isRaw nxt : (nxt = 0 \/ nxt = 1 \/ nxt = 2) -> (isRaw = false -> nxt = 0) -> next_rel ne nxt (n_next_init ne isRaw nxt).
Proof.
  intros H0 Hp. unfold next_rel, n_next_init. destruct (n_a64 ne).
  - destruct H0 as [-> |[-> | ->]]; cbn; do 2 eexists; repeat split; auto.
  - destruct isRaw; [destruct H0 as [-> |[-> | ->]]; reflexivity|]. rewrite Hp by reflexivity. reflexivity.
Qed.

Theorem neon_kernel_x ne isRaw searchEnd : (searchEnd = true -> isRaw = true) -> (searchEnd = true -> n_line ne = true) ->
  kernel_ok_x true isRaw searchEnd (Z.of_nat (nw ne)) (do_decode_neon ne isRaw searchEnd).
Proof.
  intros Hmode Hline B src dest d look s m Hm Hd Hw Hal Hlook Hr1 Hr2 Hw1 Hw2 Hap Hent.
  pose proof (entry_good _ _ _ Hent) as Hs.
  assert (Hn32 : (32 <= nw ne)%nat) by (unfold nw; destruct (n_a64 ne); lia).
  set (n := nw ne) in *.
  assert (Hn : zlen d = Z.of_nat (Z.to_nat (zlen d / Z.of_nat n)) * Z.of_nat n) by nia.
  assert (Hbig : Z.of_nat n <= zlen d) by nia.
  set (nxt := dot_next s (d ++ look)).
  assert (Hini : next_rel ne nxt (n_next_init ne isRaw nxt)).
  { apply next_init_ok; [apply dot_next_cases|]. intros ->. apply plain_dot. exact Hs. }
  destruct (block_loop_ok true isRaw searchEnd (Z.of_nat n) (neon_block ne isRaw searchEnd) (neon_rel ne) (neon_block_ok ne isRaw searchEnd Hmode Hline) ltac:(lia)
    (Z.to_nat (zlen d / Z.of_nat n)) (Z.to_nat (zlen d)) B (src + zlen d)
    (dest, N.b2n (is_esc s), roff (is_esc s) 16, n_next_init ne isRaw nxt) dest s d look m)
    as (d1 & d2 & o & s1 & m' & t' & stop & E1 & E2 & E3 & E4 & E5 & E6 & E7 & E8).
  - exact Hn.
  - nia.
  - rewrite Z.add_mod, Hal, Hw by lia. apply Z.mod_0_l. lia.
  - replace (src + zlen d - zlen d) with src by lia. exact Hm.
  - exact Hlook.
  - lia.
  - lia.
  - exact Hw1.
  - exact Hw2.
  - lia.
  - exact Hs.
  - repeat apply conj; try reflexivity. exact Hini.
  - exists d1, d2, o, s1, m'. split; [|intros _; destruct E5 as [[-> _]|(_ & _ & Hmk)]; auto].
    split; [exact E1|]. split.
    { intro Hse. destruct E5 as [[-> _]|[Hc _]]; [reflexivity|congruence]. }
    split; [exact E2|]. split; [exact E6|]. split; [|split; assumption].
    unfold do_decode_neon. fold nxt. cbv zeta.
    assert (Hy : (if negb (esc_flag s =? 0) then u8 (42 + 64) :: repeat (u8 42) 15 else v_set1 42) = roff (is_esc s) 16) by (destruct s; reflexivity).
    rewrite Hy.
    replace (Z.to_N (esc_flag s)) with (N.b2n (is_esc s)) by (destruct s; reflexivity).
    destruct (run_m isRaw s d) as [od sd] eqn:Erd.
    erewrite bind_ok.
    2: { apply (nextMask_back_ok isRaw B (src + zlen d) d look m s od sd); try assumption; try lia.
         - replace (src + zlen d - zlen d) with src by lia. exact Hm.
         - unfold lookahead in *. destruct searchEnd, isRaw; lia. }
    fold n. erewrite bind_ok by exact E3. destruct t' as [[[p' e'] yo'] lf']. destruct E4 as (-> & -> & _ & _).
    rewrite <- esc_flag_b2n.
    destruct E5 as [[-> ->]|(_ & -> & _)].
    + rewrite app_nil_r in E1. subst d1. rewrite Erd in E2. injection E2 as -> ->. reflexivity.
    + unfold ret. replace (zlen d + - zlen d2) with (zlen d1) by (rewrite E1, zlen_app; lia). reflexivity.
Qed.

Theorem neon_kernel_ok ne isRaw searchEnd : (searchEnd = true -> isRaw = true) -> (searchEnd = true -> n_line ne = true) ->
  kernel_ok isRaw searchEnd (Z.of_nat (nw ne)) (do_decode_neon ne isRaw searchEnd).
Proof. intros Hd H. exact (kernel_x_ok _ _ _ _ _ (neon_kernel_x ne isRaw searchEnd Hd H)). Qed.

Definition n_log (ne : neond) : Z := if n_a64 ne then 6 else 5.
Lemma n_log_1 ne : 1 <= n_log ne.
Proof. unfold n_log. destruct (n_a64 ne); lia. Qed.
Lemma nw_pow ne : Z.of_nat (nw ne) = 2 ^ n_log ne.
Proof. unfold nw, n_log. destruct (n_a64 ne); reflexivity. Qed.
Lemma neon_simd ne : neon_decoders ne = simd (2 ^ n_log ne) (do_decode_neon ne false false) (do_decode_neon ne true false) (do_decode_neon ne true true).
Proof. unfold neon_decoders. rewrite nw_pow. reflexivity. Qed.
