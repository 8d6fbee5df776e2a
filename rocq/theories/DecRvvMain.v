(** The RVV kernel meets the contract of the front-end for vectors of up to 256 bits. *)
From Verif Require Import Base BaseLemmas EncSpec DecSpec DecModel DecProofs DecMaskSpec DecMaskModel DecMaskProofs
  DecSimdModel DecSimdSpec DecVec DecKernelModel DecBlock DecKernel DecVecProofs DecBlockFacts DecSseModel DecCompact DecSseProofs DecSseMain DecValid
  EncSseModel EncRvvModel DecRvvModel DecRvvProofs.
From Coq Require Import ZifyBool ZifyNat ZifyN.
Ltac Zify.zify_post_hook ::= Z.div_mod_to_equations.

(** ** Finding the special characters *)

Definition lf_n (nxt : Z) (n : nat) : vec :=
  if nxt =? 1 then DOT :: repeat LF (n - 1) else if nxt =? 2 then LF :: DOT :: repeat LF (n - 2) else repeat LF n.

Lemma beq_lf : forall l n, length l = n -> map2 beq l (repeat LF n) = map (fun b => beq b LF) l.
Proof. intros l n <-. induction l as [|c l IH]; [reflexivity|]. cbn [length repeat map2 map]. rewrite IH. reflexivity. Qed.

Lemma cmp_slow l : map2 (fun a b => negb (a || b)) (map2 orb (map (fun b => beq b EQS) l) (map (fun b => beq b CR) l)) (map (fun b => beq b LF) l)
  = map negb (map special l).
Proof.
  induction l as [|c l IH]; [reflexivity|]. cbn [map map2]. rewrite IH. f_equal. unfold special, is_nl, is_eq.
  destruct (beq c EQS), (beq c CR), (beq c LF); reflexivity.
Qed.

Lemma cmp_ok isRaw l nxt n : length l = n -> (2 <= n)%nat -> (isRaw = false -> nxt = 0) ->
  (nxt = 1 -> exists r, l = DOT :: r) -> (nxt = 2 -> exists r, l = LF :: DOT :: r) -> (nxt = 0 \/ nxt = 1 \/ nxt = 2) ->
  map2 (fun a b => negb (a || b)) (map2 orb (map (fun b => beq b (u8 61)) l) (map (fun b => beq b (u8 13)) l))
    (if isRaw then map2 beq l (lf_n nxt n) else map (fun b => beq b (u8 10)) l)
  = map negb (map2 orb (map special l) (early nxt n)).
Proof.
  intros Hl Hn Hp H1 H2 H0. change (u8 61) with EQS. change (u8 13) with CR. change (u8 10) with LF.
  assert (Z0 : nxt = 0 -> map2 orb (map special l) (early nxt n) = map special l).
  { intros ->. replace (early 0 n) with (repeat false (length (map special l))); [apply orb_repeat|].
    rewrite map_length, Hl. unfold early. destruct n as [|[|k]]; try lia. cbn [Nat.sub repeat Z.eqb]. rewrite Nat.sub_0_r. reflexivity. }
  destruct isRaw.
  - destruct H0 as [->|[->| ->]].
    + rewrite (Z0 eq_refl). change (lf_n 0 n) with (repeat LF n). rewrite beq_lf by exact Hl. apply cmp_slow.
    + destruct (H1 eq_refl) as [r ->]. cbn [length] in Hl.
      change (lf_n 1 n) with (DOT :: repeat LF (n - 1)). unfold early. destruct n as [|[|k]]; try lia.
      cbn [Nat.sub]. rewrite Nat.sub_0_r. change ((1 =? 1) :: (1 =? 2) :: repeat false k) with (true :: repeat false (S k)).
      cbn [map map2]. change (beq DOT EQS) with false. change (beq DOT CR) with false. change (beq DOT DOT) with true. cbn [orb negb]. rewrite orb_true_r.
      f_equal. rewrite beq_lf by lia. rewrite cmp_slow. replace (S k) with (length (map special r)) by (rewrite map_length; lia). rewrite orb_repeat. reflexivity.
    + destruct (H2 eq_refl) as [r ->]. cbn [length] in Hl.
      change (lf_n 2 n) with (LF :: DOT :: repeat LF (n - 2)). unfold early. destruct n as [|[|k]]; try lia.
      cbn [Nat.sub]. rewrite Nat.sub_0_r. change ((2 =? 1) :: (2 =? 2) :: repeat false k) with (false :: true :: repeat false k).
      cbn [map map2]. change (beq LF EQS) with false. change (beq LF CR) with false. change (beq LF LF) with true.
      change (beq DOT EQS) with false. change (beq DOT CR) with false. change (beq DOT DOT) with true. change (special LF) with true. cbn [orb negb]. rewrite orb_true_r.
      do 2 f_equal. rewrite beq_lf by lia. rewrite cmp_slow. replace k with (length (map special r)) by (rewrite map_length; lia). rewrite orb_repeat. reflexivity.
  - rewrite (Z0 (Hp eq_refl)). apply cmp_slow.
Qed.

(** Something besides '=' to be removed. *)
Lemma any_other : forall M E, Forall2 (fun e s : bool => e = true -> s = true) E M ->
  (0 <? cpop (map2 (fun a b => negb (xorb a b)) (map negb M) E)) = false -> M = E.
Proof.
  intros M E H. rewrite cpop_any. induction H as [|e s E M Hes H IH]; [reflexivity|]. cbn [map map2 existsb]. unfold id at 1.
  intro Hx. apply orb_false_elim in Hx as [Hx1 Hx2]. rewrite (IH Hx2). f_equal. destruct s, e; try reflexivity; try discriminate.
Qed.

(** ** The dot of the next block *)

Lemma last_byte k : forall l, length l = (8 * S k)%nat -> nth k (mask_bytes (S k) l) 0%N = mask_of (skipn (8 * k) l).
Proof.
  induction k as [|k IH]; intros l H.
  - cbn [mask_bytes nth]. rewrite firstn_all2 by lia. reflexivity.
  - replace (8 * S k)%nat with (8 + 8 * k)%nat by lia. rewrite <- skipn_plus || rewrite <- (skipn_plus (8 * k) 8).
    rewrite <- IH by (rewrite skipn_length; lia). reflexivity.
Qed.

Lemma zero_bytes k : concat (map bits8 (repeat 0%N k)) = repeat false (8 * k).
Proof. induction k as [|k IH]; [reflexivity|]. replace (8 * S k)%nat with (8 + 8 * k)%nat by lia. cbn [repeat map concat]. rewrite IH. reflexivity. Qed.

Lemma merge_dot : forall k, map2 (fun (b : bool) c => if b then u8 46 else c) (repeat false k) (repeat (u8 10) k) = repeat LF k.
Proof. induction k as [|k IH]; [reflexivity|]. cbn [repeat map2]. rewrite IH. reflexivity. Qed.

Lemma next_lf k l x y : length l = (8 * S k)%nat -> nth (8 * k + 6) l false = x -> nth (8 * k + 7) l false = y -> (x = true -> y = false) ->
  map2 (fun (b : bool) c => if b then u8 46 else c)
    (concat (map bits8 (N.shiftr (nth (8 * S k / 8 - 1) (mask_bytes (8 * S k / 8) l) 0%N) 6 :: repeat 0%N (8 * S k / 8 - 1)))) (repeat (u8 10) (8 * S k))
  = lf_n (if x then 1 else if y then 2 else 0) (8 * S k).
Proof.
  intros Hl Hx Hy He. replace (8 * S k / 8)%nat with (S k) by lia. replace (S k - 1)%nat with k by lia.
  rewrite last_byte by exact Hl.
  assert (Hs : length (skipn (8 * k) l) = 8%nat) by (rewrite skipn_length; lia).
  destruct (shift2_byte false false _ Hs) as [_ ->].
  assert (Hn : forall j, nth j (skipn (8 * k) l) false = nth (8 * k + j) l false).
  { clear. intro j. generalize (8 * k)%nat. intro a. revert l. induction a as [|a IH]; intro l; [reflexivity|].
    destruct l; [destruct j; reflexivity|]. apply IH. }
  rewrite !Hn, Hx, Hy. cbn [map concat]. rewrite zero_bytes.
  replace (bits8 (mask_of [x; y])) with ([x; y] ++ repeat false 6) by (destruct x, y; reflexivity).
  rewrite <- app_assoc, <- repeat_app. replace (8 * S k)%nat with (S (S (6 + 8 * k))) by lia.
  generalize (6 + 8 * k)%nat. intro q. cbn [repeat app map2]. rewrite merge_dot.
  unfold lf_n. replace (S (S q) - 1)%nat with (S q) by lia. replace (S (S q) - 2)%nat with q by lia.
  destruct x; [rewrite (He eq_refl); reflexivity|]. destruct y; reflexivity.
Qed.

(** ** Masks *)

Lemma andn_negb : forall a b, map2 (fun a b => a && negb b) (map negb a) b = map negb (map2 orb a b).
Proof. induction a as [|x a IH]; intros [|y b]; try reflexivity. cbn [map map2]. rewrite IH. f_equal. destruct x, y; reflexivity. Qed.

Lemma kills_n sp nxt n T : (2 <= n)%nat ->
  map2 orb (map2 orb sp (early nxt n)) (firstn n (false :: false :: flags nldot n T))
  = map2 orb sp ((nxt =? 1) :: (nxt =? 2) :: flags nldot (n - 2) T).
Proof.
  intro Hn. rewrite orb_assoc2. f_equal. unfold early. destruct n as [|[|k]]; try lia. cbn [Nat.sub firstn map2].
  rewrite Nat.sub_0_r, !orb_false_r, flags_firstn by lia. do 2 f_equal. apply orb_false_l. apply flags_len.
Qed.

Lemma low_bits B x M m k : length M = (8 + k)%nat ->
  nextMask_fwd true B x (unot 32 (mask_of (firstn 8 (map negb M)))) m = nextMask_fwd true B x (mask_of M) m.
Proof.
  intro H. unfold nextMask_fwd.
  assert (E : forall c, (c = 1 \/ c = 2)%N -> N.land (unot 32 (mask_of (firstn 8 (map negb M)))) c = N.land (mask_of M) c).
  { intros c Hc. do 8 (destruct M as [|? M]; [discriminate|]). cbn [map firstn].
    assert (L : forall z l, N.land (mask_of (z ++ l)) c = N.land (mask_of z) c \/ (length z < 2)%nat).
    { intros z l. destruct (Nat.lt_ge_cases (length z) 2) as [Hz|Hz]; [right; exact Hz|left].
      assert (C2 : c = N.land c (N.ones (N.of_nat 2))) by (destruct Hc as [-> | ->]; reflexivity).
      rewrite C2, (N.land_comm c), !N.land_assoc, !mask_low. rewrite firstn_app. replace (2 - length z)%nat with 0%nat by lia.
      rewrite firstn_O, app_nil_r. reflexivity. }
    destruct (L [b; b0; b1; b2; b3; b4; b5; b6] M) as [E|E]; [|cbn in E; lia]. cbn [app] in E. rewrite E.
    destruct Hc as [-> | ->]; destruct b, b0, b1, b2, b3, b4, b5, b6; reflexivity. }
  rewrite !E by auto. reflexivity.
Qed.

(** ** Lines starting with a dot and end markers *)

Lemma rvd_newlines_ok rv searchEnd B x l look s m o s1 n :
  n = dvl rv -> length l = n -> lookahead true searchEnd <= zlen look ->
  bytes_at m x (l ++ look) -> rlo B <= x -> x + zlen (l ++ look) <= rhi B ->
  simple_state s -> run_raw s l = (o, s1) ->
  let R := rvd_newlines rv true searchEnd B x l (map negb (map2 orb (map special l) (early (dot_next s (l ++ look)) n)))
        (map is_eq l) (map (fun b => beq b CR) l) (lf_n (dot_next s (l ++ look)) n) m in
  (searchEnd = true /\ R = Ok (inl (dot_next s (l ++ look)), m) /\ marker_in (Z.of_nat n) (l ++ look)) \/
  (R = Ok (inr (map negb (map2 orb (map special l) (flags nldot n (pre s ++ l))), lf_n (dot_next s1 look) n), m) /\
   (searchEnd = true -> no_marker_in (Z.of_nat n) (l ++ look))).
Proof.
  intros Hnv Hl Hlook Hm Hr1 Hr2 Hs Hrun R. subst R. unfold rvd_newlines. rewrite <- Hnv. cbn [orb andb].
  assert (Hn8 : exists k, n = (8 * S k)%nat /\ (3 <= k)%nat).
  { destruct (dvl_8 rv) as (k & Hk & Hk4). exists (k - 1)%nat. lia. }
  assert (Hn : (2 <= n)%nat) by (destruct Hn8 as (k & -> & Hk); lia).
  assert (Hn4 : (4 <= n)%nat) by (destruct Hn8 as (k & -> & Hk); lia).
  set (T := l ++ look) in *.
  assert (HT : (n + 2 <= length T)%nat) by (unfold T; rewrite app_length; unfold lookahead, zlen in Hlook; destruct searchEnd; lia).
  assert (HTe : searchEnd = true -> (n + 4 <= length T)%nat) by (intros ->; unfold T; rewrite app_length; unfold lookahead, zlen in Hlook; lia).
  assert (HlT : l = part 0 n T).
  { unfold part, T. cbn [skipn]. rewrite firstn_app, <- Hl, Nat.sub_diag, firstn_O, app_nil_r, firstn_all. reflexivity. }
  destruct (next_dot s l look o s1 n Hs Hrun Hl Hn) as [Hnx Hex]. fold T in Hnx, Hex.
  pose proof (kills_split s n T Hs Hn) as Hk.
  pose proof (kills_local s l look Hs) as Hkl. rewrite Hl in Hkl. fold T in Hkl. rewrite Hkl in Hk. clear Hkl.
  rewrite Hk.
  pose proof (early_eqs (dot_next s T) l n look Hl Hn (dot_next_1 s _) (dot_next_2 s _) (dot_next_cases s _)) as Hee.
  pose proof (nextMask_fwd_ok B x l look s m Hm ltac:(lia) Hr1 Hr2) as Hfwd. rewrite Hl in Hfwd. fold T in Hfwd.
  set (nxt := dot_next s T) in *.
  assert (HMl : length (map2 orb (map special l) (early nxt n)) = n) by (rewrite map2_len, early_len, map_length by lia; lia).
  assert (Hstop : rvd_stop true B x (map negb (map2 orb (map special l) (early nxt n))) m = Ok (nxt, m)).
  { unfold rvd_stop. rewrite (low_bits B x _ m (n - 8)) by (destruct Hn8 as (k & -> & Hk'); lia). exact Hfwd. }
  set (M0 := map2 orb (map special l) (early nxt n)) in *.
  destruct (0 <? cpop (map2 (fun a b => negb (xorb a b)) (map negb M0) (map is_eq l))) eqn:Eo.
  2: { (* only '=' *)
    right. apply any_other in Eo; [|apply eqs_special; rewrite early_len; lia].
    destruct (Hee Eo) as [Hn0 Hq]. pose proof (quiet l look n Hl Hq) as Hcr. fold T in Hcr.
    pose proof (flags_weaken nldot (at_ 0 CR) n T nldot_cr Hcr) as Hnd.
    assert (H30 : flags nldot (n - 2) T = repeat false (n - 2)).
    { rewrite <- (flags_firstn nldot n (n - 2)), Hnd by lia. replace n with ((n - 2) + 2)%nat at 2 by lia.
      rewrite repeat_app, firstn_app, repeat_length, Nat.sub_diag, firstn_O, app_nil_r. rewrite <- (repeat_length false (n - 2)) at 1. apply firstn_all. }
    split.
    - rewrite Hnx. replace (nldot (skipn (n - 2) T)) with false by (rewrite <- (flags_nth nldot n) by lia; rewrite Hnd, nth_repeat; reflexivity).
      replace (nldot (skipn (n - 1) T)) with false by (rewrite <- (flags_nth nldot n) by lia; rewrite Hnd, nth_repeat; reflexivity).
      rewrite H30. unfold M0. rewrite Hn0. reflexivity.
    - intros _. apply no_end_flags. rewrite (flags_weaken endf (at_ 0 CR) n T endf_cr Hcr). clear; induction n; auto. }
  clear Hee.
  set (w := if searchEnd then 4%nat else 2%nat).
  assert (Hwl : (n + w <= length T)%nat) by (unfold w; destruct searchEnd; [auto|lia]).
  erewrite bind_ok. 2: { apply (load_part B m x T n w); try assumption. reflexivity. }
  cbv zeta. change (u8 46) with DOT. change (u8 61) with EQS. change (u8 121) with YY. change (u8 10) with LF. change (u8 13) with CR.
  assert (S1 : slide1down l (firstn 1 (part n w T)) = part 1 n T).
  { rewrite HlT at 1. apply (slide_part 0 1); [lia|lia|]. unfold part. rewrite firstn_firstn. unfold w. destruct searchEnd; reflexivity. }
  assert (S2 : slide1down l (firstn 2 (part n w T)) = part 2 n T).
  { rewrite HlT at 1. apply (slide_part 0 2); [lia|lia|]. unfold part. rewrite firstn_firstn. unfold w. destruct searchEnd; reflexivity. }
  rewrite S1, S2. replace (map (fun b => beq b CR) l) with (flags (at_ 0 CR) n T) by (apply flags_at0; exact Hl).
  rewrite !(part_flags _ 1), !(part_flags _ 2) by lia. rewrite !map2_flags, !cpop_any.
  set (crxdt := fun t => at_ 0 CR t && at_ 2 DOT t).
  assert (S3 : searchEnd = true -> slide1down (part 2 n T) (firstn 1 (skipn 2 (part n w T))) = part 3 n T).
  { intro Hse. specialize (HTe Hse). apply (slide_part 2 1); [lia|lia|]. unfold part, w. rewrite Hse.
    rewrite (skipn_firstn_part 2 2), firstn_firstn, skipn_plus. rewrite (Nat.add_comm n 2). reflexivity. }
  assert (S4 : searchEnd = true -> slide1down l (part n w T) = part 4 n T).
  { intro Hse. specialize (HTe Hse). rewrite HlT at 1. apply (slide_part 0 4); [lia|lia|]. unfold w. rewrite Hse. reflexivity. }
  destruct (existsb id (flags crxdt n T)) eqn:Epk.
  - (* a dot after CR and another character *)
    assert (End : forall u, crxdt u && at_ 1 LF u = nldot u).
    { intro u. unfold crxdt, nldot. destruct (at_ 0 CR u), (at_ 1 LF u), (at_ 2 DOT u); reflexivity. }
    replace (flags (fun t => at_ 0 CR t && at_ 2 DOT t && at_ 1 LF t) n T) with (flags nldot n T)
      by (apply flags_ext; intros; symmetry; apply End).
    set (found := if searchEnd then _ else false).
    assert (Hfound : found = if searchEnd then existsb id (flags endf n T) else false).
    { unfold found. destruct searchEnd; [|reflexivity]. specialize (HTe eq_refl). rewrite (S3 eq_refl), (S4 eq_refl).
      rewrite !(part_flags _ 3), !(part_flags _ 4) by lia. rewrite !map2_flags. f_equal. apply flags_ext. intros j _. unfold endf, crlf, nldot, crxdt.
      set (u := skipn j T). destruct (at_ 2 DOT u), (at_ 0 CR u), (at_ 1 LF u), (at_ 3 CR u), (at_ 4 LF u), (at_ 3 EQS u), (at_ 4 YY u), (at_ 2 EQS u), (at_ 3 YY u); reflexivity. }
    rewrite Hfound. clear found Hfound.
    assert (Hgo : map2 (fun a b => a && negb b) (map negb M0) (mask_lshift 2 0 n (flags nldot n T)) =
                  map negb (map2 orb (map special l) ((nxt =? 1) :: (nxt =? 2) :: flags nldot (n - 2) T))).
    { destruct Hn8 as (k & Hk8 & _). rewrite (lshift2_ok n (S k)) by (rewrite ?flags_len; auto).
      rewrite andn_negb. unfold M0. rewrite kills_n by exact Hn. reflexivity. }
    assert (Hlf : map2 (fun (b : bool) c => if b then DOT else c)
        (concat (map bits8 (N.shiftr (nth (n / 8 - 1) (mask_bytes (n / 8) (flags nldot n T)) 0%N) 6 :: repeat 0%N (n / 8 - 1)))) (splat rv 10)
        = lf_n (dot_next s1 look) n).
    { unfold splat. rewrite <- Hnv. rewrite Hnx. destruct Hn8 as (k & Hk8 & _).
      replace (skipn (n - 2) T) with (skipn (8 * k + 6) T) in * by (f_equal; lia).
      replace (skipn (n - 1) T) with (skipn (8 * k + 7) T) in * by (f_equal; lia).
      rewrite Hk8. apply next_lf; [apply flags_len|apply flags_nth; lia|apply flags_nth; lia|exact Hex]. }
    destruct searchEnd.
    + destruct (existsb id (flags endf n T)) eqn:Eend.
      * left. split; [reflexivity|]. split; [erewrite bind_ok by exact Hstop; reflexivity|]. apply end_flags. exact Eend.
      * right. split; [|intros _; apply no_end_flags; exact Eend]. unfold ret. rewrite Hgo, Hlf. reflexivity.
    + right. split; [|discriminate]. unfold ret. rewrite Hgo, Hlf. reflexivity.
  - (* none *)
    apply flags_none_inv in Epk.
    assert (Hnd : flags nldot n T = repeat false n).
    { apply (flags_weaken nldot crxdt); [|exact Epk]. intro u. unfold nldot, crxdt. rewrite !andb_true_iff. tauto. }
    assert (H30 : flags nldot (n - 2) T = repeat false (n - 2)).
    { rewrite <- (flags_firstn nldot n (n - 2)), Hnd by lia. replace n with ((n - 2) + 2)%nat at 2 by lia.
      rewrite repeat_app, firstn_app, repeat_length, Nat.sub_diag, firstn_O, app_nil_r. rewrite <- (repeat_length false (n - 2)) at 1. apply firstn_all. }
    assert (Hlf : splat rv 10 = lf_n (dot_next s1 look) n).
    { rewrite Hnx. replace (nldot (skipn (n - 2) T)) with false by (rewrite <- (flags_nth nldot n) by lia; rewrite Hnd, nth_repeat; reflexivity).
      replace (nldot (skipn (n - 1) T)) with false by (rewrite <- (flags_nth nldot n) by lia; rewrite Hnd, nth_repeat; reflexivity).
      unfold splat. rewrite <- Hnv. reflexivity. }
    rewrite H30. fold (early nxt n). fold M0. rewrite Hlf.
    destruct searchEnd; [|right; split; [reflexivity|discriminate]].
    specialize (HTe eq_refl). rewrite (S3 eq_refl). rewrite !(part_flags _ 3) by lia. rewrite !map2_flags.
    fold (eqy 2).
    assert (Hen : flags endf n T = flags (fun t => at_ 2 EQS t && at_ 3 YY t && at_ 0 CR t && at_ 1 LF t) n T).
    { apply flags_ext. intros j Hj. unfold endf. rewrite <- (flags_nth nldot n T j Hj), Hnd, nth_repeat. cbn [andb orb].
      unfold crlf, eqy. destruct (at_ 0 CR (skipn j T)), (at_ 1 LF (skipn j T)), (at_ 2 EQS (skipn j T)), (at_ 3 YY (skipn j T)); reflexivity. }
    rewrite <- Hen.
    destruct (existsb id (flags (eqy 2) n T)) eqn:Eq.
    + destruct (existsb id (flags endf n T)) eqn:Eend.
      * left. split; [reflexivity|]. split; [erewrite bind_ok by exact Hstop; reflexivity|]. apply end_flags. exact Eend.
      * right. split; [reflexivity|]. intros _. apply no_end_flags. exact Eend.
    + right. split; [reflexivity|]. intros _. apply no_end_flags.
      apply flags_none_inv in Eq. rewrite Hen, (flags_weaken _ (eqy 2) n T); [clear; induction n; auto| |exact Eq].
      intro u. unfold eqy. rewrite !andb_true_iff. tauto.
Qed.

(** ** The body of the loop *)

Lemma orb_and_none : forall a b c, length a = length b -> existsb id (map2 andb a c) = false -> existsb id (map2 andb b c) = false ->
  existsb id (map2 andb (map2 orb a b) c) = false.
Proof.
  induction a as [|x a IH]; intros [|y b] [|z c] Hl Ha Hb; try reflexivity; try discriminate Hl.
  cbn [map2 existsb] in *. apply orb_false_elim in Ha as [Ha1 Ha2]. apply orb_false_elim in Hb as [Hb1 Hb2].
  injection Hl as Hl. rewrite (IH b c Hl Ha2 Hb2). unfold id in *. rewrite andb_orb_distrib_l, Ha1, Hb1. reflexivity.
Qed.

Definition rvd_rel (n : nat) (t : rvd_vars) (p : Z) (esc : bool) (nxt : Z) : Prop :=
  let '(p', e, yo, lf) := t in p' = p /\ e = N.b2n esc /\ yo = roff esc n /\ lf = lf_n nxt n.

(** The vectors are short enough, or there is no invalid escape sequence. *)
Definition rvd_fits (rv : rvd) (s : dstate) (l : list byte) : Prop := (d_log rv <= 1)%nat \/ valid_for s l.

Lemma fits_fst rv s l k : rvd_fits rv s (l ++ k) -> rvd_fits rv s l.
Proof. intros [H|H]; [left; exact H|right; exact (valid_fst _ _ _ H)]. Qed.
Lemma fits_snd rv isRaw s l k o s1 : rvd_fits rv s (l ++ k) -> run_m isRaw s l = (o, s1) -> rvd_fits rv s1 k.
Proof. intros [H|H] Hr; [left; exact H|right; exact (valid_snd _ _ _ _ _ _ H Hr)]. Qed.

Lemma rvd_block_ok rv isRaw searchEnd : (searchEnd = true -> isRaw = true) ->
  block_ok_on (rvd_fits rv) true isRaw searchEnd (Z.of_nat (dvl rv)) (rvd_block rv isRaw searchEnd) (rvd_rel (dvl rv)).
Proof.
  intros Hmode B src i t p s l look m o s1 Hd Hl Hm Hal Hlook Hr1 Hr2 Hw1 Hw2 Hs HR Hrun.
  destruct t as [[[p' e] yo] lf]. destruct HR as (-> & -> & -> & ->).
  assert (Hn32 : (32 <= dvl rv)%nat) by (destruct (dvl_8 rv) as (k & -> & Hk); lia).
  assert (HL : length l = dvl rv) by (unfold zlen in Hl; lia).
  pose proof (zlen_nonneg look) as Hlk.
  destruct (block_m _ _ _ _ _ Hs Hrun) as [Ho He1].
  set (n := dvl rv) in *.
  set (x := src + i) in *. set (nxt := dot_next s (l ++ look)) in *.
  assert (Hnxt0 : nxt = 0 \/ nxt = 1 \/ nxt = 2) by apply dot_next_cases.
  assert (Hnxt1 : nxt = 1 -> exists r, l ++ look = DOT :: r) by apply dot_next_1.
  assert (Hnxt2 : nxt = 2 -> exists r, l ++ look = LF :: DOT :: r) by apply dot_next_2.
  assert (Hr2' : x + zlen (l ++ look) <= rhi B) by (rewrite zlen_app; lia).
  unfold rvd_block. fold n x.
  erewrite bind_ok with (a := l) (m' := m).
  2: { rewrite <- HL. apply load_n_ok; [apply bytes_at_app in Hm as [Hm _]; exact Hm|exact Hr1|lia]. }
  cbv zeta.
  rewrite (cmp_ok isRaw l nxt n HL); [|lia| | | |exact Hnxt0].
  2: { intros ->. apply plain_dot. exact Hs. }
  2: { intro E. destruct (Hnxt1 E) as [r Hr]. destruct l as [|c l']; [cbn in HL; lia|]. injection Hr as -> _. eauto. }
  2: { intro E. destruct (Hnxt2 E) as [r Hr]. destruct l as [|c [|d l']]; [cbn in HL; lia|cbn in HL; lia|]. injection Hr as -> -> _. eauto. }
  assert (HMl : length (map2 orb (map special l) (early nxt n)) = n) by (rewrite map2_len, early_len, map_length by lia; lia).
  rewrite cpop_keep. change (u8 61) with EQS. change (fun b : byte => beq b EQS) with is_eq.
  change (u8 13) with CR.
  destruct (nkeep (map2 orb (map special l) (early nxt n)) =? Z.of_nat n) eqn:Eany; cbn [negb].
  2: { (* something to do *)
    assert (Hnl : (searchEnd = true /\
        rvd_newlines rv isRaw searchEnd B x l (map negb (map2 orb (map special l) (early nxt n))) (map is_eq l) (map (fun b => beq b CR) l) (lf_n nxt n) m
          = Ok (inl nxt, m) /\ marker_in (Z.of_nat n) (l ++ look)) \/
      rvd_newlines rv isRaw searchEnd B x l (map negb (map2 orb (map special l) (early nxt n))) (map is_eq l) (map (fun b => beq b CR) l) (lf_n nxt n) m
          = Ok (inr (map negb (map2 orb (map special l) (kills_of isRaw s l)), lf_n (dot_next s1 look) n), m) /\
        (searchEnd = true -> no_marker_in (Z.of_nat n) (l ++ look))).
    { destruct isRaw.
      - unfold kills_of. rewrite HL. apply (rvd_newlines_ok rv searchEnd B x l look s m o s1 n); try assumption; reflexivity.
      - right. destruct searchEnd; [discriminate (Hmode eq_refl)|]. split; [|discriminate].
        unfold rvd_newlines. cbn [orb andb]. unfold ret, kills_of. rewrite HL. unfold nxt. rewrite (plain_dot s _ Hs).
        rewrite (plain_dot s1) by exact (proj1 (run_m_good _ _ _ _ _ Hs Hrun)).
        do 6 f_equal. unfold early. destruct n as [|[|k]]; [lia|lia|]. cbn [Nat.sub repeat Z.eqb]. rewrite Nat.sub_0_r. reflexivity. }
    destruct Hnl as [(Hse & Hnl & Hmk)|(Hnl & Hno)].
    { left. split; [exact Hse|]. split; [|intros _; exact Hmk]. erewrite bind_ok by exact Hnl. reflexivity. }
    right. erewrite bind_ok by exact Hnl. cbv beta iota.
    assert (Hkl : length (kills_of isRaw s l) = n) by (unfold kills_of; destruct isRaw; rewrite ?flags_len, ?repeat_length; exact HL).
    erewrite bind_ok.
    2: { unfold lift. rewrite (escapes_ok rv (is_esc s) (map is_eq l) (map2 orb (map special l) (kills_of isRaw s l))).
         - reflexivity.
         - destruct Hd as [Hd|Hd]; [left; exact Hd|right]. fold n. rewrite <- HL.
           apply orb_and_none; [rewrite map_length; lia| |apply kills_not_eq; exact Hs].
           unfold valid_for in Hd. rewrite vb_state in Hd. replace (is_esc s) with (after_eq s); [apply valid_special; exact Hd|].
           destruct isRaw; cbn [good_state] in Hs; unfold simple_state in Hs; intuition subst; reflexivity.
         - rewrite map_length. exact HL.
         - rewrite map2_len, map_length. fold n. lia.
         - apply eqs_special. lia. }
    cbv beta iota. fold n.
    change (map2 (fun s0 e => s0 && negb e) (map2 orb (map special l) (kills_of isRaw s l)) (escs (is_esc s) (map is_eq l)))
      with (removed (kills_of isRaw s l) (is_esc s) l).
    rewrite unescape_rvv, compress_pick, cpop_keep by lia. rewrite <- Ho.
    unfold splat. fold n. rewrite last_only by (rewrite ?map_length; lia). rewrite <- He1.
    rewrite set_first_off by lia.
    assert (Hzo : zlen o = nkeep (removed (kills_of isRaw s l) (is_esc s) l)).
    { rewrite Ho. apply pick_len. rewrite removed_len, decoded_len by lia. reflexivity. }
    assert (Hon : (length o <= n)%nat).
    { pose proof (nkeep_range (removed (kills_of isRaw s l) (is_esc s) l)) as Hr. rewrite <- Hzo in Hr. unfold zlen in Hr.
      rewrite removed_len in Hr by lia. lia. }
    set (tail := map (d_tail rv) (seq (length o) (n - length o))).
    assert (Htl : length tail = (n - length o)%nat) by (unfold tail; rewrite map_length, seq_length; reflexivity).
    assert (Hzt : zlen (o ++ tail) = Z.of_nat n) by (unfold zlen; rewrite app_length; lia).
    destruct (store_n_ok B (o ++ tail) p m Hw1 ltac:(lia)) as (m' & Hst & Hb & Hf).
    erewrite bind_ok by exact Hst.
    eexists. exists m'. split; [reflexivity|]. split; [|split; [|split; [|exact Hno]]].
    - unfold rvd_rel. rewrite <- Hzo. repeat apply conj; reflexivity.
    - apply bytes_at_app in Hb as [Hb _]. exact Hb.
    - rewrite Hzt in Hf. exact Hf. }
  (* nothing to do *)
  right.
  assert (Hex : existsb id (map2 orb (map special l) (early nxt n)) = false).
  { apply nkeep_full. unfold zlen. lia. }
  apply none_repeat with (n := n) in Hex; [|exact HMl].
  assert (Hsp : map special l = repeat false n).
  { refine (proj1 (orb_none _ _ _ _ _ Hex)); [rewrite map_length; exact HL|apply early_len; lia]. }
  destruct (early_eqs nxt l n look HL ltac:(lia) Hnxt1 Hnxt2 Hnxt0) as [Hn Hq].
  { rewrite Hex. rewrite <- HL in Hsp. rewrite (proj1 (special_none l Hsp)), HL. reflexivity. }
  pose proof (quiet l look n HL Hq) as Hcr.
  pose proof (flags_weaken nldot (at_ 0 CR) n _ nldot_cr Hcr) as Hnd.
  assert (Hkill : kills_of isRaw s l = repeat false n).
  { unfold kills_of. rewrite HL. destruct isRaw; [|reflexivity].
    pose proof (kills_local s l look Hs) as Hkl. rewrite HL in Hkl. rewrite <- Hkl, (kills_split s n) by (try exact Hs; lia).
    fold nxt. rewrite Hn. cbn [Z.eqb].
    replace (flags nldot (n - 2) (l ++ look)) with (repeat false (n - 2)); [destruct n as [|[|k]]; [lia|lia|cbn [Nat.sub repeat]; rewrite Nat.sub_0_r; reflexivity]|].
    rewrite <- (flags_firstn nldot n (n - 2)), Hnd by lia. replace n with ((n - 2) + 2)%nat at 3 by lia.
    rewrite repeat_app, firstn_app, repeat_length, Nat.sub_diag, firstn_O, app_nil_r. symmetry. apply firstn_all2. rewrite repeat_length. lia. }
  rewrite Hkill in Ho.
  destruct (idle (repeat false n) (is_esc s) l (n - 1)) as (Hp & Hlo & _ & _); [lia|rewrite repeat_length; lia| |].
  { rewrite Hsp. replace (S (n - 1)) with n by lia. clear. induction n as [|n IH]; [reflexivity|]. cbn [repeat map2]. rewrite IH. reflexivity. }
  rewrite Hp in Ho. rewrite Hlo in He1.
  rewrite (idle_rvv (is_esc s) l n HL) by lia. rewrite <- Ho.
  assert (Hzo : zlen o = Z.of_nat n) by (rewrite Ho; unfold zlen; rewrite map2_len; cbn [length]; rewrite repeat_length; lia).
  destruct (store_n_ok B o p m Hw1 ltac:(lia)) as (m' & Hst & Hb & Hf).
  erewrite bind_ok by exact Hst. rewrite Hzo in Hf.
  eexists. exists m'. split; [reflexivity|]. split; [|split; [exact Hb|split; [exact Hf|]]].
  - unfold rvd_rel, splat. fold n. rewrite He1, Hzo. apply Z.eqb_eq in Eany. rewrite Eany.
    split; [reflexivity|]. split; [reflexivity|]. split.
    { unfold roff. destruct n as [|k]; [lia|]. cbn [Nat.sub repeat]. rewrite Nat.sub_0_r. reflexivity. }
    assert (Hz : dot_next s1 look = 0).
    { destruct isRaw.
      - destruct (next_dot s l look o s1 n Hs Hrun HL ltac:(lia)) as [-> _].
        rewrite <- (flags_nth nldot n (l ++ look) (n - 2)), <- (flags_nth nldot n (l ++ look) (n - 1)) by lia.
        rewrite Hnd, !nth_repeat. reflexivity.
      - apply plain_dot. exact (proj1 (run_m_good _ _ _ _ _ Hs Hrun)). }
    rewrite Hz, Hn. destruct isRaw; reflexivity.
  - intros _. apply no_end_flags. rewrite (flags_weaken endf (at_ 0 CR) n _ endf_cr Hcr). clear; induction n; auto.
Qed.

(** ** The kernel *)

Theorem rvd_kernel_x rv isRaw searchEnd : (searchEnd = true -> isRaw = true) ->
  kernel_ok_on_x (rvd_fits rv) true isRaw searchEnd (Z.of_nat (dvl rv)) (do_decode_rvv rv isRaw searchEnd).
Proof.
  intros Hmode B src dest d look s m Hdl Hm Hd Hw Hal Hlook Hr1 Hr2 Hw1 Hw2 Hap Hent.
  pose proof (entry_good _ _ _ Hent) as Hs.
  assert (Hn32 : (32 <= dvl rv)%nat) by (destruct (dvl_8 rv) as (k & -> & Hk); lia).
  set (n := dvl rv) in *.
  assert (Hn : zlen d = Z.of_nat (Z.to_nat (zlen d / Z.of_nat n)) * Z.of_nat n) by nia.
  assert (Hbig : Z.of_nat n <= zlen d) by nia.
  set (nxt := dot_next s (d ++ look)).
  destruct (block_loop_on (rvd_fits rv) true isRaw searchEnd (Z.of_nat n) (rvd_block rv isRaw searchEnd) (rvd_rel n) (rvd_block_ok rv isRaw searchEnd Hmode) ltac:(lia)
    (fits_fst rv) (fits_snd rv isRaw)
    (Z.to_nat (zlen d / Z.of_nat n)) (Z.to_nat (zlen d)) B (src + zlen d)
    (dest, N.b2n (is_esc s), roff (is_esc s) n, lf_n nxt n) dest s d look m)
    as (d1 & d2 & o & s1 & m' & t' & stop & E1 & E2 & E3 & E4 & E5 & E6 & E7 & E8).
  - exact Hn.
  - nia.
  - rewrite Z.add_mod, Hal, Hw by lia. apply Z.mod_0_l. lia.
  - replace (src + zlen d - zlen d) with src by lia. exact Hm.
  - exact Hlook.
  - lia.
  - lia.
  - exact Hw1.
  - exact Hw2.
  - lia.
  - exact Hs.
  - repeat apply conj; reflexivity.
  - exact Hdl.
  - exists d1, d2, o, s1, m'. split; [|intros _; destruct E5 as [[-> _]|(_ & _ & Hmk)]; auto].
    split; [exact E1|]. split.
    { intro Hse. destruct E5 as [[-> _]|[Hc _]]; [reflexivity|congruence]. }
    split; [exact E2|]. split; [exact E6|]. split; [|split; assumption].
    unfold do_decode_rvv. fold nxt. cbv zeta.
    assert (Hy : (if negb (esc_flag s =? 0) then set_first (splat rv 42) (42 + 64) else splat rv 42) = roff (is_esc s) n).
    { unfold splat, set_first, roff. fold n. destruct n as [|k]; [lia|]. cbn [repeat tl Nat.sub]. rewrite Nat.sub_0_r. destruct s; reflexivity. }
    rewrite Hy.
    assert (Hlf : (if negb (nxt =? 0) && isRaw then
        let w := if nxt =? 1 then 0x0a2e else 0x2e0a in u8 w :: u8 (w / 256) :: skipn 2 (splat rv 10) else splat rv 10) = lf_n nxt n).
    { unfold splat. fold n. destruct n as [|[|k]]; [lia|lia|]. cbv zeta. cbn [repeat skipn]. destruct isRaw.
      - unfold lf_n. cbn [Nat.sub]. rewrite Nat.sub_0_r. destruct (dot_next_cases s (d ++ look)) as [E|[E|E]]; fold nxt in E; rewrite E; reflexivity.
      - assert (E : nxt = 0) by (apply plain_dot; exact Hs). rewrite E. reflexivity. }
    cbv zeta in Hlf. rewrite Hlf.
    replace (Z.to_N (esc_flag s)) with (N.b2n (is_esc s)) by (destruct s; reflexivity).
    destruct (run_m isRaw s d) as [od sd] eqn:Erd.
    erewrite bind_ok.
    2: { apply (nextMask_back_ok isRaw B (src + zlen d) d look m s od sd); try assumption; try lia.
         - replace (src + zlen d - zlen d) with src by lia. exact Hm.
         - unfold lookahead in *. destruct searchEnd, isRaw; lia. }
    fold n. erewrite bind_ok by exact E3. destruct t' as [[[p' e'] yo'] lf']. destruct E4 as (-> & -> & _ & _).
    rewrite <- esc_flag_b2n.
    destruct E5 as [[-> ->]|(_ & -> & _)].
    + rewrite app_nil_r in E1. subst d1. rewrite Erd in E2. injection E2 as -> ->. reflexivity.
    + unfold ret. replace (zlen d + - zlen d2) with (zlen d1) by (rewrite E1, zlen_app; lia). reflexivity.
Qed.

Theorem rvd_kernel_ok rv isRaw searchEnd : (d_log rv <= 1)%nat -> (searchEnd = true -> isRaw = true) ->
  kernel_ok_x true isRaw searchEnd (Z.of_nat (dvl rv)) (do_decode_rvv rv isRaw searchEnd).
Proof. intros Hd H B src dest d look s m. apply (rvd_kernel_x rv isRaw searchEnd H). left. exact Hd. Qed.

Theorem rvd_kernel_valid rv isRaw searchEnd : (searchEnd = true -> isRaw = true) ->
  kernel_ok_on_x valid_for true isRaw searchEnd (Z.of_nat (dvl rv)) (do_decode_rvv rv isRaw searchEnd).
Proof. intros H B src dest d look s m Hv. apply (rvd_kernel_x rv isRaw searchEnd H). right. exact Hv. Qed.

(** The width as a power of two. *)
Definition rv_log (rv : rvd) : Z := 5 + Z.of_nat (d_log rv).
Lemma rv_log_1 rv : 1 <= rv_log rv.
Proof. unfold rv_log. lia. Qed.
Lemma dvl_pow rv : Z.of_nat (dvl rv) = 2 ^ rv_log rv.
Proof. unfold dvl, rv_log. rewrite Z.pow_add_r by lia. rewrite Nat2Z.inj_mul, Nat2Z.inj_pow. reflexivity. Qed.
Lemma rvv_simd rv : rvv_decoders rv = simd (2 ^ rv_log rv) (do_decode_rvv rv false false) (do_decode_rvv rv true false) (do_decode_rvv rv true true).
Proof. unfold rvv_decoders. rewrite dvl_pow. reflexivity. Qed.
