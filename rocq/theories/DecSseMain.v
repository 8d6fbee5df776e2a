(** The SSE kernel meets the contract of the front-end. *)
From Verif Require Import Base BaseLemmas EncSpec DecSpec DecModel DecProofs DecMaskSpec DecMaskModel DecMaskProofs
  DecSimdModel DecSimdSpec DecVec DecKernelModel DecBlock DecKernel DecVecProofs DecBlockFacts DecSseModel DecCompact DecSseProofs.
From Coq Require Import ZifyBool ZifyNat ZifyN.
Ltac Zify.zify_post_hook ::= Z.div_mod_to_equations.

(** ** Finding the special characters *)

Definition lf_of (nxt : Z) : vec :=
  if nxt =? 1 then DOT :: repeat LF 15 else if nxt =? 2 then LF :: DOT :: repeat LF 14 else repeat LF 16.
Definition min_of (nxt : Z) : vec :=
  if nxt =? 1 then x00 :: repeat DOT 15 else if nxt =? 2 then DOT :: x00 :: repeat DOT 14 else repeat DOT 16.

(** The vectors lfCompare and minMask stand for a nextMask. *)
Definition stands_for (isa : sse_isa) (nxt : Z) (lfCompare minMask : vec) : Prop :=
  if fast_match isa then minMask = min_of nxt else lfCompare = lf_of nxt.

Lemma map2_map {A C D E} (f : C -> D -> E) (g : A -> C) (h : A -> D) l :
  map2 f (map g l) (map h l) = map (fun x => f (g x) (h x)) l.
Proof. induction l as [|x l IH]; [reflexivity|]. cbn [map map2]. rewrite IH. reflexivity. Qed.

Lemma match_slow v n : length v = n ->
  v_or (v_or (v_cmpeq v (repeat LF n)) (v_cmpeq v (repeat CR n))) (v_cmpeq v (repeat EQS n)) = vm (map special v).
Proof.
  intro H. rewrite !cmpeq_rep by lia. rewrite !vm_or, !map2_map. f_equal. apply map_ext. intro c.
  unfold special, is_nl, is_eq. destruct (beq c LF), (beq c CR), (beq c EQS); reflexivity.
Qed.

Definition fast1 (c mn : byte) : byte := nth (Z.to_nat (Z.land (bz (b_min c mn)) 15)) fast_table x00.

Lemma fast_top c : b_top (b_min c DOT) = false /\ b_top (b_min c x00) = false.
Proof. destruct c; split; reflexivity. Qed.
Lemma fast_dot c : beq c (fast1 c DOT) = special c.
Proof. destruct c; reflexivity. Qed.

Lemma match_fast v n : length v = n -> v_cmpeq v (v_shuffle fast_table (v_min v (repeat DOT n))) = vm (map special v).
Proof.
  intros <-. induction v as [|c v IH]; [reflexivity|].
  cbn [length repeat v_min map2 v_shuffle map v_cmpeq vm]. rewrite (proj1 (fast_top c)).
  fold (fast1 c DOT). rewrite fast_dot. f_equal. exact IH.
Qed.

Lemma match_ok isa a b nxt lf mn : length a = 16%nat -> length b = 16%nat -> stands_for isa nxt lf mn ->
  (nxt = 1 -> exists r, a = DOT :: r) -> (nxt = 2 -> exists r, a = LF :: DOT :: r) -> (nxt = 0 \/ nxt = 1 \/ nxt = 2) ->
  sse_match isa a b lf mn = (vm (map2 orb (map special a) (early nxt 16)), vm (map special b)).
Proof.
  intros Ha Hb Hst H1 H2 H0. unfold sse_match, stands_for in *. destruct (fast_match isa).
  - subst mn. unfold v_set1. change (u8 46) with DOT. rewrite (match_fast b) by exact Hb. f_equal.
    destruct H0 as [->|[->| ->]].
    + change (min_of 0) with (repeat DOT 16). rewrite match_fast by exact Ha.
      change (early 0 16) with (repeat false 16). replace 16%nat with (length (map special a)) by (rewrite map_length; exact Ha).
      rewrite orb_repeat. reflexivity.
    + destruct (H1 eq_refl) as [r ->]. cbn [length] in Ha.
      change (min_of 1) with (x00 :: repeat DOT 15). change (early 1 16) with (true :: repeat false 15).
      change (xff :: v_cmpeq r (v_shuffle fast_table (v_min r (repeat DOT 15))) = xff :: vm (map2 orb (map special r) (repeat false 15))).
      f_equal. rewrite match_fast by lia. replace 15%nat with (length (map special r)) by (rewrite map_length; lia).
      rewrite orb_repeat. reflexivity.
    + destruct (H2 eq_refl) as [r ->]. cbn [length] in Ha.
      change (min_of 2) with (DOT :: x00 :: repeat DOT 14). change (early 2 16) with (false :: true :: repeat false 14).
      change (xff :: xff :: v_cmpeq r (v_shuffle fast_table (v_min r (repeat DOT 14))) = xff :: xff :: vm (map2 orb (map special r) (repeat false 14))).
      do 2 f_equal. rewrite match_fast by lia. replace 14%nat with (length (map special r)) by (rewrite map_length; lia).
      rewrite orb_repeat. reflexivity.
  - subst lf. unfold v_set1. change (u8 10) with LF. change (u8 13) with CR. change (u8 61) with EQS.
    rewrite (match_slow b) by exact Hb. f_equal.
    destruct H0 as [->|[->| ->]].
    + change (lf_of 0) with (repeat LF 16). rewrite match_slow by exact Ha.
      change (early 0 16) with (repeat false 16). replace 16%nat with (length (map special a)) by (rewrite map_length; exact Ha).
      rewrite orb_repeat. reflexivity.
    + destruct (H1 eq_refl) as [r ->]. cbn [length] in Ha.
      change (lf_of 1) with (DOT :: repeat LF 15). change (early 1 16) with (true :: repeat false 15).
      change (xff :: v_or (v_or (v_cmpeq r (repeat LF 15)) (v_cmpeq r (repeat CR 15))) (v_cmpeq r (repeat EQS 15)) = xff :: vm (map2 orb (map special r) (repeat false 15))).
      f_equal. rewrite match_slow by lia. replace 15%nat with (length (map special r)) by (rewrite map_length; lia).
      rewrite orb_repeat. reflexivity.
    + destruct (H2 eq_refl) as [r ->]. cbn [length] in Ha.
      change (lf_of 2) with (LF :: DOT :: repeat LF 14). change (early 2 16) with (false :: true :: repeat false 14).
      change (xff :: xff :: v_or (v_or (v_cmpeq r (repeat LF 14)) (v_cmpeq r (repeat CR 14))) (v_cmpeq r (repeat EQS 14)) = xff :: xff :: vm (map2 orb (map special r) (repeat false 14))).
      do 2 f_equal. rewrite match_slow by lia. replace 14%nat with (length (map special r)) by (rewrite map_length; lia).
      rewrite orb_repeat. reflexivity.
Qed.

(** ** The 16-bit comparison for "=y" *)

Definition eqy (k : nat) (t : list byte) : bool := at_ k EQS t && at_ (S k) YY t.

Lemma pair_eqy a b : (bz a + 256 * bz b =? bz x3d + 256 * bz x79) = beq a EQS && beq b YY.
Proof.
  change (bz x3d) with 61. change (bz x79) with 121. pose proof (bz_range a). pose proof (bz_range b).
  destruct (beq_spec a EQS) as [->|Ha].
  - change (bz EQS) with 61. destruct (beq_spec b YY) as [->|Hb]; [reflexivity|].
    cbn [andb]. destruct (61 + 256 * bz b =? 61 + 256 * 121) eqn:E; [|reflexivity].
    exfalso. apply Hb. apply bz_inj. change (bz YY) with 121. lia.
  - cbn [andb]. destruct (bz a + 256 * bz b =? 61 + 256 * 121) eqn:E; [|reflexivity].
    exfalso. apply Ha. apply bz_inj. change (bz EQS) with 61. lia.
Qed.

Lemma eqy_lanes n : forall t, (2 * n + 4 <= length t)%nat ->
  v_or (v_slli16 (v_cmpeq16 (part 4 (2 * n) t) (flat_map (fun _ => [x3d; x79]) (repeat tt n))) 8)
       (v_srli16 (vm (flags (eqy 2) (2 * n) t)) 8)
  = vm (flags (eqy 3) (2 * n) t).
Proof.
  induction n as [|n IH]; intros t H; [reflexivity|].
  replace (2 * S n)%nat with (S (S (2 * n))) in * by lia.
  destruct t as [|c0 [|c1 [|c2 [|c3 [|c4 [|c5 t]]]]]]; cbn [length] in H; try lia.
  unfold part in *. cbn [skipn].
  change (firstn (S (S (2 * n))) (c4 :: c5 :: t)) with (c4 :: c5 :: firstn (2 * n) (skipn 4 (c2 :: c3 :: c4 :: c5 :: t))).
  cbn [repeat flat_map app flags tl]. unfold v_cmpeq16, v_slli16, v_srli16, v_or, vm. cbn [map lanes16 map2].
  rewrite pair_eqy. specialize (IH (c2 :: c3 :: c4 :: c5 :: t) ltac:(cbn [length]; lia)).
  unfold v_cmpeq16, v_slli16, v_srli16, v_or, vm in IH. rewrite <- IH.
  change (eqy 2 (c0 :: c1 :: c2 :: c3 :: c4 :: c5 :: t)) with (beq c2 EQS && beq c3 YY).
  change (eqy 2 (c1 :: c2 :: c3 :: c4 :: c5 :: t)) with (beq c3 EQS && beq c4 YY).
  change (eqy 3 (c0 :: c1 :: c2 :: c3 :: c4 :: c5 :: t)) with (beq c3 EQS && beq c4 YY).
  change (eqy 3 (c1 :: c2 :: c3 :: c4 :: c5 :: t)) with (beq c4 EQS && beq c5 YY).
  f_equal; [|f_equal].
  - destruct (beq c4 EQS && beq c5 YY), (beq c2 EQS && beq c3 YY), (beq c3 EQS && beq c4 YY); reflexivity.
  - destruct (beq c4 EQS && beq c5 YY), (beq c2 EQS && beq c3 YY), (beq c3 EQS && beq c4 YY); reflexivity.
Qed.

(** ** Flags and masks *)

Lemma skipn_plus {A} (a b : nat) (l : list A) : skipn a (skipn b l) = skipn (b + a) l.
Proof. revert l; induction b as [|b IH]; intro l; [reflexivity|]. destruct l; [destruct a; reflexivity|]. apply IH. Qed.

Lemma flags_shift c k j n t : flags (at_ k c) n (skipn j t) = flags (at_ (j + k) c) n t.
Proof.
  revert t; induction n as [|n IH]; intro t; [reflexivity|]. cbn [flags]. f_equal.
  - unfold at_. replace (nth_error (skipn j t) k) with (nth_error t (j + k)); [reflexivity|].
    clear. revert t; induction j as [|j IH]; intro t; [reflexivity|]. destruct t; [destruct k; reflexivity|]. apply IH.
  - rewrite tl_skipn. destruct t as [|x t]; [destruct j; cbn [tl]; rewrite <- IH, ?skipn_nil; reflexivity|]. cbn [skipn tl]. apply IH.
Qed.

Lemma flags_skipn f k n t : skipn k (flags f n t) = flags f (n - k) (skipn k t).
Proof.
  revert n t; induction k as [|k IH]; intros n t; [rewrite Nat.sub_0_r; reflexivity|].
  destruct n as [|n]; [reflexivity|]. cbn [flags skipn Nat.sub]. rewrite IH. destruct t; [cbn [tl]; rewrite skipn_nil; reflexivity|reflexivity].
Qed.

Lemma at_app k c t r : (k < length t)%nat -> at_ k c (t ++ r) = at_ k c t.
Proof. intro H. unfold at_. rewrite nth_error_app1 by exact H. reflexivity. Qed.

Lemma flags_ext2 f n t u : (forall j, (j < n)%nat -> f (skipn j t) = f (skipn j u)) -> flags f n t = flags f n u.
Proof.
  intro H. apply (nth_ext _ _ false false); [rewrite !flags_len; reflexivity|]. intros j Hj. rewrite flags_len in Hj.
  rewrite !flags_nth by exact Hj. apply H, Hj.
Qed.

(** Looking for dots at the start of a line within the block needs no character
    behind the block. *)
Lemma kills_local s l look : simple_state s -> flags nldot (length l) (pre s ++ l ++ look) = flags nldot (length l) (pre s ++ l).
Proof.
  intros Hs. destruct (pre_ctx s Hs) as (u & v & -> & _). apply flags_ext2. intros j Hj.
  rewrite app_assoc. rewrite skipn_app.
  replace (j - length ([u; v] ++ l))%nat with 0%nat by (rewrite app_length; cbn [length]; lia). cbn [skipn].
  assert (Hl : (3 <= length (skipn j ([u; v] ++ l)))%nat) by (rewrite skipn_length, app_length; cbn [length]; lia).
  unfold nldot. rewrite !at_app by lia. reflexivity.
Qed.

Lemma mask_pad l k : mask_of (l ++ repeat false k) = mask_of l.
Proof.
  induction l as [|b l IH]; cbn [app mask_of]; [apply mask_false|]. rewrite IH. reflexivity.
Qed.

Lemma orb_false_l l n : length l = n -> map2 orb (repeat false n) l = l.
Proof. intros <-. induction l as [|b l IH]; [reflexivity|]. cbn [length repeat map2 orb]. rewrite IH. reflexivity. Qed.

Lemma orb_assoc2 : forall a b c, map2 orb (map2 orb a b) c = map2 orb a (map2 orb b c).
Proof.
  induction a as [|x a IH]; intros [|y b] [|z c]; try reflexivity. cbn [map2]. rewrite IH, orb_assoc. reflexivity.
Qed.

Lemma or_parts a b f g : map2 orb (map2 orb (a :: b :: repeat false (length f + length g)) (false :: false :: f ++ repeat false (length g)))
  (repeat false (2 + length f) ++ g) = a :: b :: f ++ g.
Proof.
  cbn [Nat.add repeat app map2]. rewrite !orb_false_r. do 2 f_equal.
  rewrite orb_false_l by (rewrite app_length, repeat_length; reflexivity).
  rewrite map2_app by (rewrite repeat_length; reflexivity). rewrite orb_repeat, orb_false_l by reflexivity. reflexivity.
Qed.

Lemma mask_kills sp nxt T : length sp = 32%nat ->
  N.lor (N.lor (mask_of (map2 orb sp (early nxt 32))) (N.shiftl (mask_of (flags nldot 16 T)) 2))
        (N.land (N.shiftl (mask_of (flags nldot 16 (skipn 16 T))) 18) 0xffffffff)
  = mask_of (map2 orb sp ((nxt =? 1) :: (nxt =? 2) :: flags nldot 30 T)).
Proof.
  intro Hsp. change 2%N with (N.of_nat 2). change 18%N with (N.of_nat 18). rewrite !mask_shiftl.
  change 4294967295%N with (N.ones (N.of_nat 32)). rewrite mask_low.
  rewrite (firstn_app 32), (firstn_all2 (n := 32) (repeat false 18)) by (rewrite repeat_length; lia).
  rewrite (repeat_length false 18). change (32 - 18)%nat with 14%nat. rewrite flags_firstn by lia.
  rewrite <- (mask_pad (repeat false 2 ++ _) 14). rewrite <- app_assoc.
  rewrite mask_or. 2: { rewrite map2_len, early_len, !app_length, !repeat_length, flags_len by lia. lia. }
  rewrite mask_or. 2: { rewrite !map2_len, early_len, !app_length, !repeat_length, !flags_len by lia. lia. }
  f_equal. rewrite !orb_assoc2. f_equal. rewrite <- orb_assoc2.
  pose proof (or_parts (nxt =? 1) (nxt =? 2) (flags nldot 16 T) (flags nldot 14 (skipn 16 T))) as H.
  rewrite !flags_len in H. cbn [Nat.add] in H. unfold early. cbn [Nat.sub repeat app].
  cbn [repeat app] in H. rewrite H. rewrite <- (flags_app nldot 16 14). reflexivity.
Qed.

(** ** End markers in half a block *)

Lemma end_half t : (20 <= length t)%nat ->
  v_or (v_and (v_or (v_and (v_cmpeq (v_set1 13) (part 3 16 t)) (v_cmpeq (part 4 16 t) (v_set1 10)))
                    (v_or (v_slli16 (v_cmpeq16 (part 4 16 t) (v_set1_16 0x793d)) 8)
                          (v_srli16 (v_and (vm (flags (at_ 2 EQS) 16 t)) (v_cmpeq (v_set1 121) (part 3 16 t))) 8)))
              (vm (flags nldot 16 t)))
       (v_and (v_and (vm (flags (at_ 2 EQS) 16 t)) (v_cmpeq (v_set1 121) (part 3 16 t))) (vm (flags crlf 16 t)))
  = vm (flags endf 16 t).
Proof.
  intro H. rewrite (cmp_part' 13 CR), (cmp_part 10 LF), (cmp_part' 121 YY) by (reflexivity || lia).
  rewrite (vm_and (flags (at_ 2 EQS) 16 t)), map2_flags.
  change (flags (fun t0 => at_ 2 EQS t0 && at_ 3 YY t0) 16 t) with (flags (eqy 2) (2 * 8) t).
  change (v_set1_16 0x793d) with (flat_map (fun _ : unit => [x3d; x79]) (repeat tt 8)).
  change (part 4 16 t) with (part 4 (2 * 8) t). rewrite eqy_lanes by (cbn [Nat.mul Nat.add]; lia).
  change (2 * 8)%nat with 16%nat. rewrite !vm_and, !map2_flags, !vm_or, !map2_flags, !vm_and, !map2_flags, !vm_or, !map2_flags.
  f_equal. apply flags_ext. intros j _. unfold endf, eqy. set (u := skipn j t).
  destruct (nldot u), (crlf u), (at_ 3 CR u), (at_ 4 LF u), (at_ 3 EQS u), (at_ 4 YY u), (at_ 2 EQS u), (at_ 3 YY u); reflexivity.
Qed.

Lemma existsb_or : forall a b, length a = length b -> existsb id (map2 orb a b) = existsb id (a ++ b).
Proof.
  induction a as [|x a IH]; intros [|y b] H; cbn [length] in H; try lia; [reflexivity|].
  cbn [map2 existsb app]. rewrite IH by lia. rewrite !existsb_app. cbn [existsb]. unfold id.
  destruct x, y, (existsb (fun x => x) a), (existsb (fun x => x) b); reflexivity.
Qed.

Lemma flags_halves f T : flags f 32 T = flags f 16 T ++ flags f 16 (skipn 16 T).
Proof. exact (flags_app f 16 16 T). Qed.

Lemma match_end_ok T m2a m2b n1a n1b n2a n2b : (36 <= length T)%nat ->
  m2a = vm (flags (at_ 2 EQS) 16 T) -> m2b = vm (flags (at_ 2 EQS) 16 (skipn 16 T)) ->
  n1a = vm (flags crlf 16 T) -> n1b = vm (flags crlf 16 (skipn 16 T)) ->
  n2a = vm (flags nldot 16 T) -> n2b = vm (flags nldot 16 (skipn 16 T)) ->
  sse_match_end (part 3 16 T) (part 3 16 (skipn 16 T)) (part 4 16 T) (part 4 16 (skipn 16 T)) m2a m2b n1a n1b n2a n2b
  = existsb id (flags endf 32 T).
Proof.
  intros H -> -> -> -> -> ->. unfold sse_match_end. cbv zeta.
  rewrite !end_half by (rewrite ?skipn_length; lia).
  rewrite vm_or, movemask_vm, mask_eqb0, negb_involutive, existsb_or by (rewrite !flags_len; reflexivity).
  rewrite flags_halves. reflexivity.
Qed.

(** ** The variables for the next block *)

Lemma subs_bm c x : b_subs c (bm x) = if x then x00 else c.
Proof. destruct x, c; reflexivity. Qed.

Lemma srli14 l : length l = 16%nat -> v_srli (vm l) 14 = bm (nth 14 l false) :: bm (nth 15 l false) :: repeat x00 14.
Proof.
  intro H. unfold v_srli, vm. rewrite skipn_map.
  do 16 (destruct l as [|? l]; [discriminate|]). destruct l; [reflexivity|discriminate].
Qed.

Lemma next_vars isa x y lf mn nl : length nl = 16%nat -> nth 14 nl false = x -> nth 15 nl false = y ->
  (x = true -> y = false) ->
  stands_for isa (if x then 1 else if y then 2 else 0)
    (if fast_match isa then lf else v_or (v_and (v_srli (vm nl) 14) (v_set1 46)) (v_set1 10))
    (if fast_match isa then v_subs (v_set1 46) (v_srli (vm nl) 14) else mn).
Proof.
  intros Hl Hx Hy He. rewrite srli14 by exact Hl. rewrite Hx, Hy. unfold stands_for.
  destruct (fast_match isa), x, y; try reflexivity; discriminate (He eq_refl).
Qed.

Lemma eq2_first isa a b T : a = part 0 16 T -> b = part 0 16 (skipn 16 T) -> (34 <= length T)%nat ->
  (if use_alignr isa then v_alignr (vm (map is_eq b)) (vm (map is_eq a)) 2 else v_cmpeq (v_set1 61) (part 2 16 T))
  = vm (flags (at_ 2 EQS) 16 T).
Proof.
  intros -> -> H. destruct (use_alignr isa); [|apply cmp_part'; [reflexivity|lia|reflexivity]].
  rewrite vm_alignr. f_equal. unfold is_eq. rewrite !part_flags by (rewrite ?skipn_length; lia).
  rewrite <- flags_halves, flags_skipn, flags_firstn by lia. rewrite flags_shift. reflexivity.
Qed.

(** ** Lines starting with a dot and end markers *)

Lemma newlines_ok isa searchEnd B x l look a b s m lf mn o s1 :
  length l = 32%nat -> lookahead true searchEnd <= zlen look ->
  a = part 0 16 (l ++ look) -> b = part 0 16 (skipn 16 (l ++ look)) ->
  bytes_at m x (l ++ look) -> x mod 32 = 0 -> rlo B <= x -> x + zlen (l ++ look) <= rhi B ->
  simple_state s -> run_raw s l = (o, s1) -> stands_for isa (dot_next s (l ++ look)) lf mn ->
  let R := sse_newlines isa true searchEnd B x (mask_of (map2 orb (map special l) (early (dot_next s (l ++ look)) 32)))
        (mask_of (map is_eq l)) a b (vm (map is_eq a)) (vm (map is_eq b)) lf mn m in
  (searchEnd = true /\ R = Ok (inl (dot_next s (l ++ look)), m) /\ marker_in 32 (l ++ look)) \/
  exists lf' mn', R = Ok (inr (mask_of (map2 orb (map special l) (flags nldot 32 (pre s ++ l))), lf', mn'), m) /\
    stands_for isa (dot_next s1 look) lf' mn' /\ (searchEnd = true -> no_marker_in 32 (l ++ look)).
Proof.
  intros Hl Hlook Ha Hb Hm Hal Hr1 Hr2 Hs Hrun Hst R. subst R. unfold sse_newlines. cbn [orb andb].
  assert (HT : (34 <= length (l ++ look))%nat) by (rewrite app_length; unfold lookahead, zlen in Hlook; destruct searchEnd; lia).
  assert (HTe : searchEnd = true -> (36 <= length (l ++ look))%nat) by (intros ->; rewrite app_length; unfold lookahead, zlen in Hlook; lia).
  destruct (next_dot s l look o s1 32 Hs Hrun Hl ltac:(lia)) as [Hnx Hex]. cbn [Nat.sub] in Hnx, Hex.
  pose proof (kills_split s 32 (l ++ look) Hs ltac:(lia)) as Hk.
  pose proof (kills_local s l look Hs) as Hkl. rewrite Hl in Hkl. rewrite Hkl in Hk. clear Hkl. cbn [Nat.sub] in Hk.
  rewrite Hk.
  pose proof (early_eqs (dot_next s (l ++ look)) l 32 look Hl ltac:(lia) (dot_next_1 s _) (dot_next_2 s _) (dot_next_cases s _)) as Hee.
  pose proof (nextMask_fwd_ok B x l look s m Hm ltac:(lia) Hr1 Hr2) as Hfwd. rewrite Hl in Hfwd.
  set (nxt := dot_next s (l ++ look)) in *. set (T := l ++ look) in *.
  assert (Hmask0 : map2 orb (map special l) (early nxt 32) = map2 orb (map special l) ((nxt =? 1) :: (nxt =? 2) :: repeat false 30)) by reflexivity.
  assert (HB : bytes_at m (x + 16) (skipn 16 T)).
  { rewrite <- (firstn_skipn 16 T) in Hm. apply bytes_at_app in Hm as [_ Hm].
    replace (zlen (firstn 16 T)) with 16 in Hm; [exact Hm|]. unfold zlen. rewrite firstn_length. lia. }
  assert (HBr : x + 16 + zlen (skipn 16 T) <= rhi B) by (unfold zlen in *; rewrite skipn_length; lia).
  assert (LA : forall k, (k + 16 <= length T)%nat -> forall y, y = x + Z.of_nat k -> mm_loadu B y m = Ok (part k 16 T, m)).
  { intros k Hk' y Hy. apply (load_part B m x); assumption. }
  assert (LB : forall k, (k + 32 <= length T)%nat -> forall y, y = x + Z.of_nat k + 16 -> mm_loadu B y m = Ok (part k 16 (skipn 16 T), m)).
  { intros k Hk' y Hy. apply (load_part B m (x + 16)); try assumption; [lia|rewrite skipn_length; lia|lia]. }
  assert (LA0 : mm_load B x m = Ok (part 0 16 T, m)).
  { unfold mm_load, load_aligned. change (Z.of_nat 16) with 16. destruct (x mod 16 =? 0) eqn:E; [apply (LA 0%nat); lia|lia]. }
  assert (LB0 : mm_load B (x + 16) m = Ok (part 0 16 (skipn 16 T), m)).
  { unfold mm_load, load_aligned. change (Z.of_nat 16) with 16. destruct ((x + 16) mod 16 =? 0) eqn:E; [apply (LB 0%nat); lia|lia]. }
  destruct (N.eqb_spec (mask_of (map2 orb (map special l) (early nxt 32))) (mask_of (map is_eq l))) as [E|E]; cbn [negb].
  { (* only '=' *)
    right. exists lf, mn. apply mask_inj in E. 2: { rewrite map2_len, early_len, !map_length by lia. lia. }
    rewrite E. destruct (Hee E) as [Hn Hq]. pose proof (quiet l look 32 Hl Hq) as Hcr. fold T in Hcr.
    pose proof (flags_weaken nldot (at_ 0 CR) 32 T nldot_cr Hcr) as Hnd.
    assert (H30 : flags nldot 30 T = repeat false 30).
    { rewrite <- (flags_firstn nldot 32 30), Hnd by lia. reflexivity. }
    split; [|split].
    - unfold ret. rewrite H30, <- Hmask0, E. reflexivity.
    - rewrite Hnx. replace (nldot (skipn 30 T)) with false by (rewrite <- (flags_nth nldot 32) by lia; rewrite Hnd; reflexivity).
      replace (nldot (skipn 31 T)) with false by (rewrite <- (flags_nth nldot 32) by lia; rewrite Hnd; reflexivity).
      rewrite <- Hn. exact Hst.
    - intros _. apply (no_end_flags 32). rewrite (flags_weaken endf (at_ 0 CR) 32 T endf_cr Hcr). reflexivity. }
  clear Hee.
  erewrite bind_ok by (apply (LA 2%nat); lia). erewrite bind_ok by (apply (LB 2%nat); lia). cbv zeta.
  rewrite (eq2_first isa a b T Ha Hb HT). rewrite (cmp_part' 61 EQS) by (try reflexivity; rewrite ?skipn_length; lia).
  subst a b. rewrite !(cmp_part 13 CR), !(cmp_part 46 DOT) by (try reflexivity; rewrite ?skipn_length; lia).
  rewrite !(vm_and (flags (at_ 0 CR) 16 _)), !map2_flags, vm_or, movemask_vm, mask_eqb0, negb_involutive, existsb_or, <- flags_halves
    by (rewrite !flags_len; reflexivity).
  set (crxdt := fun t => at_ 0 CR t && at_ 2 DOT t).
  destruct (existsb id (flags crxdt 32 T)) eqn:Epk.
  - (* a dot after CR and another character *)
    erewrite bind_ok by (apply (LA 1%nat); lia). erewrite bind_ok by (apply (LB 1%nat); lia).
    erewrite bind_ok by exact LA0. erewrite bind_ok by exact LB0.
    rewrite !(cmp_part' 10 LF), !(cmp_part 13 CR) by (try reflexivity; rewrite ?skipn_length; lia).
    rewrite !(vm_and (flags (at_ 1 LF) 16 _)), !map2_flags, !(vm_and (flags crxdt 16 _)), !map2_flags.
    replace (flags (fun t => at_ 1 LF t && at_ 0 CR t) 16 T) with (flags crlf 16 T)
      by (apply flags_ext; intros; apply andb_comm).
    replace (flags (fun t => at_ 1 LF t && at_ 0 CR t) 16 (skipn 16 T)) with (flags crlf 16 (skipn 16 T))
      by (apply flags_ext; intros; apply andb_comm).
    assert (End : forall u, crxdt u && (at_ 1 LF u && at_ 0 CR u) = nldot u).
    { intro u. unfold crxdt, nldot. destruct (at_ 0 CR u), (at_ 1 LF u), (at_ 2 DOT u); reflexivity. }
    replace (flags (fun t => crxdt t && (at_ 1 LF t && at_ 0 CR t)) 16 T) with (flags nldot 16 T)
      by (apply flags_ext; intros; rewrite End; reflexivity).
    replace (flags (fun t => crxdt t && (at_ 1 LF t && at_ 0 CR t)) 16 (skipn 16 T)) with (flags nldot 16 (skipn 16 T))
      by (apply flags_ext; intros; rewrite End; reflexivity).
    erewrite bind_ok with (a := if searchEnd then existsb id (flags endf 32 T) else false) (m' := m).
    2: { destruct searchEnd; [|reflexivity]. specialize (HTe eq_refl).
         erewrite bind_ok by (apply (LA 3%nat); lia). erewrite bind_ok by (apply (LB 3%nat); lia).
         erewrite bind_ok by (apply (LA 4%nat); lia). erewrite bind_ok by (apply (LB 4%nat); lia).
         unfold ret. rewrite match_end_ok by (try reflexivity; assumption). reflexivity. }
    destruct searchEnd eqn:Ese.
    + destruct (existsb id (flags endf 32 T)) eqn:Eend.
      * left. split; [reflexivity|]. split; [erewrite bind_ok by exact Hfwd; reflexivity|]. apply (end_flags 32). exact Eend.
      * right. rewrite !movemask_vm, mask_kills by (rewrite map_length; exact Hl).
        exists (if fast_match isa then lf else v_or (v_and (v_srli (vm (flags nldot 16 (skipn 16 T))) 14) (v_set1 46)) (v_set1 10)).
        exists (if fast_match isa then v_subs (v_set1 46) (v_srli (vm (flags nldot 16 (skipn 16 T))) 14) else mn).
        split; [destruct (fast_match isa); reflexivity|]. split; [|intros _; apply (no_end_flags 32); exact Eend].
        rewrite Hnx. apply next_vars; [apply flags_len| | |exact Hex].
        -- rewrite flags_nth by lia. rewrite skipn_plus. reflexivity.
        -- rewrite flags_nth by lia. rewrite skipn_plus. reflexivity.
    + right. rewrite !movemask_vm, mask_kills by (rewrite map_length; exact Hl).
        exists (if fast_match isa then lf else v_or (v_and (v_srli (vm (flags nldot 16 (skipn 16 T))) 14) (v_set1 46)) (v_set1 10)).
        exists (if fast_match isa then v_subs (v_set1 46) (v_srli (vm (flags nldot 16 (skipn 16 T))) 14) else mn).
        split; [destruct (fast_match isa); reflexivity|]. split; [|discriminate].
        rewrite Hnx. apply next_vars; [apply flags_len| | |exact Hex].
        -- rewrite flags_nth by lia. rewrite skipn_plus. reflexivity.
        -- rewrite flags_nth by lia. rewrite skipn_plus. reflexivity.
  - (* none *)
    apply flags_none_inv in Epk.
    assert (Hnd : flags nldot 32 T = repeat false 32).
    { apply (flags_weaken nldot crxdt); [|exact Epk]. intro u. unfold nldot, crxdt. rewrite !andb_true_iff. tauto. }
    assert (H30 : flags nldot 30 T = repeat false 30).
    { rewrite <- (flags_firstn nldot 32 30), Hnd by lia. reflexivity. }
    assert (Hrs : forall k, exists lf' mn', reset_compare isa k lf mn = (k, lf', mn') /\ stands_for isa (dot_next s1 look) lf' mn').
    { intro k. rewrite Hnx. replace (nldot (skipn 30 T)) with false by (rewrite <- (flags_nth nldot 32) by lia; rewrite Hnd; reflexivity).
      replace (nldot (skipn 31 T)) with false by (rewrite <- (flags_nth nldot 32) by lia; rewrite Hnd; reflexivity).
      unfold reset_compare, stands_for. destruct (fast_match isa); eauto. }
    rewrite H30, <- Hmask0.
    destruct (Hrs (mask_of (map2 orb (map special l) (early nxt 32)))) as (lf' & mn' & -> & Hst').
    destruct searchEnd; [|right; exists lf', mn'; split; [reflexivity|split; [exact Hst'|discriminate]]].
    specialize (HTe eq_refl).
    erewrite bind_ok by (apply (LA 3%nat); lia). erewrite bind_ok by (apply (LB 3%nat); lia). cbv zeta.
    rewrite !(cmp_part' 121 YY) by (try reflexivity; rewrite ?skipn_length; lia).
    rewrite !(vm_and (flags (at_ 2 EQS) 16 _)), !map2_flags, vm_or, movemask_vm, mask_eqb0, negb_involutive, existsb_or, <- flags_halves
      by (rewrite !flags_len; reflexivity).
    fold (eqy 2).
    assert (Hen : flags endf 32 T = flags (fun t => eqy 2 t && (at_ 1 LF t && at_ 0 CR t)) 32 T).
    { apply flags_ext. intros j Hj. unfold endf. rewrite <- (flags_nth nldot 32 T j Hj), Hnd, nth_repeat. cbn [andb orb].
      unfold crlf, eqy. destruct (at_ 0 CR (skipn j T)), (at_ 1 LF (skipn j T)), (at_ 2 EQS (skipn j T)), (at_ 3 YY (skipn j T)); reflexivity. }
    destruct (existsb id (flags (eqy 2) 32 T)) eqn:Eq.
    + erewrite bind_ok with (a := existsb id (flags endf 32 T)) (m' := m).
      2: { erewrite bind_ok by exact LA0. erewrite bind_ok by exact LB0.
           erewrite bind_ok by (apply (LA 1%nat); lia). erewrite bind_ok by (apply (LB 1%nat); lia). cbv zeta.
           rewrite !(cmp_part' 10 LF), !(cmp_part 13 CR) by (try reflexivity; rewrite ?skipn_length; lia).
           rewrite !(vm_and (flags (at_ 1 LF) 16 _)), !map2_flags, !(vm_and (flags (eqy 2) 16 _)), !map2_flags.
           rewrite vm_or, movemask_vm, mask_eqb0, negb_involutive, existsb_or, <- flags_halves by (rewrite !flags_len; reflexivity).
           rewrite Hen. reflexivity. }
      destruct (existsb id (flags endf 32 T)) eqn:Eend.
      * left. split; [reflexivity|]. split; [erewrite bind_ok by exact Hfwd; reflexivity|]. apply (end_flags 32). exact Eend.
      * right. exists lf', mn'. split; [reflexivity|]. split; [exact Hst'|]. intros _. apply (no_end_flags 32). exact Eend.
    + right. exists lf', mn'. split; [reflexivity|]. split; [exact Hst'|]. intros _. apply (no_end_flags 32).
      apply flags_none_inv in Eq. rewrite Hen, (flags_weaken _ (eqy 2) 32 T); [reflexivity| |exact Eq].
      intro u. rewrite !andb_true_iff. tauto.
Qed.

(** ** A block with nothing to remove *)

Lemma orb_none : forall a b n, length a = n -> length b = n -> map2 orb a b = repeat false n -> a = repeat false n /\ b = repeat false n.
Proof.
  induction a as [|x a IH]; intros [|y b] n Ha Hb H; cbn [length] in *; subst n; try lia; [auto|].
  cbn [map2 repeat] in *. injection H as H1 H2. apply orb_false_elim in H1 as [-> ->].
  destruct (IH b (length a) eq_refl ltac:(lia) H2) as [E1 E2]. rewrite E1 at 1. rewrite E2 at 1. auto.
Qed.

Lemma none_repeat l n : length l = n -> existsb id l = false -> l = repeat false n.
Proof.
  intros <-. induction l as [|b l IH]; [reflexivity|]. cbn [existsb length repeat]. intro H.
  apply orb_false_elim in H as [H1 H2]. unfold id in H1. subst b. f_equal. auto.
Qed.

Lemma special_none l : map special l = repeat false (length l) ->
  map is_eq l = repeat false (length l) /\ Forall (fun c => is_nl c = false) l.
Proof.
  induction l as [|c l IH]; [split; [reflexivity|constructor]|]. cbn [map length repeat]. intro H. injection H as H1 H2.
  destruct (IH H2) as [E1 E2]. unfold special in H1. apply orb_false_elim in H1 as [Hn He]. rewrite E1, He. split; [reflexivity|constructor; assumption].
Qed.

Lemma escs_none esc n : escs esc (repeat false (S n)) = esc :: repeat false n.
Proof. revert esc; induction n as [|n IH]; intro esc; [reflexivity|]. cbn [repeat escs] in *. rewrite <- (IH false). reflexivity. Qed.

Lemma lead_out_none esc n : lead_out esc (repeat false (S n)) = false.
Proof. revert esc; induction n as [|n IH]; intro esc; [reflexivity|]. cbn [repeat] in *. rewrite lead_out_cons. apply IH. Qed.

Lemma map2_false (f : bool -> bool -> bool) : (forall e, f false e = false) ->
  forall l n, length l = n -> map2 f (repeat false n) l = repeat false n.
Proof. intros Hf l n <-. induction l as [|b l IH]; [reflexivity|]. cbn [length repeat map2]. rewrite Hf, IH. reflexivity. Qed.

Lemma idle kills esc l n : length l = S n -> length kills = S n -> map2 orb (map special l) kills = repeat false (S n) ->
  pick (removed kills esc l) (decoded esc l) = map2 dec1 l (esc :: repeat false n) /\
  lead_out esc (map is_eq l) = false /\ Forall (fun c => is_nl c = false) l /\ map is_eq l = repeat false (S n).
Proof.
  intros Hl Hk H. pose proof (orb_none _ _ (S n) ltac:(rewrite map_length; exact Hl) Hk H) as [Hs _].
  rewrite <- Hl in Hs. destruct (special_none l Hs) as [He Hn]. rewrite Hl in He.
  split; [|split; [rewrite He; apply lead_out_none|split; assumption]].
  unfold removed. rewrite H, map2_false by (try (intro; reflexivity); rewrite escs_len, map_length; exact Hl).
  rewrite pick_none by (rewrite decoded_len; lia). unfold decoded. rewrite He, escs_none. reflexivity.
Qed.

Lemma add_plain : forall v n, length v = n -> v_add v (repeat (u8 (-42)) n) = map2 dec1 v (repeat false n).
Proof. intros v n <-. unfold v_add. induction v as [|c v IH]; [reflexivity|]. cbn [length repeat map2]. rewrite IH, add_off. reflexivity. Qed.

Lemma add_plain_first (esc : bool) v n : length v = S n ->
  v_add v ((if esc then u8 (-42 - 64) else u8 (-42)) :: repeat (u8 (-42)) n) = map2 dec1 v (esc :: repeat false n).
Proof.
  destruct v as [|c v]; [discriminate|]. cbn [length]. intro H.
  change (b_add c (if esc then u8 (-42 - 64) else u8 (-42)) :: v_add v (repeat (u8 (-42)) n) = dec1 c esc :: map2 dec1 v (repeat false n)).
  rewrite add_plain by lia. f_equal. destruct esc; [apply add_esc|apply add_off].
Qed.

(** ** The body of the loop *)

Lemma halves : forall k j (t : list byte), part 0 k t ++ part 0 j (skipn k t) = firstn (k + j) t.
Proof.
  unfold part. cbn [skipn]. induction k as [|k IH]; intros j t; [reflexivity|].
  destruct t as [|x t]; [destruct j; reflexivity|]. cbn [firstn skipn Nat.add app]. rewrite IH. reflexivity.
Qed.

Definition sse_rel (isa : sse_isa) (t : sse_vars) (p : Z) (esc : bool) (nxt : Z) : Prop :=
  let '(p', e, yo, lf, mn) := t in p' = p /\ e = N.b2n esc /\ yo = voff esc /\ stands_for isa nxt lf mn.

(** The characters to remove besides the special ones. *)
Definition kills_of (isRaw : bool) (s : dstate) (l : list byte) : list bool :=
  if isRaw then flags nldot (length l) (pre s ++ l) else repeat false (length l).

Lemma block_m isRaw s l o s1 : good_state isRaw s -> run_m isRaw s l = (o, s1) ->
  o = pick (removed (kills_of isRaw s l) (is_esc s) l) (decoded (is_esc s) l) /\
  is_esc s1 = lead_out (is_esc s) (map is_eq l).
Proof.
  destruct isRaw; intros Hs Hr.
  - destruct (raw_block _ _ _ _ Hs Hr) as (H1 & H2 & _). auto.
  - destruct (plain_block _ _ _ _ Hs Hr) as (H1 & H2 & _). auto.
Qed.

Lemma plain_dot s l : good_state false s -> dot_next s l = 0.
Proof. intros [-> | ->]; reflexivity. Qed.

(** What each of the parts must do. *)
Definition newlines_spec (ex : bool) (isa : sse_isa)
    (nl : bool -> bool -> bufs -> Z -> N -> N -> vec -> vec -> vec -> vec -> vec -> vec -> M (Z + nl_vars)) : Prop :=
  (forall searchEnd B x l look a b s m lf mn o s1,
  length l = 32%nat -> lookahead true searchEnd <= zlen look ->
  a = part 0 16 (l ++ look) -> b = part 0 16 (skipn 16 (l ++ look)) ->
  bytes_at m x (l ++ look) -> x mod 32 = 0 -> rlo B <= x -> x + zlen (l ++ look) <= rhi B ->
  simple_state s -> run_raw s l = (o, s1) -> stands_for isa (dot_next s (l ++ look)) lf mn ->
  let R := nl true searchEnd B x (mask_of (map2 orb (map special l) (early (dot_next s (l ++ look)) 32)))
        (mask_of (map is_eq l)) a b (vm (map is_eq a)) (vm (map is_eq b)) lf mn m in
  (searchEnd = true /\ R = Ok (inl (dot_next s (l ++ look)), m) /\ (ex = true -> marker_in 32 (l ++ look))) \/
  exists lf' mn', R = Ok (inr (mask_of (map2 orb (map special l) (flags nldot 32 (pre s ++ l))), lf', mn'), m) /\
    stands_for isa (dot_next s1 look) lf' mn' /\ (searchEnd = true -> no_marker_in 32 (l ++ look))) /\
  (forall B x mask maskEq a b ca cb lf mn m, nl false false B x mask maskEq a b ca cb lf mn m = Ok (inr (mask, lf, mn), m)).

Definition unescape_spec (unescape : N -> N -> N -> vec -> vec -> vec -> vec -> vec -> vec * vec * N * N * vec) : Prop :=
  forall esc a b sp, length a = 16%nat -> length b = 16%nat -> length sp = 32%nat ->
  Forall2 (fun e s : bool => e = true -> s = true) (map is_eq (a ++ b)) sp ->
  exists da db,
    unescape (mask_of sp) (mask_of (map is_eq (a ++ b))) (N.b2n esc) (voff esc) a b (vm (map is_eq a)) (vm (map is_eq b)) =
      (da, db, mask_of (map2 (fun s e => s && negb e) sp (escs esc (map is_eq (a ++ b)))),
       N.b2n (lead_out esc (map is_eq (a ++ b))), voff (lead_out esc (map is_eq (a ++ b)))) /\
    da ++ db = decoded esc (a ++ b) /\ length da = 16%nat /\ length db = 16%nat.

Definition compact_spec (compact_store : bufs -> Z -> N -> vec -> vec -> M Z) : Prop :=
  forall B p rm a b m, length rm = 32%nat -> length a = 16%nat -> length b = 16%nat ->
  wlo B <= p -> p + 32 <= whi B ->
  exists m', compact_store B p (mask_of rm) a b m = Ok (p + zlen (pick rm (a ++ b)), m') /\
    bytes_at m' p (pick rm (a ++ b)) /\ (forall q, ~ (p <= q < p + 32) -> m' q = m q).

Lemma block_with_ok ex isa nl un co isRaw searchEnd : newlines_spec ex isa nl -> unescape_spec un -> compact_spec co ->
  (searchEnd = true -> isRaw = true) ->
  block_ok ex isRaw searchEnd 32 (sse_block_with isa nl un co isRaw searchEnd) (sse_rel isa).
Proof.
  intros [Hnl1 Hnl2] Hun Hco.
  intros Hmode B src i t p s l look m o s1 Hl Hm Hal Hlook Hr1 Hr2 Hw1 Hw2 Hs HR Hrun.
  destruct t as [[[[p' e] yo] lf] mn]. destruct HR as (-> & -> & -> & Hst).
  assert (HL : length l = 32%nat) by (unfold zlen in Hl; lia).
  pose proof (zlen_nonneg look) as Hlk.
  destruct (block_m _ _ _ _ _ Hs Hrun) as [Ho He1].
  set (x := src + i) in *. set (nxt := dot_next s (l ++ look)) in *.
  assert (Hnxt0 : nxt = 0 \/ nxt = 1 \/ nxt = 2) by apply dot_next_cases.
  assert (Hnxt1 : nxt = 1 -> exists r, l ++ look = DOT :: r) by apply dot_next_1.
  assert (Hnxt2 : nxt = 2 -> exists r, l ++ look = LF :: DOT :: r) by apply dot_next_2.
  assert (Hr2' : x + zlen (l ++ look) <= rhi B) by (rewrite zlen_app; lia).
  assert (HTl : (32 <= length (l ++ look))%nat) by (rewrite app_length; lia).
  set (a := part 0 16 (l ++ look)). set (b := part 0 16 (skipn 16 (l ++ look))).
  assert (Hla : length a = 16%nat) by (apply part_len; lia).
  assert (Hlb : length b = 16%nat) by (apply part_len; rewrite skipn_length; lia).
  assert (Hab : a ++ b = l).
  { unfold a, b. rewrite halves. change (16 + 16)%nat with 32%nat. rewrite <- HL, firstn_app, Nat.sub_diag, firstn_O, app_nil_r, firstn_all. reflexivity. }
  unfold sse_block_with. fold x.
  erewrite bind_ok with (a := a) (m' := m).
  2: { unfold mm_load, load_aligned. change (Z.of_nat 16) with 16. destruct (x mod 16 =? 0) eqn:E; [|lia].
       apply (load_part B m x); try assumption; [lia|cbn; lia]. }
  erewrite bind_ok with (a := b) (m' := m).
  2: { unfold mm_load, load_aligned. change (Z.of_nat 16) with 16. destruct ((x + 16) mod 16 =? 0) eqn:E; [|lia].
       apply (load_part B m (x + 16)); [|lia|unfold zlen in *; rewrite skipn_length; lia|rewrite skipn_length; lia|cbn; lia].
       rewrite <- (firstn_skipn 16 (l ++ look)) in Hm. apply bytes_at_app in Hm as [_ Hm].
       replace (zlen (firstn 16 (l ++ look))) with 16 in Hm; [exact Hm|]. unfold zlen. rewrite firstn_length. lia. }
  rewrite (match_ok isa a b nxt lf mn Hla Hlb Hst).
  2: { intro E. destruct (Hnxt1 E) as [r Hr]. rewrite <- Hab in Hr. destruct a as [|c a']; [discriminate|]. injection Hr as -> _. eauto. }
  2: { intro E. destruct (Hnxt2 E) as [r Hr]. rewrite <- Hab in Hr. destruct a as [|c [|d a']]; [discriminate|discriminate|]. injection Hr as -> -> _. eauto. }
  2: { exact Hnxt0. }
  rewrite !movemask_vm.
  assert (Hmask : N.lor (mask_of (map2 orb (map special a) (early nxt 16))) (N.shiftl (mask_of (map special b)) 16)
                  = mask_of (map2 orb (map special l) (early nxt 32))).
  { replace 16%N with (N.of_nat (length (map2 orb (map special a) (early nxt 16)))).
    2: { rewrite map2_len, early_len, map_length, Hla by lia. reflexivity. }
    rewrite mask_app. f_equal. rewrite <- Hab, map_app.
    change (early nxt 32) with (early nxt 16 ++ repeat false 16).
    rewrite map2_app by (rewrite map_length, early_len by lia; exact Hla). f_equal.
    replace 16%nat with (length (map special b)) by (rewrite map_length; exact Hlb). rewrite orb_repeat. reflexivity. }
  rewrite Hmask. rewrite mask_eqb0, negb_involutive.
  destruct (existsb id (map2 orb (map special l) (early nxt 32))) eqn:Eany.
  - (* something to do *)
    cbv zeta. unfold v_set1. rewrite !(cmpeq_rep (u8 61)) by lia. change (fun x0 : byte => beq x0 (u8 61)) with is_eq. rewrite !movemask_vm.
    assert (HmaskEq : N.lor (mask_of (map is_eq a)) (N.shiftl (mask_of (map is_eq b)) 16) = mask_of (map is_eq l)).
    { replace 16%N with (N.of_nat (length (map is_eq a))) by (rewrite map_length, Hla; reflexivity).
      rewrite mask_app, <- map_app, Hab. reflexivity. }
    rewrite HmaskEq.
    assert (Hnl : (searchEnd = true /\
        nl isRaw searchEnd B x (mask_of (map2 orb (map special l) (early nxt 32))) (mask_of (map is_eq l))
          a b (vm (map is_eq a)) (vm (map is_eq b)) lf mn m = Ok (inl nxt, m) /\ (ex = true -> marker_in 32 (l ++ look))) \/
      exists lf' mn', nl isRaw searchEnd B x (mask_of (map2 orb (map special l) (early nxt 32))) (mask_of (map is_eq l))
          a b (vm (map is_eq a)) (vm (map is_eq b)) lf mn m
          = Ok (inr (mask_of (map2 orb (map special l) (kills_of isRaw s l)), lf', mn'), m) /\
        stands_for isa (dot_next s1 look) lf' mn' /\ (searchEnd = true -> no_marker_in 32 (l ++ look))).
    { destruct isRaw.
      - unfold kills_of. rewrite HL. apply (Hnl1 searchEnd B x l look a b s m lf mn o s1); try assumption; reflexivity.
      - right. destruct searchEnd; [discriminate (Hmode eq_refl)|]. exists lf, mn. split; [|split; [|discriminate]].
        + rewrite Hnl2. unfold kills_of. rewrite HL. unfold nxt. rewrite (plain_dot s _ Hs). reflexivity.
        + rewrite (plain_dot s1) by exact (proj1 (run_m_good _ _ _ _ _ Hs Hrun)).
          unfold nxt in Hst. rewrite (plain_dot s _ Hs) in Hst. exact Hst. }
    destruct Hnl as [(Hse & Hnl & Hmk)|(lf' & mn' & Hnl & Hst' & Hno)].
    { left. split; [exact Hse|]. split; [|exact Hmk]. cbv zeta. erewrite bind_ok by exact Hnl. reflexivity. }
    right. cbv zeta. erewrite bind_ok by exact Hnl. cbv beta iota.
    assert (Hkl : length (kills_of isRaw s l) = 32%nat) by (unfold kills_of; destruct isRaw; rewrite ?flags_len, ?repeat_length; exact HL).
    destruct (Hun (is_esc s) a b (map2 orb (map special l) (kills_of isRaw s l)) Hla Hlb) as (da & db & Hu & Hdec & Hda & Hdb).
    { rewrite map2_len, map_length. lia. }
    { rewrite Hab. apply eqs_special. lia. }
    rewrite Hab in Hu, Hdec. rewrite Hu.
    destruct (Hco B p (removed (kills_of isRaw s l) (is_esc s) l) da db m) as (m' & Hcs & Hb' & Hf'); try assumption.
    { rewrite removed_len by lia. exact HL. }
    unfold removed in Hcs at 1. erewrite bind_ok by exact Hcs. rewrite Hdec in *. rewrite <- Ho in *.
    eexists. exists m'. split; [reflexivity|]. split; [|split; [exact Hb'|split; [exact Hf'|exact Hno]]].
    unfold sse_rel. rewrite He1. repeat apply conj; try reflexivity. exact Hst'.
  - (* nothing to do *)
    right. apply none_repeat with (n := 32%nat) in Eany. 2: { rewrite map2_len, early_len, map_length by lia. lia. }
    assert (Hsp : map special l = repeat false 32).
    { refine (proj1 (orb_none _ _ _ _ _ Eany)); [rewrite map_length; exact HL|apply early_len; lia]. }
    destruct (early_eqs nxt l 32 look HL ltac:(lia) Hnxt1 Hnxt2 Hnxt0) as [Hn Hq].
    { rewrite Eany. rewrite <- HL in Hsp. rewrite (proj1 (special_none l Hsp)), HL. reflexivity. }
    pose proof (quiet l look 32 HL Hq) as Hcr.
    assert (Hkill : kills_of isRaw s l = repeat false 32).
    { unfold kills_of. rewrite HL. destruct isRaw; [|reflexivity].
      pose proof (kills_local s l look Hs) as Hkl. rewrite HL in Hkl. rewrite <- Hkl, (kills_split s 32) by (try exact Hs; lia).
      fold nxt. rewrite Hn. cbn [Z.eqb Nat.sub].
      rewrite <- (flags_firstn nldot 32 30), (flags_weaken nldot (at_ 0 CR) 32 _ nldot_cr Hcr) by lia. reflexivity. }
    rewrite Hkill in Ho.
    destruct (idle (repeat false 32) (is_esc s) l 31 HL (repeat_length _ _)) as (Hp & Hlo & _ & _).
    { rewrite Hsp. reflexivity. }
    rewrite Hp in Ho. rewrite Hlo in He1.
    unfold voff. rewrite (add_plain_first (is_esc s) a 15 Hla). unfold v_set1 at 1. rewrite (add_plain b 16 Hlb).
    assert (Ho2 : o = map2 dec1 a (is_esc s :: repeat false 15) ++ map2 dec1 b (repeat false 16)).
    { rewrite Ho, <- Hab. change (is_esc s :: repeat false 31) with ((is_esc s :: repeat false 15) ++ repeat false 16).
      rewrite map2_app by (rewrite Hla; reflexivity). reflexivity. }
    set (va := map2 dec1 a (is_esc s :: repeat false 15)) in *. set (vb := map2 dec1 b (repeat false 16)) in *.
    assert (Hva : zlen va = 16) by (unfold zlen, va; rewrite map2_len, Hla; reflexivity).
    assert (Hvb : zlen vb = 16) by (unfold zlen, vb; rewrite map2_len, Hlb; reflexivity).
    destruct (two_stores B p va [] vb [] m) as (m1 & m2 & S1 & S2 & Hb2 & Hf2); [lia|rewrite ?app_nil_r; lia|rewrite ?app_nil_r; lia|].
    rewrite !app_nil_r in *. rewrite Hva in S2.
    erewrite bind_ok by exact S1. erewrite bind_ok by exact S2.
    eexists. exists m2. split; [reflexivity|]. rewrite <- Ho2 in Hb2.
    assert (Hzo : zlen o = 32) by (rewrite Ho2, zlen_app; lia).
    split; [|split; [exact Hb2|split]].
    + unfold sse_rel. rewrite He1, Hzo. repeat apply conj; try reflexivity.
      replace (dot_next s1 look) with nxt; [exact Hst|]. rewrite Hn. symmetry. destruct isRaw.
      * destruct (next_dot s l look o s1 32 Hs Hrun HL ltac:(lia)) as [-> _]. cbn [Nat.sub].
        rewrite <- (flags_nth nldot 32 (l ++ look) 30), <- (flags_nth nldot 32 (l ++ look) 31) by lia.
        rewrite (flags_weaken nldot (at_ 0 CR) 32 _ nldot_cr Hcr). reflexivity.
      * apply plain_dot. exact (proj1 (run_m_good _ _ _ _ _ Hs Hrun)).
    + intros q Hq1. apply Hf2; lia.
    + intros _. apply (no_end_flags 32). rewrite (flags_weaken endf (at_ 0 CR) 32 _ endf_cr Hcr). reflexivity.
Qed.

Lemma sse_newlines_spec isa : newlines_spec true isa (sse_newlines isa).
Proof.
  split; [|reflexivity]. intros se B x l look a b s m lf mn o s1 H1 H2 H3 H4 H5 H6 H7 H8 H9 H10 H11.
  pose proof (newlines_ok isa se B x l look a b s m lf mn o s1 H1 H2 H3 H4 H5 H6 H7 H8 H9 H10 H11) as H. cbv zeta in *.
  destruct H as [(Ha & Hb & Hc)|H]; [left; auto|right; exact H].
Qed.

Lemma sse_block_ok isa isRaw searchEnd : (searchEnd = true -> isRaw = true) ->
  block_ok true isRaw searchEnd 32 (sse_block isa isRaw searchEnd) (sse_rel isa).
Proof.
  apply block_with_ok; [apply sse_newlines_spec|intro; apply unescape_ok|intro; apply compact_store_ok].
Qed.

(** ** The kernel *)

Lemma esc_flag_b2n s : esc_flag s = Z.of_N (N.b2n (is_esc s)).
Proof. destruct s; reflexivity. Qed.

Lemma entry_good isRaw s l : entry_state isRaw s l -> good_state isRaw s.
Proof.
  intros [-> | [-> | [-> H]]]; cbn [good_state].
  - destruct isRaw; [left|left]; reflexivity.
  - destruct isRaw; [right; left|right]; reflexivity.
  - destruct s; cbn [dot_next] in H; try (exfalso; apply H; reflexivity); unfold simple_state; auto.
Qed.

Lemma kernel_with_ok ex isa block isRaw searchEnd : block_ok ex isRaw searchEnd 32 (block isRaw searchEnd) (sse_rel isa) ->
  kernel_ok_x ex isRaw searchEnd 32 (do_decode_with isa block isRaw searchEnd).
Proof.
  intros Hblock B src dest d look s m Hm Hd Hw Hal Hlook Hr1 Hr2 Hw1 Hw2 Hap Hent.
  pose proof (entry_good _ _ _ Hent) as Hs.
  assert (Hn : zlen d = Z.of_nat (Z.to_nat (zlen d / 32)) * 32) by lia.
  set (nxt := dot_next s (d ++ look)).
  set (vars := if negb (nxt =? 0) && isRaw then
        if fast_match isa then (v_set1 10, v_insert16 (v_set1 46) (if nxt =? 1 then 0x2e00 else 0x002e))
        else (v_insert16 (v_set1 10) (if nxt =? 1 then 0x0a2e else 0x2e0a), v_set1 46)
      else (v_set1 10, v_set1 46)).
  assert (Hst : stands_for isa nxt (fst vars) (snd vars)).
  { unfold vars, stands_for. destruct isRaw.
    - destruct (dot_next_cases s (d ++ look)) as [E|[E|E]]; fold nxt in E; rewrite E; destruct (fast_match isa); reflexivity.
    - assert (E : nxt = 0) by (apply plain_dot; exact Hs). rewrite E. destruct (fast_match isa); reflexivity. }
  destruct (block_loop_ok ex isRaw searchEnd 32 (block isRaw searchEnd) (sse_rel isa) Hblock ltac:(lia)
    (Z.to_nat (zlen d / 32)) (Z.to_nat (zlen d)) B (src + zlen d)
    (dest, N.b2n (is_esc s), voff (is_esc s), fst vars, snd vars) dest s d look m)
    as (d1 & d2 & o & s1 & m' & t' & stop & E1 & E2 & E3 & E4 & E5 & E6 & E7 & E8).
  - exact Hn.
  - lia.
  - lia.
  - replace (src + zlen d - zlen d) with src by lia. exact Hm.
  - exact Hlook.
  - lia.
  - lia.
  - exact Hw1.
  - exact Hw2.
  - lia.
  - exact Hs.
  - repeat apply conj; try reflexivity. exact Hst.
  - exists d1, d2, o, s1, m'. split; [|intro Hx; destruct E5 as [[-> _]|(_ & _ & Hmk)]; auto].
    split; [exact E1|]. split.
    { intro Hse. destruct E5 as [[-> _]|[Hc _]]; [reflexivity|congruence]. }
    split; [exact E2|]. split; [exact E6|]. split; [|split; assumption].
    unfold do_decode_with. fold nxt.
    change (repeat (u8 (-42)) 15) with (repeat (u8 (-42)) 15).
    replace (if negb (esc_flag s =? 0) then u8 (-42 - 64) :: repeat (u8 (-42)) 15 else v_set1 (-42)) with (voff (is_esc s))
      by (destruct s; reflexivity).
    replace (Z.to_N (esc_flag s)) with (N.b2n (is_esc s)) by (destruct s; reflexivity).
    cbv zeta. fold vars. destruct vars as [lf mn]. cbn [fst snd] in E3.
    destruct (run_m isRaw s d) as [od sd] eqn:Erd.
    erewrite bind_ok.
    2: { apply (nextMask_back_ok isRaw B (src + zlen d) d look m s od sd); try assumption; try lia.
         - replace (src + zlen d - zlen d) with src by lia. exact Hm.
         - unfold lookahead in *. destruct searchEnd, isRaw; lia. }
    erewrite bind_ok by exact E3. destruct t' as [[[[p' e'] yo'] lf'] mn']. destruct E4 as (-> & -> & _ & _).
    rewrite <- esc_flag_b2n.
    destruct E5 as [[-> ->]|(_ & -> & _)].
    + rewrite app_nil_r in E1. subst d1. rewrite Erd in E2. injection E2 as -> ->. reflexivity.
    + unfold ret. replace (zlen d + - zlen d2) with (zlen d1) by (rewrite E1, zlen_app; lia). reflexivity.
Qed.

Theorem sse_kernel_x isa isRaw searchEnd : (searchEnd = true -> isRaw = true) ->
  kernel_ok_x true isRaw searchEnd 32 (do_decode_sse isa isRaw searchEnd).
Proof. intro Hmode. apply kernel_with_ok. apply sse_block_ok. exact Hmode. Qed.

Theorem sse_kernel_ok isa isRaw searchEnd : (searchEnd = true -> isRaw = true) ->
  kernel_ok isRaw searchEnd 32 (do_decode_sse isa isRaw searchEnd).
Proof. intro H. exact (kernel_x_ok _ _ _ _ _ (sse_kernel_x isa isRaw searchEnd H)). Qed.
