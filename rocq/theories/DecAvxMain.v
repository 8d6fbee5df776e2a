(** The 256-bit kernel meets the contract of the front-end. *)
From Verif Require Import Base BaseLemmas EncSpec DecSpec DecModel DecProofs DecMaskSpec DecMaskModel DecMaskProofs
  DecSimdModel DecSimdSpec DecVec DecKernelModel DecBlock DecKernel DecVecProofs DecBlockFacts DecSseModel DecCompact DecSseProofs DecSseMain
  EncSseModel EncAvxModel DecAvxModel DecAvxProofs.
From Coq Require Import ZifyBool ZifyNat ZifyN.
Ltac Zify.zify_post_hook ::= Z.div_mod_to_equations.

(** ** Finding the special characters *)

(** The vector minMask for a nextMask. *)
Definition ymin (nxt : Z) : vec :=
  if nxt =? 1 then x00 :: repeat DOT 31 else if nxt =? 2 then DOT :: x00 :: repeat DOT 30 else repeat DOT 32.

Lemma shuffle_twice t v : length t = 16%nat -> y_shuffle (t ++ t) v = v_shuffle t v.
Proof.
  intro H. unfold y_shuffle. rewrite y_lo_app, y_hi_app by exact H. unfold v_shuffle, y_lo, y_hi.
  rewrite <- map_app, firstn_skipn. reflexivity.
Qed.

Lemma avx_match_ok a nxt : length a = 32%nat ->
  (nxt = 1 -> exists r, a = DOT :: r) -> (nxt = 2 -> exists r, a = LF :: DOT :: r) -> (nxt = 0 \/ nxt = 1 \/ nxt = 2) ->
  avx_match a (ymin nxt) = vm (map2 orb (map special a) (early nxt 32)).
Proof.
  intros Ha H1 H2 H0. unfold avx_match. rewrite shuffle_twice by reflexivity. destruct H0 as [->|[->| ->]].
  - change (ymin 0) with (repeat DOT 32). rewrite match_fast by exact Ha.
    change (early 0 32) with (repeat false 32). replace 32%nat with (length (map special a)) by (rewrite map_length; exact Ha).
    rewrite orb_repeat. reflexivity.
  - destruct (H1 eq_refl) as [r ->]. cbn [length] in Ha.
    change (ymin 1) with (x00 :: repeat DOT 31). change (early 1 32) with (true :: repeat false 31).
    change (xff :: v_cmpeq r (v_shuffle fast_table (v_min r (repeat DOT 31))) = xff :: vm (map2 orb (map special r) (repeat false 31))).
    f_equal. rewrite match_fast by lia. replace 31%nat with (length (map special r)) by (rewrite map_length; lia).
    rewrite orb_repeat. reflexivity.
  - destruct (H2 eq_refl) as [r ->]. cbn [length] in Ha.
    change (ymin 2) with (DOT :: x00 :: repeat DOT 30). change (early 2 32) with (false :: true :: repeat false 30).
    change (xff :: xff :: v_cmpeq r (v_shuffle fast_table (v_min r (repeat DOT 30))) = xff :: xff :: vm (map2 orb (map special r) (repeat false 30))).
    do 2 f_equal. rewrite match_fast by lia. replace 30%nat with (length (map special r)) by (rewrite map_length; lia).
    rewrite orb_repeat. reflexivity.
Qed.

Lemma avx_match_plain b : length b = 32%nat -> avx_match b (y_set1 46) = vm (map special b).
Proof.
  intro H. change (y_set1 46) with (ymin 0). rewrite avx_match_ok by (auto; discriminate).
  change (early 0 32) with (repeat false 32). replace 32%nat with (length (map special b)) by (rewrite map_length; exact H).
  rewrite orb_repeat. reflexivity.
Qed.

(** ** Masks of 64 characters *)

Lemma mask_kills64 sp nxt T : length sp = 64%nat ->
  N.lor (N.lor (mask_of (map2 orb sp (early nxt 64))) (N.shiftl (mask_of (flags nldot 32 T)) 2))
        (uint 64 (N.shiftl (mask_of (flags nldot 32 (skipn 32 T))) 34))
  = mask_of (map2 orb sp ((nxt =? 1) :: (nxt =? 2) :: flags nldot 62 T)).
Proof.
  intro Hsp. change 2%N with (N.of_nat 2). change 34%N with (N.of_nat 34). rewrite !mask_shiftl.
  change 64%N with (N.of_nat 64). rewrite mask_uint.
  rewrite (firstn_app 64), (firstn_all2 (n := 64) (repeat false 34)) by (rewrite repeat_length; lia).
  rewrite (repeat_length false 34). change (64 - 34)%nat with 30%nat. rewrite flags_firstn by lia.
  rewrite <- (mask_pad (repeat false 2 ++ _) 30). rewrite <- app_assoc.
  rewrite mask_or. 2: { rewrite map2_len, early_len, !app_length, !repeat_length, flags_len by lia. lia. }
  rewrite mask_or. 2: { rewrite !map2_len, early_len, !app_length, !repeat_length, !flags_len by lia. lia. }
  f_equal. rewrite !orb_assoc2. f_equal. rewrite <- orb_assoc2.
  pose proof (or_parts (nxt =? 1) (nxt =? 2) (flags nldot 32 T) (flags nldot 30 (skipn 32 T))) as H.
  rewrite !flags_len in H. cbn [Nat.add] in H. unfold early. cbn [Nat.sub repeat app].
  cbn [repeat app] in H. rewrite H. rewrite <- (flags_app nldot 32 30). reflexivity.
Qed.

Lemma flags_halves64 f T : flags f 64 T = flags f 32 T ++ flags f 32 (skipn 32 T).
Proof. exact (flags_app f 32 32 T). Qed.

(** ** End markers in half a block *)

Lemma y_eqy t : (36 <= length t)%nat ->
  v_or (v_slli16 (v_cmpeq16 (part 4 32 t) (y_set1_16 0x793d)) 8) (v_srli16 (vm (flags (eqy 2) 32 t)) 8) = vm (flags (eqy 3) 32 t).
Proof.
  intro H. change (y_set1_16 0x793d) with (flat_map (fun _ : unit => [x3d; x79]) (repeat tt 16)).
  exact (eqy_lanes 16 t ltac:(cbn [Nat.mul Nat.add]; lia)).
Qed.

Lemma avx_end_half t : (36 <= length t)%nat ->
  avx_match_end (part 3 32 t) (part 4 32 t) (vm (flags (at_ 2 EQS) 32 t)) (vm (flags crlf 32 t)) (vm (flags nldot 32 t))
  = vm (flags endf 32 t).
Proof.
  intro H. unfold avx_match_end. cbv zeta. rewrite (y_part' 13 CR), (y_part 10 LF), (y_part' 121 YY) by (reflexivity || lia).
  rewrite (vm_and (flags (at_ 2 EQS) 32 t)), map2_flags.
  change (flags (fun t0 => at_ 2 EQS t0 && at_ 3 YY t0) 32 t) with (flags (eqy 2) 32 t).
  rewrite y_eqy by exact H.
  rewrite !vm_and, !map2_flags, !vm_or, !map2_flags, !vm_and, !map2_flags, !vm_or, !map2_flags.
  f_equal. apply flags_ext. intros j _. unfold endf, eqy. set (u := skipn j t).
  destruct (nldot u), (crlf u), (at_ 3 CR u), (at_ 4 LF u), (at_ 3 EQS u), (at_ 4 YY u), (at_ 2 EQS u), (at_ 3 YY u); reflexivity.
Qed.

(** With mask registers. *)

Lemma eqy_shrd n : forall t, (2 * n + 4 <= length t)%nat ->
  y_shrdi16 (vm (flags (eqy 2) (2 * n) t)) (v_cmpeq16 (part 4 (2 * n) t) (flat_map (fun _ => [x3d; x79]) (repeat tt n))) 8
  = vm (flags (eqy 3) (2 * n) t).
Proof.
  induction n as [|n IH]; intros t H; [reflexivity|].
  replace (2 * S n)%nat with (S (S (2 * n))) in * by lia.
  destruct t as [|c0 [|c1 [|c2 [|c3 [|c4 [|c5 t]]]]]]; cbn [length] in H; try lia.
  unfold part in *. cbn [skipn].
  change (firstn (S (S (2 * n))) (c4 :: c5 :: t)) with (c4 :: c5 :: firstn (2 * n) (skipn 4 (c2 :: c3 :: c4 :: c5 :: t))).
  cbn [repeat flat_map app flags tl]. unfold v_cmpeq16, y_shrdi16, vm. cbn [map lanes16].
  rewrite pair_eqy. specialize (IH (c2 :: c3 :: c4 :: c5 :: t) ltac:(cbn [length]; lia)).
  unfold v_cmpeq16, y_shrdi16, vm in IH. rewrite <- IH.
  change (eqy 2 (c0 :: c1 :: c2 :: c3 :: c4 :: c5 :: t)) with (beq c2 EQS && beq c3 YY).
  change (eqy 2 (c1 :: c2 :: c3 :: c4 :: c5 :: t)) with (beq c3 EQS && beq c4 YY).
  change (eqy 3 (c0 :: c1 :: c2 :: c3 :: c4 :: c5 :: t)) with (beq c3 EQS && beq c4 YY).
  change (eqy 3 (c1 :: c2 :: c3 :: c4 :: c5 :: t)) with (beq c4 EQS && beq c5 YY).
  f_equal; [|f_equal].
  - destruct (beq c4 EQS && beq c5 YY), (beq c2 EQS && beq c3 YY), (beq c3 EQS && beq c4 YY); reflexivity.
  - destruct (beq c4 EQS && beq c5 YY), (beq c2 EQS && beq c3 YY), (beq c3 EQS && beq c4 YY); reflexivity.
Qed.

(** What the variant for AVX512BW finds instead: the constant -0xff keeps a bit too
    many. *)
Fixpoint eqy_even (n : nat) (t : list byte) : list bool :=
  match n with
  | O => []
  | S n => (eqy 3 t || eqy 4 t) :: eqy 3 (tl t) :: eqy_even n (tl (tl t))
  end.

Lemma eqy_even_len n : forall t, length (eqy_even n t) = (2 * n)%nat.
Proof. induction n as [|n IH]; intro t; [reflexivity|]. cbn [eqy_even length]. rewrite IH. lia. Qed.

Lemma eqy_even_ge n : forall t, Forall2 (fun a b : bool => a = true -> b = true) (flags (eqy 3) (2 * n) t) (eqy_even n t).
Proof.
  induction n as [|n IH]; intro t; [constructor|]. replace (2 * S n)%nat with (S (S (2 * n))) by lia.
  cbn [flags eqy_even]. constructor; [intros ->; reflexivity|]. constructor; [auto|]. apply IH.
Qed.

Definition nz (x : byte) : bool := negb (bz (b_and x x) =? 0).

Lemma nz_or x y : nz (b_or x (bm y)) = nz x || y.
Proof. destruct y; destruct x; reflexivity. Qed.
Lemma nz_bm y : nz (bm y) = y.
Proof. destruct y; reflexivity. Qed.

Lemma eqy_blend n : forall t k, (2 * n + 4 <= length t)%nat -> length k = (2 * n)%nat ->
  (forall i, (i < n)%nat -> nth (2 * i) k false = eqy 3 (skipn (2 * i) t)) ->
  (forall i, (i < n)%nat -> nth (S (2 * i)) k false = true -> eqy 3 (skipn (S (2 * i)) t) = true) ->
  map nz (map2 (fun ab c => if (c : bool) then snd ab else fst ab)
    (map2 pair (v_and (v_cmpeq16 (part 4 (2 * n) t) (flat_map (fun _ => [x3d; x79]) (repeat tt n)))
                      (flat_map (fun _ => [u8 (-0xff); u8 (-0xff / 256)]) (repeat tt n))) (repeat xff (2 * n))) k)
  = eqy_even n t.
Proof.
  induction n as [|n IH]; intros t k H Hk H0 H1; [reflexivity|].
  replace (2 * S n)%nat with (S (S (2 * n))) in * by lia.
  destruct t as [|c0 [|c1 [|c2 [|c3 [|c4 [|c5 t]]]]]]; cbn [length] in H; try lia.
  destruct k as [|k0 [|k1 k]]; cbn [length] in Hk; try lia.
  unfold part in *. cbn [skipn].
  change (firstn (S (S (2 * n))) (c4 :: c5 :: t)) with (c4 :: c5 :: firstn (2 * n) (skipn 4 (c2 :: c3 :: c4 :: c5 :: t))).
  cbn [repeat flat_map app eqy_even tl]. unfold v_cmpeq16, v_and. cbn [map lanes16 map2].
  rewrite pair_eqy. rewrite <- (IH (c2 :: c3 :: c4 :: c5 :: t) k); [|cbn [length]; lia|lia| |].
  - unfold v_cmpeq16, v_and.
    pose proof (H0 0%nat ltac:(lia)) as E0. pose proof (H1 0%nat ltac:(lia)) as E1. cbn in E0, E1. rewrite E0.
    change (eqy 3 (c0 :: c1 :: c2 :: c3 :: c4 :: c5 :: t)) with (beq c3 EQS && beq c4 YY).
    change (eqy 4 (c0 :: c1 :: c2 :: c3 :: c4 :: c5 :: t)) with (beq c4 EQS && beq c5 YY).
    change (eqy 3 (c1 :: c2 :: c3 :: c4 :: c5 :: t)) with (beq c4 EQS && beq c5 YY) in *.
    f_equal; [|f_equal].
    + destruct (beq c4 EQS && beq c5 YY), (beq c3 EQS && beq c4 YY); reflexivity.
    + destruct (beq c4 EQS && beq c5 YY), k1; try reflexivity. discriminate (E1 eq_refl).
  - intros i Hi. specialize (H0 (S i) ltac:(lia)). replace (2 * S i)%nat with (S (S (2 * i))) in H0 by lia. exact H0.
  - intros i Hi. specialize (H1 (S i) ltac:(lia)). replace (2 * S i)%nat with (S (S (2 * i))) in H1 by lia. exact H1.
Qed.

Lemma nth_error_skipn {A} j : forall (t : list A) k, nth_error (skipn j t) k = nth_error t (j + k).
Proof. induction j as [|j IH]; intros t k; [reflexivity|]. destruct t; [destruct k; reflexivity|]. apply IH. Qed.

Lemma eqy_tl k j t : eqy (S k) (skipn j t) = eqy k (skipn (S j) t).
Proof.
  unfold eqy, at_. rewrite !nth_error_skipn.
  replace (j + S k)%nat with (S j + k)%nat by lia. replace (j + S (S k))%nat with (S j + S k)%nat by lia. reflexivity.
Qed.

Lemma map2_nz : forall a b, length a = length b ->
  map2 (fun x y => negb (bz (b_and x y) =? 0)) (v_or a (vm b)) (v_or a (vm b)) = map2 orb (map nz a) b.
Proof.
  induction a as [|x a IH]; intros [|y b] H; cbn in H; try lia; [reflexivity|].
  unfold v_or, vm in *. cbn [map map2]. f_equal; [apply nz_or|apply IH; lia].
Qed.

Lemma avx3_end_half isa t : (36 <= length t)%nat ->
  exists f, avx3_match_end isa (part 3 32 t) (part 4 32 t) (mask_of (flags (at_ 2 EQS) 32 t)) (mask_of (flags crlf 32 t)) (mask_of (flags nldot 32 t))
    = mask_of f /\ length f = 32%nat /\ Forall2 (fun a b : bool => a = true -> b = true) (flags endf 32 t) f /\
    (d_vbmi2 isa = true -> f = flags endf 32 t).
Proof.
  intro H. unfold avx3_match_end. cbv zeta. rewrite (y_part' 13 CR), (y_part 10 LF) by (reflexivity || lia).
  unfold k_mask_cmpeq. rewrite (k_part' 121 YY) by (reflexivity || lia).
  rewrite (mask_and (flags (at_ 2 EQS) 32 t)), map2_flags by (rewrite !flags_len; reflexivity).
  change (flags (fun t0 => at_ 2 EQS t0 && at_ 3 YY t0) 32 t) with (flags (eqy 2) 32 t).
  change (y_set1_16 0x793d) with (flat_map (fun _ : unit => [x3d; x79]) (repeat tt 16)).
  rewrite vm_and, map2_flags.
  set (v34 := if d_vbmi2 isa then _ else _).
  assert (H34 : length v34 = 32%nat /\ map nz v34 = (if d_vbmi2 isa then flags (eqy 3) 32 t else eqy_even 16 t)).
  { subst v34. destruct (d_vbmi2 isa).
    - unfold y_movm. rewrite k_bits32 by apply flags_len. fold (vm (flags (eqy 2) 32 t)).
      change (flags (eqy 2) 32 t) with (flags (eqy 2) (2 * 16) t). change (part 4 32 t) with (part 4 (2 * 16) t).
      rewrite eqy_shrd by (cbn [Nat.mul Nat.add]; lia). change (2 * 16)%nat with 32%nat.
      unfold vm. rewrite map_length, flags_len, map_map. split; [reflexivity|]. rewrite (map_ext _ id) by apply nz_bm. apply map_id.
    - pose proof (eqy_blend 16 t (flags (eqy 3) 31 t ++ [false]) ltac:(cbn [Nat.mul Nat.add]; lia)) as E.
      rewrite app_length, flags_len in E. specialize (E eq_refl).
      unfold y_blend.
      replace (k_bits 32 (N.shiftr (mask_of (flags (eqy 2) 32 t)) 1)) with (flags (eqy 3) 31 t ++ [false]).
      2: { change 1%N with (N.of_nat 1). rewrite mask_shiftr. rewrite <- (mask_pad _ 1).
           rewrite k_bits32 by (rewrite app_length, skipn_length, flags_len; reflexivity).
           f_equal. rewrite flags_skipn. cbn [Nat.sub].
           apply (nth_ext _ _ false false); [rewrite !flags_len; reflexivity|]. intros j Hj. rewrite flags_len in Hj.
           rewrite !flags_nth by exact Hj. rewrite skipn_plus, eqy_tl. reflexivity. }
      assert (Ev : length (v_and (v_cmpeq16 (part 4 32 t) (flat_map (fun _ : unit => [x3d; x79]) (repeat tt 16))) (y_set1_16 (-0xff))) = 32%nat).
      { unfold v_and. rewrite map2_len. change (length (y_set1_16 (-0xff))) with 32%nat.
        assert (El : length (part 4 32 t) = 32%nat) by (apply part_len; lia). revert El. generalize (part 4 32 t). clear.
        intros v El. do 32 (destruct v as [|? v]; [discriminate El|]). destruct v; [reflexivity|discriminate El]. }
      split.
      + rewrite !map2_len, Ev, app_length, flags_len. reflexivity.
      + apply E.
        * intros i Hi. destruct (Nat.lt_ge_cases (2 * i) 31) as [Hlt|Hge]; [|lia].
          rewrite app_nth1 by (rewrite flags_len; exact Hlt). apply flags_nth. exact Hlt.
        * intros i Hi. destruct (Nat.lt_ge_cases (S (2 * i)) 31) as [Hlt|Hge].
          -- rewrite app_nth1 by (rewrite flags_len; exact Hlt). rewrite flags_nth by exact Hlt. auto.
          -- rewrite app_nth2 by (rewrite flags_len; exact Hge). rewrite flags_len. replace (S (2 * i) - 31)%nat with 0%nat by lia. discriminate. }
  destruct H34 as [Hl34 Hn34]. clearbody v34.
  unfold k_mask_test. rewrite map2_nz by (rewrite flags_len; exact Hl34). rewrite Hn34.
  set (f34 := if d_vbmi2 isa then flags (eqy 3) 32 t else eqy_even 16 t).
  assert (Hf34 : length f34 = 32%nat) by (unfold f34; destruct (d_vbmi2 isa); [apply flags_len|apply eqy_even_len]).
  rewrite (mask_and (flags nldot 32 t)) by (rewrite map2_len, !flags_len; lia).
  rewrite (mask_and (flags (eqy 2) 32 t)), map2_flags by (rewrite !flags_len; reflexivity).
  rewrite mask_or by (rewrite !map2_len, !flags_len; lia).
  eexists. split; [reflexivity|]. split; [rewrite !map2_len, !flags_len; lia|].
  assert (Hend : map2 orb (map2 andb (flags nldot 32 t) (map2 orb (flags (eqy 3) 32 t) (flags (fun t0 => at_ 3 CR t0 && at_ 4 LF t0) 32 t)))
      (flags (fun t0 => eqy 2 t0 && crlf t0) 32 t) = flags endf 32 t).
  { rewrite !map2_flags. apply flags_ext. intros j _. unfold endf, eqy. set (u := skipn j t).
    destruct (nldot u), (crlf u), (at_ 3 CR u), (at_ 4 LF u), (at_ 3 EQS u), (at_ 4 YY u), (at_ 2 EQS u), (at_ 3 YY u); reflexivity. }
  split.
  - rewrite <- Hend.
    assert (Hge : Forall2 (fun a b : bool => a = true -> b = true) (flags (eqy 3) 32 t) f34).
    { unfold f34. destruct (d_vbmi2 isa); [|apply (eqy_even_ge 16)]. generalize (flags (eqy 3) 32 t). clear. induction l; constructor; auto. }
    revert Hge. generalize (flags (eqy 3) 32 t) f34 (flags nldot 32 t) (flags (fun t0 => at_ 3 CR t0 && at_ 4 LF t0) 32 t) (flags (fun t0 => eqy 2 t0 && crlf t0) 32 t).
    clear. intros x y u v w H. revert u v w. induction H as [|a b x y Hab H IH]; intros [|u0 u] [|v0 v] [|w0 w]; cbn [map2]; try constructor; auto.
    destruct a, b, u0, v0, w0; cbn; auto; try discriminate (Hab eq_refl).
  - intro E. unfold f34. rewrite E. exact Hend.
Qed.

(** ** The variables for the next block *)

Lemma y_next_min x y nl : length nl = 32%nat -> nth 30 nl false = x -> nth 31 nl false = y -> (x = true -> y = false) ->
  v_subs (y_set1 46) (y_zext (v_srli (y_hi (vm nl)) 14)) = ymin (if x then 1 else if y then 2 else 0).
Proof.
  intros Hl Hx Hy He. unfold y_hi, vm. rewrite skipn_map. fold (vm (skipn 16 nl)).
  rewrite srli14 by (rewrite skipn_length; lia).
  replace (nth 14 (skipn 16 nl) false) with x by (rewrite <- Hx; do 16 (destruct nl as [|? nl]; [discriminate Hl|]); reflexivity).
  replace (nth 15 (skipn 16 nl) false) with y by (rewrite <- Hy; do 16 (destruct nl as [|? nl]; [discriminate Hl|]); reflexivity).
  destruct x, y; try reflexivity. discriminate (He eq_refl).
Qed.

Lemma k_next_min x y nl : length nl = 32%nat -> nth 30 nl false = x -> nth 31 nl false = y -> (x = true -> y = false) ->
  y_maskz_mov (unot 32 (N.shiftr (mask_of nl) 30)) (y_set1 46) = ymin (if x then 1 else if y then 2 else 0).
Proof.
  intros Hl Hx Hy He. change 30%N with (N.of_nat 30). rewrite mask_shiftr.
  replace (skipn 30 nl) with [x; y] by (subst x y; do 32 (destruct nl as [|? nl]; [discriminate Hl|]); destruct nl; [reflexivity|discriminate Hl]).
  destruct x, y; try reflexivity. discriminate (He eq_refl).
Qed.

(** ** Lines starting with a dot and end markers *)

(** Is an end marker found only where there is one? *)
Definition exact (isa : avxd_isa) : bool := negb (d_mask isa) || d_vbmi2 isa.

Definition nl_ok (ex : bool) (nl : bool -> bool -> bufs -> Z -> N -> N -> vec -> vec -> vec -> M (Z + N * vec)) : Prop :=
  forall searchEnd B x l look s m o s1,
  length l = 64%nat -> lookahead true searchEnd <= zlen look ->
  bytes_at m x (l ++ look) -> x mod 64 = 0 -> rlo B <= x -> x + zlen (l ++ look) <= rhi B ->
  simple_state s -> run_raw s l = (o, s1) ->
  let R := nl true searchEnd B x (mask_of (map2 orb (map special l) (early (dot_next s (l ++ look)) 64)))
        (mask_of (map is_eq l)) (part 0 32 (l ++ look)) (part 0 32 (skipn 32 (l ++ look))) (ymin (dot_next s (l ++ look))) m in
  (searchEnd = true /\ R = Ok (inl (dot_next s (l ++ look)), m) /\ (ex = true -> existsb id (flags endf 64 (l ++ look)) = true)) \/
  (R = Ok (inr (mask_of (map2 orb (map special l) (flags nldot 64 (pre s ++ l))), ymin (dot_next s1 look)), m) /\
    (searchEnd = true -> no_marker_in 64 (l ++ look))).

(** What both variants rest on. *)
Lemma nl_facts (searchEnd : bool) B x l look s m o s1 :
  length l = 64%nat -> lookahead true searchEnd <= zlen look ->
  bytes_at m x (l ++ look) -> x mod 64 = 0 -> rlo B <= x -> x + zlen (l ++ look) <= rhi B ->
  simple_state s -> run_raw s l = (o, s1) ->
  let T := l ++ look in let nxt := dot_next s T in
  (66 <= length T)%nat /\ (searchEnd = true -> (68 <= length T)%nat) /\
  flags nldot 64 (pre s ++ l) = (nxt =? 1) :: (nxt =? 2) :: flags nldot 62 T /\
  dot_next s1 look = (if nldot (skipn 62 T) then 1 else if nldot (skipn 63 T) then 2 else 0) /\
  (nldot (skipn 62 T) = true -> nldot (skipn 63 T) = false) /\
  nextMask_fwd true B x (mask_of (map2 orb (map special l) (early nxt 64))) m = Ok (nxt, m) /\
  (mask_of (map2 orb (map special l) (early nxt 64)) = mask_of (map is_eq l) ->
   flags nldot 64 (pre s ++ l) = early nxt 64 /\ dot_next s1 look = nxt /\ no_marker_in 64 T) /\
  (flags nldot 64 T = repeat false 64 -> flags nldot 64 (pre s ++ l) = early nxt 64 /\ dot_next s1 look = 0) /\
  (forall k, (k + 32 <= length T)%nat -> forall y, y = x + Z.of_nat k -> y_loadu B y m = Ok (part k 32 T, m)) /\
  (forall k, (k + 64 <= length T)%nat -> forall y, y = x + Z.of_nat k + 32 -> y_loadu B y m = Ok (part k 32 (skipn 32 T), m)) /\
  y_load B x m = Ok (part 0 32 T, m) /\ y_load B (x + 32) m = Ok (part 0 32 (skipn 32 T), m).
Proof.
  intros Hl Hlook Hm Hal Hr1 Hr2 Hs Hrun T nxt.
  assert (HT : (66 <= length T)%nat) by (unfold T; rewrite app_length; unfold lookahead, zlen in Hlook; destruct searchEnd; lia).
  destruct (next_dot s l look o s1 64 Hs Hrun Hl ltac:(lia)) as [Hnx Hex]. cbn [Nat.sub] in Hnx, Hex. fold T in Hnx, Hex.
  pose proof (kills_split s 64 T Hs ltac:(lia)) as Hk.
  pose proof (kills_local s l look Hs) as Hkl. rewrite Hl in Hkl. fold T in Hkl. rewrite Hkl in Hk. clear Hkl. cbn [Nat.sub] in Hk. fold nxt in Hk.
  assert (Hnone : flags nldot 64 T = repeat false 64 -> flags nldot 64 (pre s ++ l) = early nxt 64 /\ dot_next s1 look = 0).
  { intro Hnd. split.
    - rewrite Hk. rewrite <- (flags_firstn nldot 64 62), Hnd by lia. reflexivity.
    - rewrite Hnx. rewrite <- (flags_nth nldot 64 T 62), <- (flags_nth nldot 64 T 63) by lia. rewrite Hnd. reflexivity. }
  assert (HB : bytes_at m (x + 32) (skipn 32 T)).
  { fold T in Hm. rewrite <- (firstn_skipn 32 T) in Hm. apply bytes_at_app in Hm as [_ Hm].
    replace (zlen (firstn 32 T)) with 32 in Hm; [exact Hm|]. unfold zlen. rewrite firstn_length. lia. }
  fold T in Hr2, Hm.
  assert (HBr : x + 32 + zlen (skipn 32 T) <= rhi B) by (unfold zlen in *; rewrite skipn_length; lia).
  assert (LA : forall k, (k + 32 <= length T)%nat -> forall y, y = x + Z.of_nat k -> y_loadu B y m = Ok (part k 32 T, m)).
  { intros k Hk' y Hy. apply (load_part B m x); assumption. }
  assert (LB : forall k, (k + 64 <= length T)%nat -> forall y, y = x + Z.of_nat k + 32 -> y_loadu B y m = Ok (part k 32 (skipn 32 T), m)).
  { intros k Hk' y Hy. apply (load_part B m (x + 32)); try assumption; [lia|rewrite skipn_length; lia|lia]. }
  split; [exact HT|].
  split; [intros ->; unfold T; rewrite app_length; unfold lookahead, zlen in Hlook; lia|].
  split; [exact Hk|]. split; [exact Hnx|]. split; [exact Hex|].
  split. { pose proof (nextMask_fwd_ok B x l look s m Hm ltac:(lia) Hr1 Hr2) as H. rewrite Hl in H. exact H. }
  split. { intro E. apply mask_inj in E. 2: { rewrite map2_len, early_len, !map_length by lia. lia. }
    destruct (early_eqs nxt l 64 look Hl ltac:(lia) (dot_next_1 s _) (dot_next_2 s _) (dot_next_cases s _) E) as [Hn Hq].
    pose proof (quiet l look 64 Hl Hq) as Hcr. fold T in Hcr.
    destruct (Hnone (flags_weaken nldot (at_ 0 CR) 64 T nldot_cr Hcr)) as [H1 H2].
    split; [exact H1|]. split; [rewrite Hn; exact H2|].
    apply (no_end_flags 64). rewrite (flags_weaken endf (at_ 0 CR) 64 T endf_cr Hcr). reflexivity. }
  split; [exact Hnone|]. split; [exact LA|]. split; [exact LB|].
  unfold y_load, load_aligned. change (Z.of_nat 32) with 32. split.
  - destruct (x mod 32 =? 0) eqn:E; [apply (LA 0%nat); lia|lia].
  - destruct ((x + 32) mod 32 =? 0) eqn:E; [apply (LB 0%nat); lia|lia].
Qed.

Lemma data4_ok isa B x (T : list byte) m : (68 <= length T)%nat ->
  (forall k, (k + 32 <= length T)%nat -> forall y, y = x + Z.of_nat k -> y_loadu B y m = Ok (part k 32 T, m)) ->
  avx_data4 isa B x (part 0 32 T) (part 0 32 (skipn 32 T)) m = Ok (part 4 32 T, m).
Proof.
  intros HT LA. unfold avx_data4. destruct (d_avx3 isa && d_amd64 isa); [|apply (LA 4%nat); lia].
  unfold ret, y_alignr32. rewrite halves. do 2 f_equal. unfold part. change (4 * 1)%nat with 4%nat. change (32 + 32)%nat with (4 + 60)%nat.
  rewrite <- (firstn_skipn_comm 60 4). rewrite firstn_firstn. reflexivity.
Qed.

Lemma avx_newlines_ok isa : nl_ok true (avx_newlines isa).
Proof.
  intros searchEnd B x l look s m o s1 Hl Hlook Hm Hal Hr1 Hr2 Hs Hrun.
  destruct (nl_facts searchEnd B x l look s m o s1 Hl Hlook Hm Hal Hr1 Hr2 Hs Hrun)
    as (HT & HTe & Hk & Hnx & Hex & Hfwd & Hq & Hnone & LA & LB & LA0 & LB0).
  set (T := l ++ look) in *. set (nxt := dot_next s T) in *. cbv zeta. unfold avx_newlines. cbn [orb andb].
  destruct (N.eqb_spec (mask_of (map2 orb (map special l) (early nxt 64))) (mask_of (map is_eq l))) as [E|E]; cbn [negb].
  { right. destruct (Hq E) as (-> & -> & Hno). split; [reflexivity|]. intros _. exact Hno. }
  clear Hq. rewrite Hk.
  erewrite bind_ok by (apply (LA 2%nat); lia). erewrite bind_ok by (apply (LB 2%nat); lia). cbv zeta.
  rewrite !(y_part' 61 EQS), !(y_part 13 CR), !(y_part 46 DOT) by (try reflexivity; rewrite ?skipn_length; lia).
  rewrite !(vm_and (flags (at_ 0 CR) 32 _)), !map2_flags, vm_or, movemask_vm, mask_eqb0, negb_involutive, existsb_or, <- flags_halves64
    by (rewrite !flags_len; reflexivity).
  set (crxdt := fun t => at_ 0 CR t && at_ 2 DOT t).
  destruct (existsb id (flags crxdt 64 T)) eqn:Epk.
  - erewrite bind_ok by (apply (LA 1%nat); lia). erewrite bind_ok by (apply (LB 1%nat); lia).
    erewrite bind_ok by exact LA0. erewrite bind_ok by exact LB0.
    rewrite !(y_part' 10 LF), !(y_part 13 CR) by (try reflexivity; rewrite ?skipn_length; lia).
    rewrite !(vm_and (flags (at_ 1 LF) 32 _)), !map2_flags, !(vm_and (flags crxdt 32 _)), !map2_flags.
    assert (Enl : forall t, flags (fun t => at_ 1 LF t && at_ 0 CR t) 32 t = flags crlf 32 t)
      by (intro t; apply flags_ext; intros; apply andb_comm).
    assert (End : forall t, flags (fun t => crxdt t && (at_ 1 LF t && at_ 0 CR t)) 32 t = flags nldot 32 t).
    { intro t. apply flags_ext; intros j _. set (u := skipn j t). unfold crxdt, nldot. destruct (at_ 0 CR u), (at_ 1 LF u), (at_ 2 DOT u); reflexivity. }
    rewrite !Enl, !End.
    erewrite bind_ok with (a := if searchEnd then existsb id (flags endf 64 T) else false) (m' := m).
    2: { destruct searchEnd; [|reflexivity]. specialize (HTe eq_refl).
         erewrite bind_ok by (apply data4_ok; assumption). erewrite bind_ok by (apply (LB 4%nat); lia).
         erewrite bind_ok by (apply (LA 3%nat); lia). erewrite bind_ok by (apply (LB 3%nat); lia).
         unfold ret. rewrite !avx_end_half by (rewrite ?skipn_length; lia).
         rewrite vm_or, movemask_vm, mask_eqb0, negb_involutive, existsb_or, <- flags_halves64 by (rewrite !flags_len; reflexivity). reflexivity. }
    assert (Hnext : v_subs (y_set1 46) (y_zext (v_srli (y_hi (vm (flags nldot 32 (skipn 32 T)))) 14)) = ymin (dot_next s1 look)).
    { rewrite Hnx. apply y_next_min; [apply flags_len| | |exact Hex]; rewrite flags_nth, skipn_plus by lia; reflexivity. }
    destruct (if searchEnd then existsb id (flags endf 64 T) else false) eqn:Est.
    + destruct searchEnd; [|discriminate]. left. split; [reflexivity|]. split; [erewrite bind_ok by exact Hfwd; reflexivity|auto].
    + right. rewrite Hnext, !movemask_vm, mask_kills64 by (rewrite map_length; exact Hl). split; [reflexivity|].
      intros ->. apply (no_end_flags 64). exact Est.
  - apply flags_none_inv in Epk.
    assert (Hnd : flags nldot 64 T = repeat false 64).
    { apply (flags_weaken nldot crxdt); [|exact Epk]. intro u. unfold nldot, crxdt. rewrite !andb_true_iff. tauto. }
    destruct (Hnone Hnd) as [Hk2 ->]. rewrite <- Hk, Hk2.
    destruct searchEnd; [|right; split; [reflexivity|discriminate]].
    specialize (HTe eq_refl).
    erewrite bind_ok by (apply (LA 3%nat); lia). erewrite bind_ok by (apply (LB 3%nat); lia). cbv zeta.
    rewrite !(y_part' 121 YY) by (try reflexivity; rewrite ?skipn_length; lia).
    rewrite !(vm_and (flags (at_ 2 EQS) 32 _)), !map2_flags, vm_or, movemask_vm, mask_eqb0, negb_involutive, existsb_or, <- flags_halves64
      by (rewrite !flags_len; reflexivity).
    fold (eqy 2).
    assert (Hen : flags endf 64 T = flags (fun t => eqy 2 t && (at_ 1 LF t && at_ 0 CR t)) 64 T).
    { apply flags_ext. intros j Hj. unfold endf. rewrite <- (flags_nth nldot 64 T j Hj), Hnd, nth_repeat. cbn [andb orb].
      unfold crlf, eqy. destruct (at_ 0 CR (skipn j T)), (at_ 1 LF (skipn j T)), (at_ 2 EQS (skipn j T)), (at_ 3 YY (skipn j T)); reflexivity. }
    erewrite bind_ok with (a := existsb id (flags endf 64 T)) (m' := m).
    2: { destruct (existsb id (flags (eqy 2) 64 T)) eqn:Eq.
         - erewrite bind_ok by (apply (LA 1%nat); lia). erewrite bind_ok by (apply (LB 1%nat); lia). cbv zeta.
           erewrite bind_ok by exact LA0. erewrite bind_ok by exact LB0.
           rewrite !(y_part' 10 LF), !(y_part 13 CR) by (try reflexivity; rewrite ?skipn_length; lia).
           rewrite !(vm_and (flags (at_ 1 LF) 32 _)), !map2_flags, !(vm_and (flags (eqy 2) 32 _)), !map2_flags.
           rewrite vm_or, movemask_vm, mask_eqb0, negb_involutive, existsb_or, <- flags_halves64 by (rewrite !flags_len; reflexivity).
           rewrite Hen. reflexivity.
         - apply flags_none_inv in Eq. rewrite Hen, (flags_weaken _ (eqy 2) 64 T); [reflexivity| |exact Eq].
           intro u. rewrite !andb_true_iff. tauto. }
    destruct (existsb id (flags endf 64 T)) eqn:Eend.
    + left. split; [reflexivity|]. split; [erewrite bind_ok by exact Hfwd; reflexivity|reflexivity].
    + right. split; [reflexivity|]. intros _. apply (no_end_flags 64). exact Eend.
Qed.

Lemma none_ge : forall f g, Forall2 (fun a b : bool => a = true -> b = true) f g -> existsb id g = false -> existsb id f = false.
Proof.
  intros f g H. induction H as [|a b f g Hab H IH]; [reflexivity|]. cbn [existsb]. unfold id at 1 3. intro E.
  apply orb_false_elim in E as [E1 E2]. rewrite IH by exact E2. destruct a; [rewrite Hab in E1 by reflexivity; discriminate|reflexivity].
Qed.

Lemma avx3_newlines_ok isa : nl_ok (d_vbmi2 isa) (avx3_newlines isa).
Proof.
  intros searchEnd B x l look s m o s1 Hl Hlook Hm Hal Hr1 Hr2 Hs Hrun.
  destruct (nl_facts searchEnd B x l look s m o s1 Hl Hlook Hm Hal Hr1 Hr2 Hs Hrun)
    as (HT & HTe & Hk & Hnx & Hex & Hfwd & Hq & Hnone & LA & LB & LA0 & LB0).
  set (T := l ++ look) in *. set (nxt := dot_next s T) in *. cbv zeta. unfold avx3_newlines. cbn [orb andb].
  destruct (N.eqb_spec (mask_of (map2 orb (map special l) (early nxt 64))) (mask_of (map is_eq l))) as [E|E]; cbn [negb].
  { right. destruct (Hq E) as (-> & -> & Hno). split; [reflexivity|]. intros _. exact Hno. }
  clear Hq. rewrite Hk.
  erewrite bind_ok by (apply (LA 2%nat); lia). erewrite bind_ok by (apply (LB 2%nat); lia). cbv zeta. unfold k_mask_cmpeq.
  rewrite !(k_part' 61 EQS), !(k_part 13 CR), !(k_part 46 DOT) by (try reflexivity; rewrite ?skipn_length; lia).
  rewrite !(mask_and (flags (at_ 0 CR) 32 _) (flags (at_ 2 DOT) 32 _)), !map2_flags by (rewrite !flags_len; reflexivity).
  set (crxdt := fun t => at_ 0 CR t && at_ 2 DOT t).
  rewrite (mask_or (flags crxdt 32 T)), mask_eqb0, negb_involutive, existsb_or, <- flags_halves64 by (rewrite !flags_len; reflexivity).
  destruct (existsb id (flags crxdt 64 T)) eqn:Epk.
  - erewrite bind_ok by (apply (LA 1%nat); lia). erewrite bind_ok by (apply (LB 1%nat); lia).
    rewrite !(k_part' 10 LF) by (try reflexivity; rewrite ?skipn_length; lia).
    rewrite !(mask_and (flags (at_ 0 CR) 32 _) (flags (at_ 1 LF) 32 _)), !map2_flags by (rewrite !flags_len; reflexivity).
    fold crlf. change (fun t => at_ 0 CR t && at_ 1 LF t) with crlf.
    rewrite !(mask_and (flags crxdt 32 _)), !map2_flags by (rewrite !flags_len; reflexivity).
    assert (End : forall t, flags (fun t => crxdt t && crlf t) 32 t = flags nldot 32 t).
    { intro t. apply flags_ext; intros j _. set (u := skipn j t). unfold crxdt, crlf, nldot. destruct (at_ 0 CR u), (at_ 1 LF u), (at_ 2 DOT u); reflexivity. }
    rewrite !End.
    assert (Hstop : exists b, (b = false -> searchEnd = true -> existsb id (flags endf 64 T) = false) /\ 
        (b = true -> searchEnd = true /\ (d_vbmi2 isa = true -> existsb id (flags endf 64 T) = true)) /\
        (if searchEnd then
           tmpData4A <- avx_data4 isa B x (part 0 32 T) (part 0 32 (skipn 32 T));;
           tmpData4B <- y_loadu B (x + 4 + 32);;
           tmpData3A <- y_loadu B (x + 3);;
           tmpData3B <- y_loadu B (x + 3 + 32);;
           ret (negb (N.eqb (N.lor
             (avx3_match_end isa tmpData3A tmpData4A (mask_of (flags (at_ 2 EQS) 32 T)) (mask_of (flags crlf 32 T)) (mask_of (flags nldot 32 T)))
             (avx3_match_end isa tmpData3B tmpData4B (mask_of (flags (at_ 2 EQS) 32 (skipn 32 T))) (mask_of (flags crlf 32 (skipn 32 T)))
                (mask_of (flags nldot 32 (skipn 32 T))))) 0))
         else ret false) m = Ok (b, m)).
    { destruct searchEnd; [|exists false; repeat split; discriminate]. specialize (HTe eq_refl).
      destruct (avx3_end_half isa T ltac:(lia)) as (fa & Ea & La & Ga & Xa).
      destruct (avx3_end_half isa (skipn 32 T) ltac:(rewrite skipn_length; lia)) as (fb & Eb & Lb & Gb & Xb).
      exists (existsb id (fa ++ fb)). split; [|split].
      - intros Hf _. rewrite flags_halves64. apply (none_ge _ _ (Forall2_app Ga Gb) Hf).
      - intro Hf. split; [reflexivity|]. intro Hv. rewrite flags_halves64, <- Xa, <- Xb by exact Hv. exact Hf.
      - erewrite bind_ok by (apply data4_ok; assumption). erewrite bind_ok by (apply (LB 4%nat); lia).
        erewrite bind_ok by (apply (LA 3%nat); lia). erewrite bind_ok by (apply (LB 3%nat); lia).
        unfold ret. rewrite Ea, Eb, mask_or, mask_eqb0, negb_involutive, existsb_or by lia. reflexivity. }
    destruct Hstop as (b & Hb0 & Hb1 & Hb). erewrite bind_ok by exact Hb.
    assert (Hnext : y_maskz_mov (unot 32 (N.shiftr (mask_of (flags nldot 32 (skipn 32 T))) 30)) (y_set1 46) = ymin (dot_next s1 look)).
    { rewrite Hnx. apply k_next_min; [apply flags_len| | |exact Hex]; rewrite flags_nth, skipn_plus by lia; reflexivity. }
    destruct b.
    + destruct (Hb1 eq_refl) as [-> Hx]. left. split; [reflexivity|]. split; [erewrite bind_ok by exact Hfwd; reflexivity|exact Hx].
    + right. rewrite Hnext, mask_kills64 by (rewrite map_length; exact Hl). split; [reflexivity|].
      intro Hse. apply (no_end_flags 64). exact (Hb0 eq_refl Hse).
  - apply flags_none_inv in Epk.
    assert (Hnd : flags nldot 64 T = repeat false 64).
    { apply (flags_weaken nldot crxdt); [|exact Epk]. intro u. unfold nldot, crxdt. rewrite !andb_true_iff. tauto. }
    destruct (Hnone Hnd) as [Hk2 ->]. rewrite <- Hk, Hk2.
    destruct searchEnd; [|right; split; [reflexivity|discriminate]].
    specialize (HTe eq_refl).
    erewrite bind_ok by (apply (LA 3%nat); lia). erewrite bind_ok by (apply (LB 3%nat); lia). cbv zeta.
    rewrite !(k_part' 121 YY) by (try reflexivity; rewrite ?skipn_length; lia).
    rewrite !(mask_and (flags (at_ 2 EQS) 32 _) (flags (at_ 3 YY) 32 _)), !map2_flags by (rewrite !flags_len; reflexivity).
    fold (eqy 2). change (fun t => at_ 2 EQS t && at_ 3 YY t) with (eqy 2).
    rewrite (mask_or (flags (eqy 2) 32 T)), mask_eqb0, negb_involutive, existsb_or, <- flags_halves64 by (rewrite !flags_len; reflexivity).
    assert (Hen : flags endf 64 T = flags (fun t => eqy 2 t && at_ 1 LF t && at_ 0 CR t) 64 T).
    { apply flags_ext. intros j Hj. unfold endf. rewrite <- (flags_nth nldot 64 T j Hj), Hnd, nth_repeat. cbn [andb orb].
      unfold crlf, eqy. destruct (at_ 0 CR (skipn j T)), (at_ 1 LF (skipn j T)), (at_ 2 EQS (skipn j T)), (at_ 3 YY (skipn j T)); reflexivity. }
    erewrite bind_ok with (a := existsb id (flags endf 64 T)) (m' := m).
    2: { destruct (existsb id (flags (eqy 2) 64 T)) eqn:Eq.
         - erewrite bind_ok by (apply (LA 1%nat); lia). erewrite bind_ok by (apply (LB 1%nat); lia). cbv zeta.
           rewrite !(k_part' 10 LF) by (try reflexivity; rewrite ?skipn_length; lia).
           rewrite !(mask_and (flags (eqy 2) 32 _)), !map2_flags by (rewrite !flags_len; reflexivity).
           rewrite !(mask_and (flags (fun t => eqy 2 t && at_ 1 LF t) 32 _)), !map2_flags by (rewrite !flags_len; reflexivity).
           rewrite mask_or, mask_eqb0, negb_involutive, existsb_or, <- flags_halves64 by (rewrite !flags_len; reflexivity).
           rewrite Hen. reflexivity.
         - apply flags_none_inv in Eq. rewrite Hen, (flags_weaken _ (eqy 2) 64 T); [reflexivity| |exact Eq].
           intro u. rewrite !andb_true_iff. tauto. }
    destruct (existsb id (flags endf 64 T)) eqn:Eend.
    + left. split; [reflexivity|]. split; [erewrite bind_ok by exact Hfwd; reflexivity|reflexivity].
    + right. split; [reflexivity|]. intros _. apply (no_end_flags 64). exact Eend.
Qed.

(** ** The body of the loop *)

Definition avx_rel (t : avx_vars) (p : Z) (esc : bool) (nxt : Z) : Prop := t = (p, N.b2n esc, yoff esc, ymin nxt).

Lemma part_app k n (l r : list byte) : (k + n <= length l)%nat -> part k n (l ++ r) = part k n l.
Proof.
  intro H. unfold part. rewrite skipn_app, firstn_app, skipn_length.
  replace (n - (length l - k))%nat with 0%nat by lia. rewrite firstn_O, app_nil_r. reflexivity.
Qed.

Lemma newlines_both isa : nl_ok (exact isa) (if d_mask isa then avx3_newlines isa else avx_newlines isa).
Proof. unfold exact. destruct (d_mask isa); cbn [negb orb]; [apply avx3_newlines_ok|apply avx_newlines_ok]. Qed.

Lemma avx_block_ok isa isRaw searchEnd : (searchEnd = true -> isRaw = true) ->
  block_ok (exact isa) isRaw searchEnd 64 (avx_block isa isRaw searchEnd) avx_rel.
Proof.
  intros Hmode B src i t p s l look m o s1 Hl Hm Hal Hlook Hr1 Hr2 Hw1 Hw2 Hs HR Hrun.
  red in HR. subst t.
  assert (HL : length l = 64%nat) by (unfold zlen in Hl; lia).
  pose proof (zlen_nonneg look) as Hlk.
  destruct (block_m _ _ _ _ _ Hs Hrun) as [Ho He1].
  set (x := src + i) in *. set (nxt := dot_next s (l ++ look)) in *.
  assert (Hnxt0 : nxt = 0 \/ nxt = 1 \/ nxt = 2) by apply dot_next_cases.
  assert (Hnxt1 : nxt = 1 -> exists r, l ++ look = DOT :: r) by apply dot_next_1.
  assert (Hnxt2 : nxt = 2 -> exists r, l ++ look = LF :: DOT :: r) by apply dot_next_2.
  assert (Hr2' : x + zlen (l ++ look) <= rhi B) by (rewrite zlen_app; lia).
  assert (HTl : (64 <= length (l ++ look))%nat) by (rewrite app_length; lia).
  set (a := part 0 32 (l ++ look)). set (b := part 0 32 (skipn 32 (l ++ look))).
  assert (Hla : length a = 32%nat) by (apply part_len; lia).
  assert (Hlb : length b = 32%nat) by (apply part_len; rewrite skipn_length; lia).
  assert (Hab : a ++ b = l).
  { unfold a, b. rewrite halves. change (32 + 32)%nat with 64%nat. rewrite <- HL, firstn_app, Nat.sub_diag, firstn_O, app_nil_r, firstn_all. reflexivity. }
  unfold avx_block. fold x.
  erewrite bind_ok with (a := a) (m' := m).
  2: { unfold y_load, load_aligned. change (Z.of_nat 32) with 32. destruct (x mod 32 =? 0) eqn:E; [|lia].
       apply (load_part B m x); try assumption; [lia|cbn; lia]. }
  erewrite bind_ok with (a := b) (m' := m).
  2: { unfold y_load, load_aligned. change (Z.of_nat 32) with 32. destruct ((x + 32) mod 32 =? 0) eqn:E; [|lia].
       apply (load_part B m (x + 32)); [|lia|unfold zlen in *; rewrite skipn_length; lia|rewrite skipn_length; lia|cbn; lia].
       rewrite <- (firstn_skipn 32 (l ++ look)) in Hm. apply bytes_at_app in Hm as [_ Hm].
       replace (zlen (firstn 32 (l ++ look))) with 32 in Hm; [exact Hm|]. unfold zlen. rewrite firstn_length. lia. }
  rewrite (avx_match_plain b Hlb). rewrite (avx_match_ok a nxt Hla).
  2: { intro E. destruct (Hnxt1 E) as [r Hr]. rewrite <- Hab in Hr. destruct a as [|c a']; [discriminate|]. injection Hr as -> _. eauto. }
  2: { intro E. destruct (Hnxt2 E) as [r Hr]. rewrite <- Hab in Hr. destruct a as [|c [|d a']]; [discriminate|discriminate|]. injection Hr as -> -> _. eauto. }
  2: { exact Hnxt0. }
  rewrite !movemask_vm.
  assert (Hmask : N.lor (N.shiftl (mask_of (map special b)) 32) (mask_of (map2 orb (map special a) (early nxt 32)))
                  = mask_of (map2 orb (map special l) (early nxt 64))).
  { rewrite N.lor_comm. replace 32%N with (N.of_nat (length (map2 orb (map special a) (early nxt 32)))).
    2: { rewrite map2_len, early_len, map_length, Hla by lia. reflexivity. }
    rewrite mask_app. f_equal. rewrite <- Hab, map_app.
    change (early nxt 64) with (early nxt 32 ++ repeat false 32).
    rewrite map2_app by (rewrite map_length, early_len by lia; exact Hla). f_equal.
    replace 32%nat with (length (map special b)) by (rewrite map_length; exact Hlb). rewrite orb_repeat. reflexivity. }
  cbv zeta. rewrite Hmask. rewrite mask_eqb0, negb_involutive.
  destruct (existsb id (map2 orb (map special l) (early nxt 64))) eqn:Eany.
  - (* something to do *)
    unfold y_set1. rewrite !(cmpeq_rep (u8 61)) by lia. change (fun x0 : byte => beq x0 (u8 61)) with is_eq. rewrite !movemask_vm.
    assert (HmaskEq : N.lor (N.shiftl (mask_of (map is_eq b)) 32) (mask_of (map is_eq a)) = mask_of (map is_eq l)).
    { rewrite N.lor_comm. replace 32%N with (N.of_nat (length (map is_eq a))) by (rewrite map_length, Hla; reflexivity).
      rewrite mask_app, <- map_app, Hab. reflexivity. }
    rewrite HmaskEq.
    assert (Hnl : (searchEnd = true /\
        (if d_mask isa then avx3_newlines isa else avx_newlines isa) isRaw searchEnd B x (mask_of (map2 orb (map special l) (early nxt 64)))
          (mask_of (map is_eq l)) a b (ymin nxt) m = Ok (inl nxt, m) /\ (exact isa = true -> marker_in 64 (l ++ look))) \/
      ((if d_mask isa then avx3_newlines isa else avx_newlines isa) isRaw searchEnd B x (mask_of (map2 orb (map special l) (early nxt 64)))
          (mask_of (map is_eq l)) a b (ymin nxt) m
          = Ok (inr (mask_of (map2 orb (map special l) (kills_of isRaw s l)), ymin (dot_next s1 look)), m) /\
        (searchEnd = true -> no_marker_in 64 (l ++ look)))).
    { destruct isRaw.
      - unfold kills_of. rewrite HL.
        destruct (newlines_both isa searchEnd B x l look s m o s1 HL Hlook Hm ltac:(lia) ltac:(lia) Hr2' Hs Hrun) as [(H1 & H2 & H3)|H].
        + left. split; [exact H1|]. split; [exact H2|]. intro Hx. apply (end_flags 64). exact (H3 Hx).
        + right. exact H.
      - right. destruct searchEnd; [discriminate (Hmode eq_refl)|]. split; [|discriminate].
        unfold kills_of. rewrite HL. rewrite (plain_dot s1) by exact (proj1 (run_m_good _ _ _ _ _ Hs Hrun)).
        unfold nxt. rewrite (plain_dot s _ Hs). destruct (d_mask isa); reflexivity. }
    destruct Hnl as [(Hse & Hnl & Hmk)|[Hnl Hno]].
    { left. split; [exact Hse|]. split; [|exact Hmk]. erewrite bind_ok by exact Hnl. reflexivity. }
    right. erewrite bind_ok by exact Hnl. cbv beta iota.
    assert (Hkl : length (kills_of isRaw s l) = 64%nat) by (unfold kills_of; destruct isRaw; rewrite ?flags_len, ?repeat_length; exact HL).
    destruct (avx_unescape_ok isa B x (is_esc s) a b (map2 orb (map special l) (kills_of isRaw s l)) m Hla Hlb) as (da & db & Hu & Hdec & Hda & Hdb).
    { rewrite map2_len, map_length. lia. }
    { rewrite Hab. apply eqs_special. lia. }
    { rewrite Hab, <- (part_app 31 32 l look) by lia. apply (load_part B m x); try assumption; [lia|lia]. }
    rewrite Hab in Hu, Hdec. erewrite bind_ok by exact Hu.
    destruct (avx_store_ok isa B p (removed (kills_of isRaw s l) (is_esc s) l) da db m) as (m' & Hcs & Hb' & Hf'); try assumption.
    { rewrite removed_len by lia. exact HL. }
    unfold removed in Hcs at 1. erewrite bind_ok by exact Hcs. rewrite Hdec in *. rewrite <- Ho in *.
    eexists. exists m'. split; [reflexivity|]. split; [|split; [exact Hb'|split; [exact Hf'|exact Hno]]].
    unfold avx_rel. rewrite He1. reflexivity.
  - (* nothing to do *)
    right. apply none_repeat with (n := 64%nat) in Eany. 2: { rewrite map2_len, early_len, map_length by lia. lia. }
    assert (Hsp : map special l = repeat false 64).
    { refine (proj1 (orb_none _ _ _ _ _ Eany)); [rewrite map_length; exact HL|apply early_len; lia]. }
    destruct (early_eqs nxt l 64 look HL ltac:(lia) Hnxt1 Hnxt2 Hnxt0) as [Hn Hq].
    { rewrite Eany. rewrite <- HL in Hsp. rewrite (proj1 (special_none l Hsp)), HL. reflexivity. }
    pose proof (quiet l look 64 HL Hq) as Hcr.
    assert (Hkill : kills_of isRaw s l = repeat false 64).
    { unfold kills_of. rewrite HL. destruct isRaw; [|reflexivity].
      pose proof (kills_local s l look Hs) as Hkl. rewrite HL in Hkl. rewrite <- Hkl, (kills_split s 64) by (try exact Hs; lia).
      fold nxt. rewrite Hn. cbn [Z.eqb Nat.sub].
      rewrite <- (flags_firstn nldot 64 62), (flags_weaken nldot (at_ 0 CR) 64 _ nldot_cr Hcr) by lia. reflexivity. }
    rewrite Hkill in Ho.
    destruct (idle (repeat false 64) (is_esc s) l 63 HL (repeat_length _ _)) as (Hp & Hlo & _ & _).
    { rewrite Hsp. reflexivity. }
    rewrite Hp in Ho. rewrite Hlo in He1.
    unfold yoff. rewrite (add_plain_first (is_esc s) a 31 Hla). unfold y_set1 at 1. rewrite (add_plain b 32 Hlb).
    assert (Ho2 : o = map2 dec1 a (is_esc s :: repeat false 31) ++ map2 dec1 b (repeat false 32)).
    { rewrite Ho, <- Hab. change (is_esc s :: repeat false 63) with ((is_esc s :: repeat false 31) ++ repeat false 32).
      rewrite map2_app by (rewrite Hla; reflexivity). reflexivity. }
    set (va := map2 dec1 a (is_esc s :: repeat false 31)) in *. set (vb := map2 dec1 b (repeat false 32)) in *.
    assert (Hva : zlen va = 32) by (unfold zlen, va; rewrite map2_len, Hla; reflexivity).
    assert (Hvb : zlen vb = 32) by (unfold zlen, vb; rewrite map2_len, Hlb; reflexivity).
    destruct (two_stores B p va [] vb [] m) as (m1 & m2 & S1 & S2 & Hb2 & Hf2); [lia|rewrite ?app_nil_r; lia|rewrite ?app_nil_r; lia|].
    rewrite !app_nil_r in *. rewrite Hva in S2.
    erewrite bind_ok by exact S1. erewrite bind_ok by exact S2.
    eexists. exists m2. split; [reflexivity|]. rewrite <- Ho2 in Hb2.
    assert (Hzo : zlen o = 64) by (rewrite Ho2, zlen_app; lia).
    split; [|split; [exact Hb2|split]].
    + unfold avx_rel. rewrite He1, Hzo.
      replace (dot_next s1 look) with nxt; [reflexivity|]. rewrite Hn. symmetry. destruct isRaw.
      * destruct (next_dot s l look o s1 64 Hs Hrun HL ltac:(lia)) as [-> _]. cbn [Nat.sub].
        rewrite <- (flags_nth nldot 64 (l ++ look) 62), <- (flags_nth nldot 64 (l ++ look) 63) by lia.
        rewrite (flags_weaken nldot (at_ 0 CR) 64 _ nldot_cr Hcr). reflexivity.
      * apply plain_dot. exact (proj1 (run_m_good _ _ _ _ _ Hs Hrun)).
    + intros q Hq1. apply Hf2; lia.
    + intros _. apply (no_end_flags 64). rewrite (flags_weaken endf (at_ 0 CR) 64 _ endf_cr Hcr). reflexivity.
Qed.

(** ** The kernel *)

Theorem avx_kernel_x isa isRaw searchEnd : (searchEnd = true -> isRaw = true) ->
  kernel_ok_x (exact isa) isRaw searchEnd 64 (do_decode_avx2 isa isRaw searchEnd).
Proof.
  intros Hmode B src dest d look s m Hm Hd Hw Hal Hlook Hr1 Hr2 Hw1 Hw2 Hap Hent.
  pose proof (entry_good _ _ _ Hent) as Hs.
  assert (Hn : zlen d = Z.of_nat (Z.to_nat (zlen d / 64)) * 64) by lia.
  set (nxt := dot_next s (d ++ look)).
  destruct (block_loop_ok (exact isa) isRaw searchEnd 64 (avx_block isa isRaw searchEnd) avx_rel (avx_block_ok isa isRaw searchEnd Hmode) ltac:(lia)
    (Z.to_nat (zlen d / 64)) (Z.to_nat (zlen d)) B (src + zlen d)
    (dest, N.b2n (is_esc s), yoff (is_esc s), ymin nxt) dest s d look m)
    as (d1 & d2 & o & s1 & m' & t' & stop & E1 & E2 & E3 & E4 & E5 & E6 & E7 & E8).
  - exact Hn.
  - lia.
  - lia.
  - replace (src + zlen d - zlen d) with src by lia. exact Hm.
  - exact Hlook.
  - lia.
  - lia.
  - exact Hw1.
  - exact Hw2.
  - lia.
  - exact Hs.
  - reflexivity.
  - exists d1, d2, o, s1, m'. split; [|intro Hx; destruct E5 as [[-> _]|(_ & _ & Hmk)]; auto].
    split; [exact E1|]. split.
    { intro Hse. destruct E5 as [[-> _]|[Hc _]]; [reflexivity|congruence]. }
    split; [exact E2|]. split; [exact E6|]. split; [|split; assumption].
    unfold do_decode_avx2. fold nxt. cbv zeta.
    replace (if negb (esc_flag s =? 0) then u8 (-42 - 64) :: repeat (u8 (-42)) 31 else y_set1 (-42)) with (yoff (is_esc s))
      by (destruct s; reflexivity).
    replace (Z.to_N (esc_flag s)) with (N.b2n (is_esc s)) by (destruct s; reflexivity).
    replace (if negb (nxt =? 0) && isRaw then _ else _) with (ymin nxt).
    2: { destruct isRaw.
         - destruct (dot_next_cases s (d ++ look)) as [E|[E|E]]; fold nxt in E; rewrite E; reflexivity.
         - assert (E : nxt = 0) by (apply plain_dot; exact Hs). rewrite E. reflexivity. }
    destruct (run_m isRaw s d) as [od sd] eqn:Erd.
    erewrite bind_ok.
    2: { apply (nextMask_back_ok isRaw B (src + zlen d) d look m s od sd); try assumption; try lia.
         - replace (src + zlen d - zlen d) with src by lia. exact Hm.
         - unfold lookahead in *. destruct searchEnd, isRaw; lia. }
    erewrite bind_ok by exact E3. red in E4. subst t'.
    rewrite <- esc_flag_b2n.
    destruct E5 as [[-> ->]|(_ & -> & _)].
    + rewrite app_nil_r in E1. subst d1. rewrite Erd in E2. injection E2 as -> ->. reflexivity.
    + unfold ret. replace (zlen d + - zlen d2) with (zlen d1) by (rewrite E1, zlen_app; lia). reflexivity.
Qed.

Theorem avx_kernel_ok isa isRaw searchEnd : (searchEnd = true -> isRaw = true) ->
  kernel_ok isRaw searchEnd 64 (do_decode_avx2 isa isRaw searchEnd).
Proof. intro H. exact (kernel_x_ok _ _ _ _ _ (avx_kernel_x isa isRaw searchEnd H)). Qed.
