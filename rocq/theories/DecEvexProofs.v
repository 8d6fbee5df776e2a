(** The variants of the 128-bit decode kernel for AVX512 meet the contract of the
    front-end. *)
From Verif Require Import Base BaseLemmas EncSpec DecSpec DecModel DecProofs DecMaskSpec DecMaskModel DecMaskProofs
  DecSimdModel DecSimdSpec DecVec DecKernelModel DecBlock DecKernel DecVecProofs DecBlockFacts DecSseModel DecCompact DecSseProofs DecSseMain
  EncSseModel EncAvxModel DecAvxModel DecAvxProofs DecAvxMain DecEvexModel.
From Coq Require Import ZifyBool ZifyNat ZifyN.
Ltac Zify.zify_post_hook ::= Z.div_mod_to_equations.

(** ** Masks and vectors *)

Lemma k_bits16 l : length l = 16%nat -> k_bits 16 (mask_of l) = l.
Proof. intro H. rewrite <- H. apply k_bits_ok. Qed.

Lemma x_kpart z c k t : u8 z = c -> (k + 16 <= length t)%nat -> k_cmpeq (part k 16 t) (v_set1 z) = mask_of (flags (at_ k c) 16 t).
Proof. intros <- H. unfold v_set1, k_cmpeq. rewrite map2_beq_rep, part_flags; auto. rewrite part_len; lia. Qed.
Lemma x_kpart' z c k t : u8 z = c -> (k + 16 <= length t)%nat -> k_cmpeq (v_set1 z) (part k 16 t) = mask_of (flags (at_ k c) 16 t).
Proof. intros <- H. unfold v_set1, k_cmpeq. rewrite map2_beq_rep', part_flags; auto. rewrite part_len; lia. Qed.

Lemma b_tern_f8 x y z : b_tern 0xf8 x (bm y) (bm z) = b_or x (bm (y && z)).
Proof. destruct y, z, x; vm_compute; reflexivity. Qed.
Lemma b_tern_ac e y : b_tern 0xac (bm e) y (u8 (-42 - 64)) = if e then u8 (-42 - 64) else y.
Proof. destruct e, y; vm_compute; reflexivity. Qed.

Lemma tern_f8 : forall (a : vec) b c, length a = length b -> length a = length c ->
  v_tern 0xf8 a (vm b) (vm c) = v_or a (vm (map2 andb b c)).
Proof.
  induction a as [|x a IH]; intros [|y b] [|z c] H1 H2; cbn in H1, H2; try lia; [reflexivity|].
  cbn [vm map v_tern map2 v_or]. rewrite b_tern_f8. f_equal. apply IH; lia.
Qed.

Lemma tern_ac n : forall k y, v_tern 0xac (vm k) y (repeat (u8 (-42 - 64)) n) = v_blendv y (repeat (u8 (-42 - 64)) n) (vm k).
Proof.
  induction n as [|n IH]; intros k y; [destruct k, y; reflexivity|].
  destruct k as [|e k]; [destruct y; reflexivity|]. destruct y as [|c y]; [reflexivity|].
  cbn [repeat vm map v_tern]. rewrite b_tern_ac.
  unfold v_blendv. cbn [map2]. rewrite b_top_bm. apply (f_equal2 cons); [destruct e; reflexivity|apply IH].
Qed.

(** ** Unescaping *)

Lemma k_bits_mod n x : mask_of (k_bits n x) = (x mod 2 ^ N.of_nat n)%N.
Proof.
  apply N.bits_inj. intro j. rewrite <- (N2Nat.id j), mask_bit. unfold k_bits.
  destruct (Nat.lt_ge_cases (N.to_nat j) n) as [H|H].
  - rewrite (nth_indep _ false (N.testbit x (N.of_nat 0))) by (rewrite map_length, seq_length; exact H).
    rewrite (map_nth (fun i => N.testbit x (N.of_nat i)) (seq 0 n) 0%nat), seq_nth by exact H.
    rewrite N.mod_pow2_bits_low by lia. reflexivity.
  - rewrite nth_overflow by (rewrite map_length, seq_length; exact H). rewrite N.mod_pow2_bits_high by lia. reflexivity.
Qed.

Lemma k_bits_uint n x : k_bits n (uint (N.of_nat n) x) = k_bits n x.
Proof.
  unfold k_bits. apply map_ext_in. intros i Hi. apply in_seq in Hi. unfold uint. apply N.mod_pow2_bits_low. lia.
Qed.

Lemma k_bits_len n x : length (k_bits n x) = n.
Proof. unfold k_bits. rewrite map_length. apply seq_length. Qed.

Lemma halves_bits x : load_halves x = ve (k_bits 16 x).
Proof.
  assert (E : k_bits 16 x = k_bits 8 x ++ k_bits 8 (N.shiftr x 8)).
  { unfold k_bits. change (seq 0 16) with (seq 0 8 ++ map (fun i => i + 8)%nat (seq 0 8)). rewrite map_app, map_map. f_equal.
    apply map_ext. intro i. rewrite N.shiftr_spec'. f_equal. lia. }
  unfold load_halves. change 255%N with (N.ones 8). rewrite !N.land_ones. change 8%N with (N.of_nat 8) at 1 3.
  rewrite <- !k_bits_mod, !eq_add8 by apply k_bits_len. rewrite E. unfold ve. rewrite map_app. reflexivity.
Qed.

Lemma mask_add_ve : forall d k n, length d = n -> length k = n ->
  map2 (fun ab c => if (c : bool) then snd ab else fst ab) (map2 pair d (v_add d (repeat xc0 n))) k = v_add d (ve k).
Proof.
  unfold v_add, ve. induction d as [|c d IH]; intros k n Hd Hk; destruct n as [|n]; cbn in Hd; try lia; [reflexivity|].
  destruct k as [|e k]; cbn in Hk; try lia. cbn [repeat map2 map fst snd]. f_equal; [destruct e; [reflexivity|symmetry; apply add_0]|apply IH; lia].
Qed.

Lemma x_mask_add_halves d x : length d = 16%nat -> x_mask_add d (uint 16 x) d (v_set1 (-64)) = v_add d (load_halves x).
Proof.
  intro H. rewrite halves_bits. unfold x_mask_add, x_blend, v_set1. change 16%N with (N.of_nat 16). rewrite k_bits_uint.
  change (u8 (-64)) with xc0. apply mask_add_ve; [exact H|apply k_bits_len].
Qed.

Lemma x_next_ok b : evex_next_offset (N.b2n b) = voff b.
Proof. destruct b; reflexivity. Qed.

Lemma tuple4 {A B C D E} (a a' : A) (b b' : B) (c c' : C) (d d' : D) (e e' : E) : (a, b, c, d, e) = (a', b', c', d', e') ->
  a = a' /\ b = b' /\ c = c' /\ d = d'.
Proof. intro H. inversion H. auto. Qed.

Definition isa_blend : sse_isa := {| fast_match := true; blend_add := true; has_ssse3 := true; has_popcnt := true; use_alignr := true; has_lzcnt := false |}.

Lemma evex_unescape_ok : unescape_spec evex_unescape.
Proof.
  intros esc a b sp Ha Hb Hsp Himp.
  destruct (unescape_ok isa_blend esc a b sp Ha Hb Hsp Himp) as (da & db & E & H). exists da, db. split; [|exact H]. clear H Himp.
  assert (Hda : length (v_add a (voff esc)) = 16%nat) by (unfold v_add; rewrite map2_len, Ha; reflexivity).
  assert (Hdb : length (v_add b (v_set1 (-42))) = 16%nat) by (unfold v_add; rewrite map2_len, Hb; reflexivity).
  unfold sse_unescape in E. unfold evex_unescape. cbv zeta in *. cbn [isa_blend blend_add] in E.
  destruct (negb (N.eqb (N.land (mask_of sp) _) 0)).
  - rewrite !x_mask_add_halves by assumption. apply tuple4 in E. destruct E as (-> & -> & -> & ->). rewrite x_next_ok. reflexivity.
  - rewrite vm_slli by (rewrite map_length; exact Ha). rewrite vm_alignr.
    rewrite vm_slli in E by (rewrite map_length; exact Ha). rewrite vm_alignr in E.
    unfold v_set1 in *. rewrite !tern_ac. apply tuple4 in E. destruct E as (-> & -> & -> & ->). rewrite x_next_ok. reflexivity.
Qed.

(** ** Storing *)

Lemma x_compress_parts isa l v : length l = 16%nat -> length v = 16%nat ->
  exists z, (if e_icl isa then k_compress (mask_of (map negb l)) v else x_compress (mask_of (map negb l)) v) = pick l v ++ z /\
    (length (pick l v ++ z) <= 16)%nat.
Proof.
  intros Hl Hv. unfold x_compress. rewrite k_compress_ok by lia.
  assert (Hp : (length (pick l v) <= 16)%nat) by (pose proof (pick_le l v) as H; unfold zlen in H; lia).
  destruct (e_icl isa); [exists []; rewrite app_nil_r; auto|]. eexists; split; [reflexivity|]. rewrite app_length, repeat_length. lia.
Qed.

Lemma evex_compact_ok isa : compact_spec (evex_compact_store isa).
Proof.
  intros B p rm a b m Hrm Ha Hb Hp1 Hp2. unfold evex_compact_store. destruct (e_compress isa); [|apply compact_store_ok; assumption].
  assert (L1 : length (firstn 16 rm) = 16%nat) by (rewrite firstn_length; lia).
  assert (L2 : length (skipn 16 rm) = 16%nat) by (rewrite skipn_length; lia).
  replace (pick rm (a ++ b)) with (pick (firstn 16 rm) a ++ pick (skipn 16 rm) b).
  2: { rewrite <- pick_app, firstn_skipn by lia. reflexivity. }
  unfold x_compress_store.
  replace (unot 16 (mask_of rm)) with (mask_of (map negb (firstn 16 rm))).
  2:{ rewrite <- (mask_not 16) by exact L1. unfold unot. rewrite !(mask_uint 16), firstn_firstn. reflexivity. }
  change 16%N with (N.of_nat 16). rewrite mask_shiftr, (mask_not 16) by lia.
  change 0xffff%N with (N.ones (N.of_nat 16)). rewrite mask_low, !popcount_ok.
  destruct (x_compress_parts isa (firstn 16 rm) a L1 Ha) as (z1 & E1 & Hz1).
  destruct (x_compress_parts isa (skipn 16 rm) b L2 Hb) as (z2 & E2 & Hz2).
  rewrite E1, E2.
  assert (K1 : zlen (pick (firstn 16 rm) a) = nkeep (firstn 16 rm)) by (apply pick_len; lia).
  assert (K2 : zlen (pick (skipn 16 rm) b) = nkeep (skipn 16 rm)) by (apply pick_len; lia).
  pose proof (nkeep_range (firstn 16 rm)) as R1. pose proof (nkeep_range (skipn 16 rm)) as R2.
  assert (Z1 : zlen (firstn 16 rm) = 16) by (unfold zlen; lia). assert (Z2 : zlen (skipn 16 rm) = 16) by (unfold zlen; lia).
  destruct (stores_ok B (p + 32) [(pick (firstn 16 rm) a, z1); (pick (skipn 16 rm) b, z2)] p m) as (m' & S & Hb' & Hf'); try lia.
  { cbn [fits]. unfold zlen at 1 3. lia. }
  cbn [stores map concat fst] in S, Hb'. rewrite app_nil_r in Hb'.
  exists m'. split; [|auto]. rewrite zlen_app, K1, K2.
  destruct (store_n B p (pick (firstn 16 rm) a ++ z1) m) as [[[] m1]| |] eqn:S1; try (unfold bind in S; rewrite S1 in S; discriminate S).
  erewrite bind_ok in S by exact S1. erewrite bind_ok by exact S1. cbv zeta.
  replace (p - (zlen (firstn 16 rm) - nkeep (firstn 16 rm)) + 16) with (p + zlen (pick (firstn 16 rm) a)) by lia.
  destruct (store_n B (p + zlen (pick (firstn 16 rm) a)) (pick (skipn 16 rm) b ++ z2) m1) as [[[] m2]| |] eqn:S2;
    try (unfold bind in S; rewrite S2 in S; discriminate S).
  erewrite bind_ok in S by exact S2. erewrite bind_ok by exact S2. injection S as ->. unfold ret. do 2 f_equal. lia.
Qed.

(** ** End markers in half a block *)

Lemma evex_end_half isa t : (20 <= length t)%nat ->
  exists f, evex_match_end isa (part 3 16 t) (part 4 16 t) (mask_of (flags (at_ 2 EQS) 16 t)) (mask_of (flags crlf 16 t)) (mask_of (flags nldot 16 t))
    = mask_of f /\ length f = 16%nat /\ Forall2 (fun a b : bool => a = true -> b = true) (flags endf 16 t) f /\
    (e_vbmi2 isa = true -> f = flags endf 16 t).
Proof.
  intro H. unfold evex_match_end. cbv zeta. rewrite (cmp_part' 13 CR), (cmp_part 10 LF) by (reflexivity || lia).
  unfold k_mask_cmpeq. rewrite (x_kpart' 121 YY) by (reflexivity || lia).
  rewrite (mask_and (flags (at_ 2 EQS) 16 t)), map2_flags by (rewrite !flags_len; reflexivity).
  change (flags (fun t0 => at_ 2 EQS t0 && at_ 3 YY t0) 16 t) with (flags (eqy 2) 16 t).
  change (v_set1_16 0x793d) with (flat_map (fun _ : unit => [x3d; x79]) (repeat tt 8)).
  set (v34 := if e_vbmi2 isa then _ else _).
  assert (H34 : length v34 = 16%nat /\ map nz v34 = (if e_vbmi2 isa then flags (eqy 3) 16 t else eqy_even 8 t)).
  { subst v34. destruct (e_vbmi2 isa).
    - unfold x_movm. rewrite k_bits16 by apply flags_len. fold (vm (flags (eqy 2) 16 t)).
      change (flags (eqy 2) 16 t) with (flags (eqy 2) (2 * 8) t). change (part 4 16 t) with (part 4 (2 * 8) t).
      rewrite eqy_shrd by (cbn [Nat.mul Nat.add]; lia). change (2 * 8)%nat with 16%nat.
      unfold vm. rewrite map_length, flags_len, map_map. split; [reflexivity|]. rewrite (map_ext _ id) by apply nz_bm. apply map_id.
    - pose proof (eqy_blend 8 t (flags (eqy 3) 15 t ++ [false]) ltac:(cbn [Nat.mul Nat.add]; lia)) as E.
      rewrite app_length, flags_len in E. specialize (E eq_refl).
      unfold x_blend.
      replace (k_bits 16 (N.shiftr (mask_of (flags (eqy 2) 16 t)) 1)) with (flags (eqy 3) 15 t ++ [false]).
      2: { change 1%N with (N.of_nat 1). rewrite mask_shiftr. rewrite <- (mask_pad _ 1).
           rewrite k_bits16 by (rewrite app_length, skipn_length, flags_len; reflexivity).
           f_equal. rewrite flags_skipn. cbn [Nat.sub].
           apply (nth_ext _ _ false false); [rewrite !flags_len; reflexivity|]. intros j Hj. rewrite flags_len in Hj.
           rewrite !flags_nth by exact Hj. rewrite skipn_plus, eqy_tl. reflexivity. }
      assert (Ev : length (v_and (v_cmpeq16 (part 4 16 t) (flat_map (fun _ : unit => [x3d; x79]) (repeat tt 8))) (v_set1_16 (-0xff))) = 16%nat).
      { unfold v_and. rewrite map2_len. change (length (v_set1_16 (-0xff))) with 16%nat.
        assert (El : length (part 4 16 t) = 16%nat) by (apply part_len; lia). revert El. generalize (part 4 16 t). clear.
        intros v El. do 16 (destruct v as [|? v]; [discriminate El|]). destruct v; [reflexivity|discriminate El]. }
      split.
      + rewrite !map2_len, Ev, app_length, flags_len. reflexivity.
      + apply E.
        * intros i Hi. destruct (Nat.lt_ge_cases (2 * i) 15) as [Hlt|Hge]; [|lia].
          rewrite app_nth1 by (rewrite flags_len; exact Hlt). apply flags_nth. exact Hlt.
        * intros i Hi. destruct (Nat.lt_ge_cases (S (2 * i)) 15) as [Hlt|Hge].
          -- rewrite app_nth1 by (rewrite flags_len; exact Hlt). rewrite flags_nth by exact Hlt. auto.
          -- rewrite app_nth2 by (rewrite flags_len; exact Hge). rewrite flags_len. replace (S (2 * i) - 15)%nat with 0%nat by lia. discriminate. }
  destruct H34 as [Hl34 Hn34]. clearbody v34.
  rewrite tern_f8 by (rewrite !flags_len; exact Hl34). rewrite map2_flags.
  unfold k_mask_test. rewrite map2_nz by (rewrite flags_len; exact Hl34). rewrite Hn34.
  set (f34 := if e_vbmi2 isa then flags (eqy 3) 16 t else eqy_even 8 t).
  assert (Hf34 : length f34 = 16%nat) by (unfold f34; destruct (e_vbmi2 isa); [apply flags_len|apply eqy_even_len]).
  rewrite (mask_and (flags nldot 16 t)) by (rewrite map2_len, !flags_len; lia).
  rewrite (mask_and (flags (eqy 2) 16 t)), map2_flags by (rewrite !flags_len; reflexivity).
  rewrite mask_or by (rewrite !map2_len, !flags_len; lia).
  eexists. split; [reflexivity|]. split; [rewrite !map2_len, !flags_len; lia|].
  assert (Hend : map2 orb (map2 andb (flags nldot 16 t) (map2 orb (flags (eqy 3) 16 t) (flags (fun t0 => at_ 3 CR t0 && at_ 4 LF t0) 16 t)))
      (flags (fun t0 => eqy 2 t0 && crlf t0) 16 t) = flags endf 16 t).
  { rewrite !map2_flags. apply flags_ext. intros j _. unfold endf, eqy. set (u := skipn j t).
    destruct (nldot u), (crlf u), (at_ 3 CR u), (at_ 4 LF u), (at_ 3 EQS u), (at_ 4 YY u), (at_ 2 EQS u), (at_ 3 YY u); reflexivity. }
  split.
  - rewrite <- Hend.
    assert (Hge : Forall2 (fun a b : bool => a = true -> b = true) (flags (eqy 3) 16 t) f34).
    { unfold f34. destruct (e_vbmi2 isa); [|apply (eqy_even_ge 8)]. generalize (flags (eqy 3) 16 t). clear. induction l; constructor; auto. }
    revert Hge. generalize (flags (eqy 3) 16 t) f34 (flags nldot 16 t) (flags (fun t0 => at_ 3 CR t0 && at_ 4 LF t0) 16 t) (flags (fun t0 => eqy 2 t0 && crlf t0) 16 t).
    clear. intros x y u v w H. revert u v w. induction H as [|a b x y Hab H IH]; intros [|u0 u] [|v0 v] [|w0 w]; cbn [map2]; try constructor; auto.
    destruct a, b, u0, v0, w0; cbn; auto; try discriminate (Hab eq_refl).
  - intro E. unfold f34. rewrite E. exact Hend.
Qed.

(** ** The variables for the next block *)

Lemma x_next_min x y nl : length nl = 16%nat -> nth 14 nl false = x -> nth 15 nl false = y -> (x = true -> y = false) ->
  x_maskz_mov (unot 16 (N.shiftr (mask_of nl) 14)) (v_set1 46) = min_of (if x then 1 else if y then 2 else 0).
Proof.
  intros Hl Hx Hy He. change 14%N with (N.of_nat 14). rewrite mask_shiftr.
  replace (skipn 14 nl) with [x; y] by (subst x y; do 16 (destruct nl as [|? nl]; [discriminate Hl|]); destruct nl; [reflexivity|discriminate Hl]).
  destruct x, y; try reflexivity. discriminate (He eq_refl).
Qed.

(** ** Lines starting with a dot and end markers *)

(** What this rests on. *)
Lemma evex_nl_facts (searchEnd : bool) B x l look s m o s1 :
  length l = 32%nat -> lookahead true searchEnd <= zlen look ->
  bytes_at m x (l ++ look) -> x mod 32 = 0 -> rlo B <= x -> x + zlen (l ++ look) <= rhi B ->
  simple_state s -> run_raw s l = (o, s1) ->
  let T := l ++ look in let nxt := dot_next s T in
  (34 <= length T)%nat /\ (searchEnd = true -> (36 <= length T)%nat) /\
  flags nldot 32 (pre s ++ l) = (nxt =? 1) :: (nxt =? 2) :: flags nldot 30 T /\
  dot_next s1 look = (if nldot (skipn 30 T) then 1 else if nldot (skipn 31 T) then 2 else 0) /\
  (nldot (skipn 30 T) = true -> nldot (skipn 31 T) = false) /\
  nextMask_fwd true B x (mask_of (map2 orb (map special l) (early nxt 32))) m = Ok (nxt, m) /\
  (mask_of (map2 orb (map special l) (early nxt 32)) = mask_of (map is_eq l) ->
   flags nldot 32 (pre s ++ l) = early nxt 32 /\ dot_next s1 look = nxt /\ no_marker_in 32 T) /\
  (flags nldot 32 T = repeat false 32 -> flags nldot 32 (pre s ++ l) = early nxt 32 /\ dot_next s1 look = 0) /\
  (forall k, (k + 16 <= length T)%nat -> forall y, y = x + Z.of_nat k -> mm_loadu B y m = Ok (part k 16 T, m)) /\
  (forall k, (k + 32 <= length T)%nat -> forall y, y = x + Z.of_nat k + 16 -> mm_loadu B y m = Ok (part k 16 (skipn 16 T), m)) /\
  mm_load B x m = Ok (part 0 16 T, m) /\ mm_load B (x + 16) m = Ok (part 0 16 (skipn 16 T), m).
Proof.
  intros Hl Hlook Hm Hal Hr1 Hr2 Hs Hrun T nxt.
  assert (HT : (34 <= length T)%nat) by (unfold T; rewrite app_length; unfold lookahead, zlen in Hlook; destruct searchEnd; lia).
  destruct (next_dot s l look o s1 32 Hs Hrun Hl ltac:(lia)) as [Hnx Hex]. cbn [Nat.sub] in Hnx, Hex. fold T in Hnx, Hex.
  pose proof (kills_split s 32 T Hs ltac:(lia)) as Hk.
  pose proof (kills_local s l look Hs) as Hkl. rewrite Hl in Hkl. fold T in Hkl. rewrite Hkl in Hk. clear Hkl. cbn [Nat.sub] in Hk. fold nxt in Hk.
  assert (Hnone : flags nldot 32 T = repeat false 32 -> flags nldot 32 (pre s ++ l) = early nxt 32 /\ dot_next s1 look = 0).
  { intro Hnd. split.
    - rewrite Hk. rewrite <- (flags_firstn nldot 32 30), Hnd by lia. reflexivity.
    - rewrite Hnx. rewrite <- (flags_nth nldot 32 T 30), <- (flags_nth nldot 32 T 31) by lia. rewrite Hnd. reflexivity. }
  assert (HB : bytes_at m (x + 16) (skipn 16 T)).
  { fold T in Hm. rewrite <- (firstn_skipn 16 T) in Hm. apply bytes_at_app in Hm as [_ Hm].
    replace (zlen (firstn 16 T)) with 16 in Hm; [exact Hm|]. unfold zlen. rewrite firstn_length. lia. }
  fold T in Hr2, Hm.
  assert (HBr : x + 16 + zlen (skipn 16 T) <= rhi B) by (unfold zlen in *; rewrite skipn_length; lia).
  assert (LA : forall k, (k + 16 <= length T)%nat -> forall y, y = x + Z.of_nat k -> mm_loadu B y m = Ok (part k 16 T, m)).
  { intros k Hk' y Hy. apply (load_part B m x); assumption. }
  assert (LB : forall k, (k + 32 <= length T)%nat -> forall y, y = x + Z.of_nat k + 16 -> mm_loadu B y m = Ok (part k 16 (skipn 16 T), m)).
  { intros k Hk' y Hy. apply (load_part B m (x + 16)); try assumption; [lia|rewrite skipn_length; lia|lia]. }
  split; [exact HT|].
  split; [intros ->; unfold T; rewrite app_length; unfold lookahead, zlen in Hlook; lia|].
  split; [exact Hk|]. split; [exact Hnx|]. split; [exact Hex|].
  split. { pose proof (nextMask_fwd_ok B x l look s m Hm ltac:(lia) Hr1 Hr2) as H. rewrite Hl in H. exact H. }
  split. { intro E. apply mask_inj in E. 2: { rewrite map2_len, early_len, !map_length by lia. lia. }
    destruct (early_eqs nxt l 32 look Hl ltac:(lia) (dot_next_1 s _) (dot_next_2 s _) (dot_next_cases s _) E) as [Hn Hq].
    pose proof (quiet l look 32 Hl Hq) as Hcr. fold T in Hcr.
    destruct (Hnone (flags_weaken nldot (at_ 0 CR) 32 T nldot_cr Hcr)) as [H1 H2].
    split; [exact H1|]. split; [rewrite Hn; exact H2|].
    apply (no_end_flags 32). rewrite (flags_weaken endf (at_ 0 CR) 32 T endf_cr Hcr). reflexivity. }
  split; [exact Hnone|]. split; [exact LA|]. split; [exact LB|].
  unfold mm_load, load_aligned. change (Z.of_nat 16) with 16. split.
  - destruct (x mod 16 =? 0) eqn:E; [apply (LA 0%nat); lia|lia].
  - destruct ((x + 16) mod 16 =? 0) eqn:E; [apply (LB 0%nat); lia|lia].
Qed.

Lemma evex_newlines_ok isa : fast_match (e_base isa) = true -> newlines_spec (e_vbmi2 isa) (e_base isa) (evex_newlines isa).
Proof.
  intro Hfast. split; [|reflexivity].
  intros searchEnd B x l look a b s m lf mn o s1 Hl Hlook -> -> Hm Hal Hr1 Hr2 Hs Hrun Hst.
  unfold stands_for in Hst. rewrite Hfast in Hst. subst mn.
  destruct (evex_nl_facts searchEnd B x l look s m o s1 Hl Hlook Hm Hal Hr1 Hr2 Hs Hrun)
    as (HT & HTe & Hk & Hnx & Hex & Hfwd & Hq & Hnone & LA & LB & LA0 & LB0).
  set (T := l ++ look) in *. set (nxt := dot_next s T) in *. cbv zeta. unfold evex_newlines, stands_for. rewrite Hfast. cbn [orb andb].
  set (mn := min_of nxt).
  destruct (N.eqb_spec (mask_of (map2 orb (map special l) (early nxt 32))) (mask_of (map is_eq l))) as [E|E]; cbn [negb].
  { right. exists lf, mn. destruct (Hq E) as (-> & -> & Hno). split; [reflexivity|]. split; [reflexivity|]. intros _. exact Hno. }
  clear Hq. rewrite Hk.
  erewrite bind_ok by (apply (LA 2%nat); lia). erewrite bind_ok by (apply (LB 2%nat); lia). cbv zeta. unfold k_mask_cmpeq.
  rewrite !(x_kpart' 61 EQS), !(x_kpart 13 CR), !(x_kpart 46 DOT) by (try reflexivity; rewrite ?skipn_length; lia).
  rewrite !(mask_and (flags (at_ 0 CR) 16 _) (flags (at_ 2 DOT) 16 _)), !map2_flags by (rewrite !flags_len; reflexivity).
  set (crxdt := fun t => at_ 0 CR t && at_ 2 DOT t).
  rewrite (mask_or (flags crxdt 16 T)), mask_eqb0, negb_involutive, existsb_or, <- flags_halves by (rewrite !flags_len; reflexivity).
  destruct (existsb id (flags crxdt 32 T)) eqn:Epk.
  - erewrite bind_ok by (apply (LA 1%nat); lia). erewrite bind_ok by (apply (LB 1%nat); lia).
    rewrite !(x_kpart' 10 LF) by (try reflexivity; rewrite ?skipn_length; lia).
    rewrite !(mask_and (flags (at_ 0 CR) 16 _) (flags (at_ 1 LF) 16 _)), !map2_flags by (rewrite !flags_len; reflexivity).
    fold crlf. change (fun t => at_ 0 CR t && at_ 1 LF t) with crlf.
    rewrite !(mask_and (flags crxdt 16 _)), !map2_flags by (rewrite !flags_len; reflexivity).
    assert (End : forall t, flags (fun t => crxdt t && crlf t) 16 t = flags nldot 16 t).
    { intro t. apply flags_ext; intros j _. set (u := skipn j t). unfold crxdt, crlf, nldot. destruct (at_ 0 CR u), (at_ 1 LF u), (at_ 2 DOT u); reflexivity. }
    rewrite !End.
    assert (Hstop : exists b, (b = false -> searchEnd = true -> existsb id (flags endf 32 T) = false) /\ 
        (b = true -> searchEnd = true /\ (e_vbmi2 isa = true -> existsb id (flags endf 32 T) = true)) /\
        (if searchEnd then
           tmpData3A <- mm_loadu B (x + 3);;
           tmpData3B <- mm_loadu B (x + 3 + 16);;
           tmpData4A <- mm_loadu B (x + 4);;
           tmpData4B <- mm_loadu B (x + 4 + 16);;
           ret (negb (N.eqb (N.lor
             (evex_match_end isa tmpData3A tmpData4A (mask_of (flags (at_ 2 EQS) 16 T)) (mask_of (flags crlf 16 T)) (mask_of (flags nldot 16 T)))
             (evex_match_end isa tmpData3B tmpData4B (mask_of (flags (at_ 2 EQS) 16 (skipn 16 T))) (mask_of (flags crlf 16 (skipn 16 T)))
                (mask_of (flags nldot 16 (skipn 16 T))))) 0))
         else ret false) m = Ok (b, m)).
    { destruct searchEnd; [|exists false; repeat split; discriminate]. specialize (HTe eq_refl).
      destruct (evex_end_half isa T ltac:(lia)) as (fa & Ea & La & Ga & Xa).
      destruct (evex_end_half isa (skipn 16 T) ltac:(rewrite skipn_length; lia)) as (fb & Eb & Lb & Gb & Xb).
      exists (existsb id (fa ++ fb)). split; [|split].
      - intros Hf _. rewrite flags_halves. apply (none_ge _ _ (Forall2_app Ga Gb) Hf).
      - intro Hf. split; [reflexivity|]. intro Hv. rewrite flags_halves, <- Xa, <- Xb by exact Hv. exact Hf.
      - erewrite bind_ok by (apply (LA 3%nat); lia). erewrite bind_ok by (apply (LB 3%nat); lia).
        erewrite bind_ok by (apply (LA 4%nat); lia). erewrite bind_ok by (apply (LB 4%nat); lia).
        unfold ret. rewrite Ea, Eb, mask_or, mask_eqb0, negb_involutive, existsb_or by lia. reflexivity. }
    destruct Hstop as (b & Hb0 & Hb1 & Hb). erewrite bind_ok by exact Hb.
    assert (Hnext : x_maskz_mov (unot 16 (N.shiftr (mask_of (flags nldot 16 (skipn 16 T))) 14)) (v_set1 46) = min_of (dot_next s1 look)).
    { rewrite Hnx. apply x_next_min; [apply flags_len| | |exact Hex]; rewrite flags_nth, skipn_plus by lia; reflexivity. }
    destruct b.
    + destruct (Hb1 eq_refl) as [-> Hx]. left. split; [reflexivity|]. split; [erewrite bind_ok by exact Hfwd; reflexivity|].
      intro Hv. apply (end_flags 32). exact (Hx Hv).
    + right. rewrite Hnext, mask_kills by (rewrite map_length; exact Hl). eexists _, _. split; [reflexivity|]. split; [reflexivity|].
      intro Hse. apply (no_end_flags 32). exact (Hb0 eq_refl Hse).
  - apply flags_none_inv in Epk.
    assert (Hnd : flags nldot 32 T = repeat false 32).
    { apply (flags_weaken nldot crxdt); [|exact Epk]. intro u. unfold nldot, crxdt. rewrite !andb_true_iff. tauto. }
    destruct (Hnone Hnd) as [Hk2 ->]. rewrite <- Hk, Hk2. unfold reset_compare. rewrite Hfast. clearbody mn.
    destruct searchEnd; [|right; eexists _, _; split; [reflexivity|split; [reflexivity|discriminate]]].
    specialize (HTe eq_refl).
    erewrite bind_ok by (apply (LA 3%nat); lia). erewrite bind_ok by (apply (LB 3%nat); lia). cbv zeta.
    rewrite !(x_kpart' 121 YY) by (try reflexivity; rewrite ?skipn_length; lia).
    rewrite !(mask_and (flags (at_ 2 EQS) 16 _) (flags (at_ 3 YY) 16 _)), !map2_flags by (rewrite !flags_len; reflexivity).
    fold (eqy 2). change (fun t => at_ 2 EQS t && at_ 3 YY t) with (eqy 2).
    rewrite (mask_or (flags (eqy 2) 16 T)), mask_eqb0, negb_involutive, existsb_or, <- flags_halves by (rewrite !flags_len; reflexivity).
    assert (Hen : flags endf 32 T = flags (fun t => eqy 2 t && at_ 1 LF t && at_ 0 CR t) 32 T).
    { apply flags_ext. intros j Hj. unfold endf. rewrite <- (flags_nth nldot 32 T j Hj), Hnd, nth_repeat. cbn [andb orb].
      unfold crlf, eqy. destruct (at_ 0 CR (skipn j T)), (at_ 1 LF (skipn j T)), (at_ 2 EQS (skipn j T)), (at_ 3 YY (skipn j T)); reflexivity. }
    erewrite bind_ok with (a := existsb id (flags endf 32 T)) (m' := m).
    2: { destruct (existsb id (flags (eqy 2) 32 T)) eqn:Eq.
         - erewrite bind_ok by (apply (LA 1%nat); lia). erewrite bind_ok by (apply (LB 1%nat); lia). cbv zeta.
           rewrite !(x_kpart' 10 LF) by (try reflexivity; rewrite ?skipn_length; lia).
           rewrite !(mask_and (flags (eqy 2) 16 _)), !map2_flags by (rewrite !flags_len; reflexivity).
           rewrite !(mask_and (flags (fun t => eqy 2 t && at_ 1 LF t) 16 _)), !map2_flags by (rewrite !flags_len; reflexivity).
           rewrite mask_or, mask_eqb0, negb_involutive, existsb_or, <- flags_halves by (rewrite !flags_len; reflexivity).
           rewrite Hen. reflexivity.
         - apply flags_none_inv in Eq. rewrite Hen, (flags_weaken _ (eqy 2) 32 T); [reflexivity| |exact Eq].
           intro u. rewrite !andb_true_iff. tauto. }
    destruct (existsb id (flags endf 32 T)) eqn:Eend.
    + left. split; [reflexivity|]. split; [erewrite bind_ok by exact Hfwd; reflexivity|].
      intros _. apply (end_flags 32). exact Eend.
    + right. eexists _, _. split; [reflexivity|]. split; [reflexivity|]. intros _. apply (no_end_flags 32). exact Eend.
Qed.

(** ** The kernel *)

(** Is an end marker found only where there is one? *)
Definition evex_exact (isa : evex_isa) : bool := negb (e_mask isa) || e_vbmi2 isa.

Lemma evex_kernel_x isa isRaw searchEnd : (e_mask isa = true -> fast_match (e_base isa) = true) -> (searchEnd = true -> isRaw = true) ->
  kernel_ok_x (evex_exact isa) isRaw searchEnd 32 (do_decode_evex isa isRaw searchEnd).
Proof.
  intros Hfast Hmode. apply kernel_with_ok. apply block_with_ok.
  - unfold evex_exact. destruct (e_mask isa); cbn [negb orb]; [apply evex_newlines_ok, Hfast; reflexivity|].
    apply sse_newlines_spec.
  - exact evex_unescape_ok.
  - apply evex_compact_ok.
  - exact Hmode.
Qed.

Lemma evex_kernel_ok isa isRaw searchEnd : (e_mask isa = true -> fast_match (e_base isa) = true) -> (searchEnd = true -> isRaw = true) ->
  kernel_ok isRaw searchEnd 32 (do_decode_evex isa isRaw searchEnd).
Proof. intros Hf H. exact (kernel_x_ok _ _ _ _ _ (evex_kernel_x isa isRaw searchEnd Hf H)). Qed.
