(** With vectors of 2048 bits and more the RVV kernel does not come to an end for some
    texts, whatever the instructions leave in the elements they do not write. *)
From Verif Require Import Base BaseLemmas EncSpec DecSpec DecModel DecProofs DecText DecNode DecNodeSpec DecMaskSpec DecMaskModel DecMaskProofs DecGrow
  DecSimdModel DecSimdSpec DecSimdProofs DecSimdMain DecVec DecKernelModel DecBlock DecKernel DecVecProofs DecBlockFacts DecSseModel DecCompact DecSseProofs DecSseMain DecValid
  EncSseModel EncRvvModel DecRvvModel DecRvvProofs DecRvvMain DecRvvExact.
From Coq Require Import ZifyBool ZifyNat ZifyN.
Ltac Zify.zify_post_hook ::= Z.div_mod_to_equations.

Section Endless.
Variables (rv : rvd) (r c : nat).
Hypothesis Hn : dvl rv = (128 + 64 * r)%nat.
Hypothesis Hc : (2 + r = 8 * S c)%nat.

Definition ones64 : N := (2 ^ 64 - 1)%N.

(** ** The loop *)

Lemma shift64 m : length m = (2 + r)%nat -> mask_lshift64 rv (2 + r) m = firstn (2 + r) (false :: m).
Proof.
  intro H. unfold mask_lshift64. replace (2 + r <? 8)%nat with false by lia. apply (lshift1_ok (2 + r) (S c) m false Hc H).
Qed.

Lemma loop_endless : forall fuel carry odd, length carry = (1 + r)%nat -> length odd = (1 + r)%nat -> 0 < cpop carry ->
  carry_loop rv fuel (2 + r) (false :: carry) (ones64 :: odd) = NoFuel.
Proof.
  induction fuel as [|fuel IH]; intros carry odd H1 H2 H3; cbn [carry_loop]; change (cpop (false :: carry)) with (0 + cpop carry);
    replace (0 <? 0 + cpop carry) with true by lia; [reflexivity|].
  cbn [map map2]. change (carry64 ones64 1) with true.
  rewrite shift64 by (cbn [length]; rewrite map_length; lia). change (2 + r)%nat with (S (S r)). cbn [firstn].
  apply (IH (true :: firstn r (map (fun x => carry64 x 1) odd))).
  - cbn [length]. rewrite firstn_length, map_length. lia.
  - rewrite map2_len, H1, H2. lia.
  - cbn [cpop]. pose proof (cpop_nonneg (firstn r (map (fun x => carry64 x 1) odd))). lia.
Qed.

(** ** The masks *)

Definition head : list bool := repeat true 64 ++ repeat false 62 ++ [true; true].
Definition mask1 : list bool := head ++ repeat false (64 * r).

Lemma mask1_len : length mask1 = (128 + 64 * r)%nat.
Proof. unfold mask1. rewrite app_length, repeat_length. reflexivity. Qed.

Lemma elems_head h : length h = 128%nat -> elems64 (2 + r) (h ++ repeat false (64 * r)) =
  mask_of (firstn 64 h) :: mask_of (skipn 64 h) :: repeat 0%N r.
Proof.
  intro H. change (2 + r)%nat with (S (S r)). cbn [elems64].
  rewrite (firstn_app 64 h), (skipn_app 64 h), H. change (64 - 128)%nat with 0%nat. rewrite firstn_O, app_nil_r, skipn_O.
  rewrite firstn_app, skipn_app, skipn_length, H. change (64 - (128 - 64))%nat with 0%nat. rewrite firstn_O, skipn_O, app_nil_r.
  rewrite (firstn_all2 (skipn 64 h)), (skipn_all2 (skipn 64 h)) by (rewrite skipn_length; lia). cbn [app]. rewrite elems_zero. reflexivity.
Qed.

Lemma carry_zero n : map2 carry64 (repeat 0%N n) (repeat 0%N n) = repeat false n.
Proof. induction n as [|n IH]; [reflexivity|]. cbn [repeat map2]. rewrite IH. reflexivity. Qed.

Lemma groups_endless : odd_groups rv mask1 ((repeat false 126 ++ [true; false]) ++ repeat false (64 * r)) = NoFuel.
Proof.
  unfold odd_groups. rewrite Hn.
  replace (Nat.max 1 ((128 + 64 * r) / 64)) with (2 + r)%nat by lia.
  replace (64 - (128 + 64 * r))%nat with 0%nat by lia. cbn [seq map]. rewrite !app_nil_r. cbv zeta.
  unfold mask1. rewrite !elems_head by reflexivity.
  replace (128 + 64 * r <=? 64)%nat with false by lia. cbn [map2]. rewrite carry_zero.
  rewrite shift64 by (cbn [length]; rewrite repeat_length; lia). match goal with |- context [firstn (2 + r) (false :: ?l)] => change (firstn (2 + r) (false :: l)) with (false :: firstn (1 + r) l) end.
  change (uint 64 (mask_of (firstn 64 head) + mask_of (firstn 64 (repeat false 126 ++ [true; false])))) with ones64.
  rewrite loop_endless; [reflexivity|cbn [length]; rewrite firstn_length; cbn [length]; rewrite repeat_length; lia|rewrite map_length, seq_length; lia|].
  replace (1 + r)%nat with (S (S (r - 1))) by lia.
  change (carry64 (mask_of (firstn 64 head)) (mask_of (firstn 64 (repeat false 126 ++ [true; false])))) with false.
  change (carry64 (mask_of (skipn 64 head)) (mask_of (skipn 64 (repeat false 126 ++ [true; false])))) with true.
  cbn [firstn cpop]. match goal with |- context [cpop (firstn ?a ?b)] => pose proof (cpop_nonneg (firstn a b)) end. lia.
Qed.

Lemma shift_mask1 : firstn (128 + 64 * r) (true :: mask1) = (true :: firstn 127 head) ++ true :: repeat false (64 * r - 1).
Proof.
  assert (E : true :: mask1 = ((true :: firstn 127 head) ++ true :: repeat false (64 * r - 1)) ++ [false]).
  { unfold mask1. rewrite <- app_assoc. change (true :: head) with ((true :: firstn 127 head) ++ [true]). rewrite app_comm_cons.
    change (true :: head) with ((true :: firstn 127 head) ++ [true]). rewrite <- app_assoc. f_equal. cbn [app]. f_equal.
    change [false] with (repeat false 1). rewrite <- repeat_app. f_equal. lia. }
  rewrite E, firstn_app, firstn_all2 by (rewrite app_length; cbn [length]; rewrite repeat_length, firstn_length; change (length head) with 128%nat; lia).
  assert (L : length ((true :: firstn 127 head) ++ true :: repeat false (64 * r - 1)) = (128 + 64 * r)%nat)
    by (rewrite app_length; cbn [length]; rewrite repeat_length, firstn_length; change (length head) with 128%nat; lia).
  rewrite L, Nat.sub_diag, firstn_O, app_nil_r. reflexivity.
Qed.

Lemma fix_endless : rvd_fix rv mask1 (firstn (128 + 64 * r) (true :: mask1)) = NoFuel.
Proof.
  unfold rvd_fix. cbv zeta. rewrite shift_mask1, Hn. replace ((128 + 64 * r) / 8)%nat with (16 + 8 * r)%nat by lia.
  rewrite (repeat_app 0x55%N 16 (8 * r)), map_app, concat_app.
  unfold mask1 at 2. rewrite map2_app by reflexivity. rewrite map2_zero; [|reflexivity|cbn [length]; rewrite repeat_length; lia].
  rewrite map2_app by reflexivity. rewrite map2_zero; [|reflexivity|].
  - change (map2 andb (map2 (fun e s => e && negb s) head (true :: firstn 127 head)) (concat (map bits8 (repeat 85%N 16))))
      with (repeat false 126 ++ [true; false]). rewrite groups_endless. reflexivity.
  - replace (64 * r)%nat with (8 * (8 * r))%nat by lia. generalize (8 * r)%nat. clear. induction n as [|n IH]; [reflexivity|].
    cbn [repeat map concat]. rewrite app_length, IH. change (length (bits8 85)) with 8%nat. lia.
Qed.

Lemma escapes_endless : rvd_escapes rv (map negb mask1) mask1 1 = NoFuel.
Proof.
  assert (E : mask_lshift 1 1 (dvl rv) mask1 = firstn (dvl rv) (true :: mask1)).
  { apply (lshift1_ok (dvl rv) (16 + 8 * r) mask1 true); rewrite ?mask1_len; lia. }
  unfold rvd_escapes. rewrite E.
  rewrite and_negb, cpop_any, Hn.
  replace (existsb id _) with true; [rewrite fix_endless; reflexivity|].
  rewrite shift_mask1. reflexivity.
Qed.

(** ** The text *)

Definition text1 : list byte := (repeat EQS 64 ++ repeat x2a 62 ++ [EQS; EQS]) ++ repeat x2a (64 * r).

Lemma text1_len : length text1 = dvl rv.
Proof. unfold text1. rewrite app_length, repeat_length, Hn. reflexivity. Qed.

Lemma text1_eqs : map is_eq text1 = mask1 /\ map special text1 = mask1.
Proof.
  assert (H : forall n f, f x2a = false -> map f (repeat x2a n) = repeat false n).
  { intros n f Hf. induction n as [|n IH]; [reflexivity|]. cbn [repeat map]. rewrite Hf, IH. reflexivity. }
  unfold text1, mask1. rewrite !(map_app _ (_ ++ _)), !(H (64 * r)%nat) by reflexivity. split; reflexivity.
Qed.

Lemma block_endless B m p yo lf src i : bytes_at m (src + i) text1 -> rlo B <= src + i -> src + i + zlen text1 <= rhi B ->
  rvd_block rv false false B src i (p, 1%N, yo, lf) m = NoFuel.
Proof.
  intros Hm Hr1 Hr2. unfold rvd_block. erewrite bind_ok.
  2: { rewrite <- text1_len. apply load_n_ok; assumption. }
  cbv zeta. change (u8 61) with EQS. change (u8 13) with CR. change (u8 10) with LF.
  rewrite cmp_slow. change (fun b => beq b EQS) with is_eq. destruct text1_eqs as [-> ->].
  replace (negb (cpop (map negb mask1) =? Z.of_nat (dvl rv))) with true.
  - unfold rvd_newlines. cbn [orb andb]. unfold bind at 1. unfold ret at 1. cbv beta iota.
    unfold bind at 1. unfold lift at 1. rewrite escapes_endless. reflexivity.
  - unfold mask1. rewrite map_app, cpop_app, map_negb_repeat, cpop_ones, Hn. change (cpop (map negb head)) with 62. lia.
Qed.

Lemma kernel_endless B m src len p : 0 < len -> bytes_at m src text1 -> rlo B <= src -> src + zlen text1 <= rhi B ->
  do_decode_rvv rv false false B (src + len) len p 1 0 m = NoFuel.
Proof.
  intros Hl Hm Hr1 Hr2. unfold do_decode_rvv. cbn [Z.eqb negb andb nextMask_back]. cbv zeta. unfold bind at 1. unfold ret at 1. cbv beta iota.
  replace (Z.to_nat len) with (S (Z.to_nat len - 1)) by lia. cbn [block_loop]. replace (- len =? 0) with false by lia.
  unfold bind at 1. unfold bind at 1. change (Z.to_N 1) with 1%N.
  rewrite block_endless; [reflexivity|..]; replace (src + len + - len) with src by lia; assumption.
Qed.
End Endless.

(** ** The whole decoder *)

(** 65 '=', 62 others, "==", and others up to the length of two vectors. *)
Definition hang_text (k : nat) : list byte :=
  repeat EQS 65 ++ repeat x2a 62 ++ [EQS; EQS] ++ repeat x2a (64 * 2 ^ k - 128).

Lemma aligned_endless rv r c B m src dest l : dvl rv = (128 + 64 * r)%nat -> (2 + r = 8 * S c)%nat ->
  src mod 2 ^ rv_log rv = 0 -> bytes_at m src (text1 r ++ l) -> zlen l = 2 ^ rv_log rv ->
  rlo B <= src -> src + zlen (text1 r ++ l) <= rhi B ->
  simd_aligned (do_decode_rvv rv false false) false false (2 ^ rv_log rv) B src dest (zlen (text1 r ++ l)) S_EQ m = NoFuel.
Proof.
  intros Hn Hc Ha Hm Hl Hr1 Hr2. pose proof (w_ge _ (rv_log_1 rv)) as W. pose proof (dvl_pow rv) as D.
  assert (T : zlen (text1 r) = 2 ^ rv_log rv) by (unfold zlen; rewrite (text1_len rv r Hn); exact D).
  unfold simd_aligned, len_buffer. cbv zeta. rewrite zlen_app in *. rewrite T, Hl in *.
  replace (_ <? _) with true by lia. unfold simd_switch. unfold bind at 1. unfold ret at 1. cbv beta iota.
  rewrite align_down_pow2 by (pose proof (rv_log_1 rv); lia).
  replace (_ + _ - _ + _) with (2 * 2 ^ rv_log rv) by lia. rewrite Z_mod_mult. rewrite Z.sub_0_r.
  apply bytes_at_app in Hm. destruct Hm as [Hm _]. unfold bind at 1.
  rewrite (kernel_endless rv r c Hn Hc); [reflexivity|lia|exact Hm|exact Hr1|lia].
Qed.

Lemma decoder_endless rv : (4 <= d_log rv)%nat -> forall B m src dest,
  src mod Z.of_nat (dvl rv) = Z.of_nat (dvl rv) - 1 ->
  bytes_at m src (hang_text (d_log rv)) -> dgeom B src (zlen (hang_text (d_log rv))) dest ->
  do_decode_simd (do_decode_rvv rv false false) false false (2 ^ rv_log rv) B src dest (zlen (hang_text (d_log rv))) None m = NoFuel.
Proof.
  intros Hd B m src dest Ha Hm G.
  set (k := (2 ^ (d_log rv - 4))%nat).
  assert (Hk : (2 ^ d_log rv = 16 * k)%nat) by (unfold k; replace (d_log rv) with (4 + (d_log rv - 4))%nat at 1 by lia; rewrite Nat.pow_add_r; reflexivity).
  assert (K0 : (1 <= k)%nat) by (unfold k; pose proof (Nat.pow_nonzero 2 (d_log rv - 4)); lia).
  assert (Hn : dvl rv = (128 + 64 * (8 * k - 2))%nat) by (unfold dvl; rewrite Hk; lia).
  assert (Hc : (2 + (8 * k - 2) = 8 * S (k - 1))%nat) by lia.
  pose proof (dvl_pow rv) as D. pose proof (w_ge _ (rv_log_1 rv)) as W. rewrite D in Ha.
  assert (E : hang_text (d_log rv) = EQS :: text1 (8 * k - 2) ++ repeat x2a (dvl rv)).
  { unfold hang_text, text1. rewrite Hk, <- !app_assoc, <- repeat_app. rewrite Hn.
    replace (64 * (16 * k) - 128)%nat with (64 * (8 * k - 2) + (128 + 64 * (8 * k - 2)))%nat by lia. reflexivity. }
  rewrite E in *. clear E Hk. set (l := text1 (8 * k - 2) ++ repeat x2a (dvl rv)) in *.
  assert (Z2 : zlen l = 2 * 2 ^ rv_log rv).
  { unfold l. rewrite zlen_app. unfold zlen. rewrite repeat_length, (text1_len rv _ Hn). lia. }
  rewrite (zlen_cons EQS l) in *. unfold do_decode_simd. replace (_ <=? _) with false by lia. cbv zeta.
  rewrite land_pow2, align_down_pow2 by (pose proof (rv_log_1 rv); lia). rewrite Ha.
  replace (2 ^ rv_log rv - 1 =? 0) with false by lia. cbn [negb].
  assert (M : (src + (2 ^ rv_log rv - 1)) mod 2 ^ rv_log rv = 2 ^ rv_log rv - 2).
  { rewrite Zplus_mod, Ha, (Z.mod_small (_ - 1)) by lia.
    replace (_ - 1 + (_ - 1)) with (2 ^ rv_log rv - 2 + 1 * 2 ^ rv_log rv) by lia. rewrite Z_mod_plus_full. apply Z.mod_small. lia. }
  rewrite M. replace (src + _ - _ - src) with 1 by lia.
  change (EQS :: l) with ([EQS] ++ l) in Hm. apply bytes_at_app in Hm. destruct Hm as [Hm1 Hm2]. change (zlen [EQS]) with 1 in Hm2.
  destruct G as [G1 G2 G3 G4 G5].
  destruct (scalar_mode false false B src dest [EQS] m (Some S_CRLF)) as (m1 & o1 & s1 & e1 & rst & R & C & _ & F).
  { discriminate. }
  { change (zlen [EQS]) with 1. constructor; lia. }
  { exact Hm1. }
  injection R as <- <- <- <-. change (zlen [EQS]) with 1 in *. cbn [closes] in C.
  unfold bind at 1. erewrite bind_ok by exact C. cbv beta iota.
  change (src + 1 - zlen []) with (src + 1 - 0). rewrite Z.sub_0_r.
  replace (zlen l + 1 - 1) with (zlen l) by lia.
  match goal with |- context [simd_aligned ?K ?a ?b ?w ?B ?s ?d ?n ?st ?m] => enough (X : simd_aligned K a b w B s d n st m = NoFuel) by (rewrite X; reflexivity) end.
  apply (aligned_endless rv _ _ _ _ _ _ _ Hn Hc).
  - replace (src + 1) with (src - (2 ^ rv_log rv - 1) + 1 * 2 ^ rv_log rv) by lia. rewrite Z_mod_plus_full, Zminus_mod, Ha, (Z.mod_small (_ - 1)) by lia.
    rewrite Z.sub_diag. reflexivity.
  - fold l. revert Hm2. apply bytes_at_ext. intros q Hq. apply F. lia.
  - unfold zlen. rewrite repeat_length. exact D.
  - lia.
  - fold l. lia.
Qed.
