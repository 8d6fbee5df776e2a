(** The RVV kernel with vectors of 512 bits and more decodes some text wrongly,
    whatever the instructions leave in the elements they do not write. *)
From Verif Require Import Base BaseLemmas EncSpec DecSpec DecModel DecProofs DecText DecMaskSpec DecMaskModel DecMaskProofs
  DecSimdModel DecSimdSpec DecSimdProofs DecVec DecKernelModel DecBlock DecKernel DecVecProofs DecBlockFacts DecSseModel DecCompact DecSseProofs DecSseMain DecValid
  EncSseModel EncRvvModel DecRvvModel DecRvvProofs DecRvvMain.
From Coq Require Import ZifyBool ZifyNat ZifyN.
Ltac Zify.zify_post_hook ::= Z.div_mod_to_equations.

Section Exact.
Variables (rv : rvd) (r : nat).
Hypothesis Hn : dvl rv = (128 + 64 * r)%nat.
Hypothesis Hk : (2 + r < 8)%nat \/ exists k, (2 + r = 8 * k)%nat.

(** A vector that is zero but for four bits behind the first 64. *)
Definition shape (q : list bool) : list bool := repeat false 64 ++ q ++ repeat false (60 + 64 * r).

Lemma map2_app {A B C} (f : A -> B -> C) : forall a a' b b', length a = length b ->
  map2 f (a ++ a') (b ++ b') = map2 f a b ++ map2 f a' b'.
Proof. induction a as [|x a IH]; intros a' [|y b] b' H; try discriminate H; [reflexivity|]. cbn [app map2]. rewrite IH by (injection H as H; exact H). reflexivity. Qed.

Lemma map2_zero f n (Hf : forall b : bool, f false b = false) : forall b, length b = n -> map2 f (repeat false n) b = repeat false n.
Proof.
  induction n as [|n IH]; intros [|x b] H; try discriminate H; [reflexivity|]. cbn [repeat map2]. rewrite Hf, IH by (injection H as H; exact H). reflexivity.
Qed.

Lemma shape_map2 f q b : (forall b : bool, f false b = false) -> length q = 4%nat -> length b = (128 + 64 * r)%nat ->
  map2 f (shape q) b = shape (map2 f q (firstn 4 (skipn 64 b))).
Proof.
  intros Hf Hq Hb. unfold shape. rewrite <- (firstn_skipn 64 b) at 1. rewrite map2_app by (rewrite repeat_length, firstn_length; lia).
  rewrite map2_zero by (try assumption; rewrite firstn_length; lia). f_equal.
  rewrite <- (firstn_skipn 4 (skipn 64 b)) at 1. rewrite map2_app by (rewrite Hq, firstn_length, skipn_length; lia).
  rewrite map2_zero by (try assumption; rewrite !skipn_length; lia). reflexivity.
Qed.

Lemma shape_len q : length q = 4%nat -> length (shape q) = (128 + 64 * r)%nat.
Proof. intro H. unfold shape. rewrite !app_length, !repeat_length, H. lia. Qed.

Lemma mask_repeat n : mask_of (repeat false n) = 0%N.
Proof. clear Hn Hk. induction n as [|n IH]; [reflexivity|]. cbn [repeat mask_of]. rewrite IH. reflexivity. Qed.

Lemma elems_zero k : elems64 k (repeat false (64 * k)) = repeat 0%N k.
Proof. clear Hn Hk.
  induction k as [|k IH]; [reflexivity|]. cbn [elems64].
  replace (64 * S k)%nat with (64 + 64 * k)%nat by lia. rewrite repeat_app, firstn_app, skipn_app, repeat_length, Nat.sub_diag.
  rewrite (firstn_all2 (repeat false 64)), (skipn_all2 (repeat false 64)) by (rewrite repeat_length; lia).
  rewrite firstn_O, app_nil_r. cbn [app skipn]. rewrite IH, mask_repeat. reflexivity.
Qed.

Lemma elems_shape q : length q = 4%nat -> exists x, (x < 16)%N /\ elems64 (2 + r) (shape q) = 0%N :: x :: repeat 0%N r.
Proof.
  intro Hq. destruct q as [|a [|b [|c [|d [|? ?]]]]]; try discriminate Hq.
  exists (mask_of [a; b; c; d]). split; [destruct a, b, c, d; reflexivity|].
  unfold shape. change (2 + r)%nat with (S (S r)). cbn [elems64].
  rewrite (firstn_app 64), (skipn_app 64), repeat_length, Nat.sub_diag.
  rewrite (firstn_all2 (repeat false 64)), (skipn_all2 (repeat false 64)) by (rewrite repeat_length; lia).
  rewrite firstn_O, app_nil_r, mask_repeat, skipn_O. cbn [app].
  replace (repeat false (60 + 64 * r)) with (repeat false 60 ++ repeat false (64 * r)) by (rewrite <- repeat_app; reflexivity).
  change (a :: b :: c :: d :: repeat false 60 ++ repeat false (64 * r)) with ((a :: b :: c :: d :: repeat false 60) ++ repeat false (64 * r)).
  rewrite firstn_app, skipn_app. change (length (a :: b :: c :: d :: repeat false 60)) with 64%nat. rewrite Nat.sub_diag.
  rewrite (firstn_all2 (a :: _)), (skipn_all2 (a :: _)) by (cbn; lia). rewrite firstn_O, app_nil_r.
  change ([] ++ skipn 0 (repeat false (64 * r))) with (repeat false (64 * r)). rewrite elems_zero.
  do 2 f_equal.
Qed.

Lemma no_carries x y : (x < 16)%N -> (y < 16)%N ->
  map2 carry64 (0%N :: x :: repeat 0%N r) (0%N :: y :: repeat 0%N r) = repeat false (2 + r).
Proof.
  intros Hx Hy. cbn [map2 Nat.add repeat]. f_equal. f_equal.
  - unfold carry64. apply N.leb_gt. change (2 ^ 64)%N with 18446744073709551616%N. lia.
  - clear. induction r as [|k IH]; [reflexivity|]. cbn [repeat map2]. rewrite IH. reflexivity.
Qed.

Lemma cpop_zero n : cpop (repeat false n) = 0.
Proof. clear Hn Hk. induction n as [|n IH]; [reflexivity|]. cbn [repeat cpop]. lia. Qed.

(** The loop ends at once or never. *)
Lemma loop_short : (2 + r < 8)%nat -> forall fuel c odd odd', (c = mask_lshift64 rv (2 + r) c) ->
  carry_loop rv fuel (2 + r) c odd = Ok odd' -> odd' = odd.
Proof.
  intros H8 fuel c odd odd' Hc. assert (Hc' : c = map (d_carry rv) (seq 0 (2 + r))).
  { rewrite Hc. unfold mask_lshift64. replace (2 + r <? 8)%nat with true by lia. reflexivity. }
  destruct (0 <? cpop c) eqn:E.
  - intro H. exfalso. revert odd H; induction fuel as [|f IH]; intros odd H; cbn [carry_loop] in H; rewrite E in H; [discriminate H|].
    cbv zeta in H. unfold mask_lshift64 in H. replace (2 + r <? 8)%nat with true in H by lia. rewrite <- Hc' in H. exact (IH _ H).
  - destruct fuel; cbn [carry_loop]; rewrite E; intros [= <-]; reflexivity.
Qed.

Lemma loop_id odd odd' : carry_loop rv (d_rounds rv) (2 + r) (mask_lshift64 rv (2 + r) (repeat false (2 + r))) odd = Ok odd' -> odd' = odd.
Proof.
  destruct (Nat.lt_ge_cases (2 + r) 8) as [H8|H8].
  - apply loop_short; [exact H8|]. unfold mask_lshift64. replace (2 + r <? 8)%nat with true by lia. reflexivity.
  - destruct Hk as [Hk'|[k Hk']]; [lia|]. unfold mask_lshift64. replace (2 + r <? 8)%nat with false by lia.
    rewrite (lshift1_ok (2 + r) k _ false) by (try assumption; rewrite repeat_length; reflexivity).
    change (false :: repeat false (2 + r)) with (repeat false (S (2 + r))).
    replace (firstn (2 + r) (repeat false (S (2 + r)))) with (repeat false (2 + r)).
    + generalize (d_rounds rv). intros [|f]; cbn [carry_loop]; rewrite cpop_zero; cbn [Z.ltb]; intros [= <-]; reflexivity.
    + replace (S (2 + r)) with ((2 + r) + 1)%nat by lia. rewrite (repeat_app false (2 + r) 1), firstn_app, repeat_length, Nat.sub_diag, firstn_O, app_nil_r.
      symmetry. apply firstn_all2. rewrite repeat_length. lia.
Qed.

Lemma groups_bits qa qb og : length qa = 4%nat -> length qb = 4%nat -> odd_groups rv (shape qa) (shape qb) = Ok og ->
  length og = (128 + 64 * r)%nat /\ firstn 4 (skipn 64 og) = firstn 4 (bits64 (d_odd rv 1)).
Proof.
  intros Ha Hb. unfold odd_groups. rewrite Hn.
  replace (Nat.max 1 ((128 + 64 * r) / 64)) with (2 + r)%nat by lia.
  replace (64 - (128 + 64 * r))%nat with 0%nat by lia. cbn [seq map]. rewrite !app_nil_r. cbv zeta.
  destruct (elems_shape qa Ha) as (x & Hx & ->). destruct (elems_shape qb Hb) as (y & Hy & ->).
  rewrite no_carries by assumption. replace (128 + 64 * r <=? 64)%nat with false by lia.
  destruct (carry_loop _ _ _ _ _) as [odd| |] eqn:E; try discriminate. intro Hog.
  apply (f_equal (fun o => match o with Ok x => x | _ => [] end)) in Hog. cbv beta iota in Hog. subst og.
  apply loop_id in E. subst odd. replace (2 + r - 1)%nat with (S r) by lia. cbn [seq map concat].
  set (rest := concat (map bits64 (map (d_odd rv) (seq 2 r)))).
  assert (Hr : length rest = (64 * r)%nat).
  { unfold rest. rewrite <- (seq_length r 2) at 2. generalize (seq 2 r). clear. induction l as [|a l IH]; [reflexivity|].
    cbn [map concat]. rewrite app_length, IH, bits64_len. cbn [length]. lia. }
  split.
  - rewrite firstn_length, !app_length, !bits64_len. lia.
  - replace (128 + 64 * r)%nat with (64 + (4 + (60 + 64 * r)))%nat by lia. rewrite skipn_firstn_part, firstn_firstn.
    replace (Nat.min 4 _) with 4%nat by lia.
    rewrite skipn_app, bits64_len, Nat.sub_diag, (skipn_all2 (bits64 _)) by (rewrite bits64_len; lia). cbn [app]. unfold skipn.
    rewrite firstn_app, bits64_len. change (4 - 64)%nat with 0%nat. rewrite firstn_O, app_nil_r. reflexivity.
Qed.

Definition ev : list bool := concat (map bits8 (repeat 0x55%N (dvl rv / 8))).
Lemma ev_len : length ev = (128 + 64 * r)%nat.
Proof.
  unfold ev. rewrite Hn. replace ((128 + 64 * r) / 8)%nat with (16 + 8 * r)%nat by lia.
  replace (128 + 64 * r)%nat with (8 * (16 + 8 * r))%nat by lia. generalize (16 + 8 * r)%nat. clear. intro n.
  induction n as [|n IH]; [reflexivity|]. cbn [repeat map concat]. rewrite app_length, IH. change (length (bits8 85)) with 8%nat. lia.
Qed.
Lemma ev_bits : firstn 4 (skipn 64 ev) = [true; false; true; false].
Proof.
  unfold ev. rewrite Hn. replace ((128 + 64 * r) / 8)%nat with (9 + (7 + 8 * r))%nat by lia. rewrite repeat_app, map_app, concat_app.
  rewrite skipn_app. change (length (concat (map bits8 (repeat 85%N 9)))) with 72%nat. cbn [Nat.sub].
  rewrite firstn_app. replace (length _) with 8%nat by reflexivity. reflexivity.
Qed.

(** The leads found in a text with '=' only among the four characters. *)
Definition found (g : N) (q : list bool) : list bool :=
  map2 andb (map2 xorb (firstn 4 (bits64 g)) [true; false; true; false]) q.

Lemma map2_part {A B C} (f : A -> B -> C) : forall k n a b, firstn n (skipn k (map2 f a b)) = map2 f (firstn n (skipn k a)) (firstn n (skipn k b)).
Proof.
  induction k as [|k IH]; intros n a b.
  - cbn [skipn]. revert a b; induction n as [|n IHn]; intros a b; [reflexivity|]. destruct a as [|x a], b as [|y b]; try reflexivity.
    cbn [map2 firstn]. rewrite IHn. reflexivity.
  - destruct a as [|x a], b as [|y b]; cbn [skipn map2]; rewrite ?firstn_nil; try reflexivity; [|apply IH].
    destruct (firstn n (skipn k a)); reflexivity.
Qed.

Lemma fix_found q sh l : length q = 4%nat -> length sh = (128 + 64 * r)%nat -> rvd_fix rv (shape q) sh = Ok l ->
  l = shape (found (d_odd rv 1) q).
Proof.
  intros Hq Hs. unfold rvd_fix. fold ev. cbv zeta.
  rewrite (shape_map2 (fun e s => e && negb s)) by (try assumption; reflexivity).
  rewrite shape_map2; [|reflexivity|rewrite map2_len, firstn_length, skipn_length; lia|exact ev_len].
  destruct (odd_groups _ _ _) as [og| |] eqn:E; try discriminate. intros [= <-].
  apply groups_bits in E; [|exact Hq|rewrite !map2_len, !firstn_length, !skipn_length, ev_len; lia].
  destruct E as [E1 E2].
  assert (C : forall a b, map2 andb a b = map2 andb b a).
  { clear. induction a as [|x a IH]; intros [|y b]; try reflexivity. cbn [map2]. rewrite IH, andb_comm. reflexivity. }
  rewrite C, shape_map2; [|reflexivity|exact Hq|rewrite map2_len, ev_len; lia].
  unfold found. rewrite C, map2_part, E2, ev_bits. reflexivity.
Qed.

Lemma shape_shift q0 q1 q2 q3 : firstn (128 + 64 * r) (false :: shape [q0; q1; q2; q3]) =
  repeat false 64 ++ [false; q0; q1; q2] ++ [q3] ++ repeat false (59 + 64 * r).
Proof.
  assert (E : false :: shape [q0; q1; q2; q3] = (repeat false 64 ++ [false; q0; q1; q2] ++ [q3] ++ repeat false (59 + 64 * r)) ++ [false]).
  { unfold shape. rewrite <- !app_assoc. replace (60 + 64 * r)%nat with ((59 + 64 * r) + 1)%nat by lia. rewrite repeat_app. reflexivity. }
  rewrite E, firstn_app. rewrite firstn_all2; [|rewrite !app_length, !repeat_length; cbn [length]; lia].
  replace (_ - _)%nat with 0%nat by (rewrite !app_length, !repeat_length; cbn [length]; lia). rewrite firstn_O, app_nil_r. reflexivity.
Qed.

Lemma cpop_app a b : cpop (a ++ b) = cpop a + cpop b.
Proof. clear Hn Hk. induction a as [|x a IH]; [reflexivity|]. cbn [app cpop]. rewrite IH. lia. Qed.
Lemma cpop_ones n : cpop (repeat true n) = Z.of_nat n.
Proof. clear Hn Hk. induction n as [|n IH]; [reflexivity|]. cbn [repeat cpop]. lia. Qed.
Lemma or_ones n : forall a, length a = n -> map2 orb a (repeat true n) = repeat true n.
Proof. clear Hn Hk. induction n as [|n IH]; intros [|x a] H; try discriminate H; [reflexivity|]. cbn [repeat map2]. rewrite orb_true_r, IH by (injection H as H; exact H). reflexivity. Qed.

Lemma map_negb_repeat b n : map negb (repeat b n) = repeat (negb b) n.
Proof. clear Hn Hk. induction n as [|n IH]; [reflexivity|]. cbn [repeat map]. rewrite IH. reflexivity. Qed.

(** How many of the four characters are kept. *)
Definition kept (g : N) (q : list bool) : Z := cpop (map2 orb (firstn 4 (false :: found g q)) (map negb q)).

Lemma escapes_count q0 q1 q2 q3 x sh cmp : let q := [q0; q1; q2; q3] in
  q0 && q1 || q1 && q2 || q2 && q3 = true ->
  rvd_escapes rv (map negb (shape q)) (shape q) 0 = Ok (x, sh, cmp) ->
  cpop cmp = 124 + 64 * Z.of_nat r + kept (d_odd rv 1) q.
Proof.
  intros q Hq. unfold rvd_escapes.
  assert (H4 : length q = 4%nat) by reflexivity.
  assert (H8 : dvl rv = (8 * (16 + 8 * r))%nat) by (rewrite Hn; lia).
  rewrite (lshift1_ok (dvl rv) (16 + 8 * r) _ false H8) by (rewrite Hn; apply shape_len; exact H4). rewrite and_negb, cpop_any.
  replace (existsb id _) with true.
  2: { symmetry. rewrite Hn. unfold q at 2. rewrite shape_shift. unfold shape. rewrite map2_app by reflexivity.
       rewrite existsb_app. apply orb_true_iff. right. cbn [app q map2 existsb]. unfold id.
       destruct q0, q1, q2, q3; try discriminate Hq; reflexivity. }
  destruct (rvd_fix _ _ _) as [l| |] eqn:E; try discriminate. intro Hc.
  apply (f_equal (fun o => match o with Ok (_, _, x) => x | _ => [] end)) in Hc. cbv beta iota zeta in Hc. subst cmp.
  apply fix_found in E; [|exact H4|rewrite firstn_length; cbn [length]; rewrite shape_len by exact H4; lia]. subst l.
  set (g := d_odd rv 1).
  assert (Hf : length (found g q) = 4%nat) by reflexivity.
  rewrite (lshift1_ok (dvl rv) (16 + 8 * r) _ false H8) by (rewrite Hn; apply shape_len; exact Hf).
  unfold kept. destruct (found g q) as [|l0 [|l1 [|l2 [|l3 [|? ?]]]]]; try discriminate Hf. rewrite Hn, shape_shift.
  unfold shape. rewrite !map_app, !map_negb_repeat. cbn [negb].
  rewrite map2_app by reflexivity. rewrite (or_ones 64) by reflexivity. rewrite cpop_app, cpop_ones.
  rewrite map2_app by reflexivity. rewrite cpop_app.
  replace (60 + 64 * r)%nat with (1 + (59 + 64 * r))%nat by lia. rewrite or_ones by (rewrite app_length, repeat_length; reflexivity).
  rewrite cpop_ones. cbn [firstn]. lia.
Qed.

(** The text, four characters of it being '=' or not. *)
Definition eq_or (b : bool) : byte := if b then EQS else x2a.
Definition wrong_text (q : list bool) : list byte := repeat x2a 64 ++ map eq_or q ++ repeat x2a (60 + 64 * r).

Lemma text_eqs q : map is_eq (wrong_text q) = shape q /\ map special (wrong_text q) = shape q.
Proof.
  assert (H : forall n f, f x2a = false -> map f (repeat x2a n) = repeat false n).
  { intros n f Hf. induction n as [|n IH]; [reflexivity|]. cbn [repeat map]. rewrite Hf, IH. reflexivity. }
  unfold wrong_text, shape. rewrite !map_app, !H, !map_map by reflexivity.
  split; do 2 f_equal; (transitivity (map (fun b : bool => b) q); [apply map_ext; intros []; reflexivity|apply map_id]).
Qed.

Lemma text_len q : length q = 4%nat -> zlen (wrong_text q) = Z.of_nat (dvl rv).
Proof. intro H. unfold zlen, wrong_text. rewrite !app_length, !repeat_length, map_length, H, Hn. lia. Qed.

Lemma block_counts B m0 p yo lf x m1 q0 q1 q2 q3 src i : let q := [q0; q1; q2; q3] in
  q0 && q1 || q1 && q2 || q2 && q3 = true ->
  bytes_at m0 (src + i) (wrong_text q) -> rlo B <= src + i -> src + i + zlen (wrong_text q) <= rhi B ->
  rvd_block rv false false B src i (p, 0%N, yo, lf) m0 = Ok (x, m1) ->
  exists e y f, x = inr (p + (124 + 64 * Z.of_nat r + kept (d_odd rv 1) q), e, y, f).
Proof.
  intros q Hq Hm Hr1 Hr2 Eb. pose proof (text_len q eq_refl) as Hl.
  assert (HL : length (wrong_text q) = dvl rv) by (unfold zlen in Hl; lia).
  unfold rvd_block in Eb. erewrite bind_ok in Eb.
  2: { rewrite <- HL. apply load_n_ok; assumption. }
  cbv zeta in Eb. change (u8 61) with EQS in Eb. change (u8 13) with CR in Eb. change (u8 10) with LF in Eb.
  rewrite cmp_slow in Eb. change (fun b => beq b EQS) with is_eq in Eb.
  destruct (text_eqs q) as [T1 T2]. rewrite T1, T2 in Eb.
  destruct (negb (cpop (map negb (shape q)) =? Z.of_nat (dvl rv))) eqn:Ec.
  - unfold rvd_newlines in Eb. cbn [orb andb] in Eb. unfold bind at 1 in Eb. unfold ret at 1 in Eb. cbv beta iota in Eb.
    unfold bind at 1 in Eb. unfold lift at 1 in Eb.
    destruct (rvd_escapes rv (map negb (shape q)) (shape q) 0) as [[[e sh] cmp]| |] eqn:Ee; try discriminate Eb.
    apply (escapes_count q0 q1 q2 q3 e sh cmp Hq) in Ee. cbv beta iota in Eb.
    unfold bind in Eb. destruct (store_n _ _ _ _) as [[u mm]| |]; try discriminate Eb. cbv beta iota in Eb. unfold ret in Eb.
    rewrite Ee in Eb. injection Eb as <- _. eauto.
  - exfalso. rewrite Hn in Ec. unfold shape in Ec. rewrite !map_app, !map_negb_repeat, !cpop_app, !cpop_ones in Ec. cbn [negb] in Ec.
    assert (cpop (map negb q) <= 3) by (subst q; destruct q0, q1, q2, q3; try discriminate Hq; vm_compute; discriminate). lia.
Qed.

Lemma kernel_counts q0 q1 q2 q3 : let q := [q0; q1; q2; q3] in let t := wrong_text q in
  q0 && q1 || q1 && q2 || q2 && q3 = true ->
  kernel_ok false false (Z.of_nat (dvl rv)) (do_decode_rvv rv false false) ->
  zlen (fst (run_plain S_NONE t)) = 124 + 64 * Z.of_nat r + kept (d_odd rv 1) q.
Proof.
  intros q t Hq HK. pose proof (text_len q eq_refl) as Hl. fold t in Hl.
  assert (HL : length t = dvl rv) by (unfold zlen in Hl; lia).
  assert (H128 : (128 <= dvl rv)%nat) by lia. set (n := dvl rv) in *.
  set (B := {| rlo := 0; rhi := Z.of_nat n; wlo := Z.of_nat n; whi := 2 * Z.of_nat n |}).
  pose proof (bytes_at_mem_of 0 t) as Hm.
  destruct (HK B 0 (Z.of_nat n) t [] S_NONE (mem_of 0 t)) as (d1 & d2 & o & s1 & m' & E1 & E2 & E3 & _ & E4 & _ & _);
    rewrite ?app_nil_r, ?Hl; cbn [B rlo rhi wlo whi lookahead]; try (change (zlen (@nil byte)) with 0); try lia; try exact Hm.
  { rewrite Z_mod_same_full. reflexivity. }
  { reflexivity. }
  { left. reflexivity. }
  rewrite (E2 eq_refl), app_nil_r in E1. subst d1. rewrite E3. cbn [fst].
  assert (En : Z.to_nat (Z.of_nat n) = S (n - 1)) by lia.
  unfold do_decode_rvv in E4. rewrite Hl, app_nil_r in E4. cbn [esc_flag dot_next Z.eqb negb andb nextMask_back] in E4.
  cbv zeta in E4. unfold bind at 1 in E4. unfold ret at 1 in E4. cbv beta iota in E4.
  rewrite En in E4. cbn [block_loop] in E4. replace (- Z.of_nat n =? 0) with false in E4 by lia.
  unfold bind at 1 in E4. unfold bind at 1 in E4.
  destruct (rvd_block rv false false B (0 + Z.of_nat n) (- Z.of_nat n) _ (mem_of 0 t)) as [[x m1]| |] eqn:Eb in E4;
    try discriminate E4.
  apply (block_counts B (mem_of 0 t) _ _ _ x m1 q0 q1 q2 q3) in Eb as (e & y & f & ->); fold q; fold t;
    replace (0 + Z.of_nat n + - Z.of_nat n) with 0 by lia; try assumption; rewrite ?Hl; cbn [B rlo rhi]; try lia.
  fold q in E4. fold n in E4. replace (- Z.of_nat n + Z.of_nat n) with 0 in E4 by lia.
  set (st := (_, e, y, f)) in E4.
  replace (block_loop (n - 1) (Z.of_nat n) (rvd_block rv false false B (0 + Z.of_nat n)) 0 st) with
    (ret (A := option (Z * Z) * rvd_vars) (None, st)) in E4 by (destruct (n - 1)%nat; reflexivity).
  unfold ret, st in E4. cbv beta iota in E4.
  apply (f_equal (fun z => match z with Ok ((_, b, _, _), _) => b | _ => 0 end)) in E4. cbv beta iota in E4. lia.
Qed.

Lemma run_stars k : run_plain S_NONE (repeat x2a k) = (repeat x00 k, S_NONE).
Proof. clear Hn Hk. induction k as [|k IH]; [reflexivity|]. cbn [repeat]. rewrite run_plain_cons. change (step_plain S_NONE x2a) with ([x00], S_NONE). cbn [fst snd]. rewrite IH. reflexivity. Qed.

Lemma run_text q : snd (run_plain S_NONE (map eq_or q)) = S_NONE ->
  zlen (fst (run_plain S_NONE (wrong_text q))) = 124 + 64 * Z.of_nat r + zlen (fst (run_plain S_NONE (map eq_or q))).
Proof.
  intro Hs. unfold wrong_text. rewrite run_plain_app, run_stars. cbn [fst snd]. rewrite run_plain_app, Hs, run_stars. cbn [prep fst snd].
  rewrite !zlen_app. unfold zlen at 1 3. rewrite !repeat_length. lia.
Qed.

Lemma kernel_wrong : ~ kernel_ok false false (Z.of_nat (dvl rv)) (do_decode_rvv rv false false).
Proof.
  intro HK.
  pose proof (kernel_counts true true false false eq_refl HK) as H1. rewrite run_text in H1 by reflexivity.
  pose proof (kernel_counts false true true false eq_refl HK) as H2. rewrite run_text in H2 by reflexivity.
  pose proof (kernel_counts true true true false eq_refl HK) as H3. rewrite run_text in H3 by reflexivity.
  unfold kept, found in H1, H2, H3. set (b := firstn 4 (bits64 (d_odd rv 1))) in *.
  assert (Hb : length b = 4%nat) by reflexivity. clearbody b.
  apply Z.add_reg_l in H1, H2, H3.
  destruct b as [|b0 [|b1 [|b2 [|b3 [|? ?]]]]]; try discriminate Hb.
  destruct b0, b1, b2, b3; vm_compute in H1, H2, H3; discriminate.
Qed.
End Exact.

Theorem rvv_wrong rv : (2 <= d_log rv)%nat -> ~ kernel_ok false false (Z.of_nat (dvl rv)) (do_decode_rvv rv false false).
Proof.
  intro H. set (j := (d_log rv - 2)%nat).
  assert (Hd : dvl rv = (128 * 2 ^ j)%nat).
  { unfold dvl. replace (d_log rv) with (2 + j)%nat by lia. rewrite Nat.pow_add_r. change (2 ^ 2)%nat with 4%nat. lia. }
  assert (Hj : (1 <= 2 ^ j)%nat) by (pose proof (Nat.pow_nonzero 2 j); lia).
  apply (kernel_wrong rv (2 * 2 ^ j - 2)); [lia|].
  destruct j as [|[|j]]; [left; cbn; lia|left; cbn; lia|right].
  exists (2 ^ j)%nat. cbn [Nat.pow]. cbn [Nat.pow] in Hj. lia.
Qed.
