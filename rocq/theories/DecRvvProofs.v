(** Lemmas about the pieces of the RVV kernel of the decoder. *)
From Verif Require Import Base BaseLemmas EncSpec DecSpec DecModel DecProofs DecMaskSpec DecMaskModel DecMaskProofs
  DecSimdModel DecSimdSpec DecVec DecKernelModel DecBlock DecKernel DecVecProofs DecBlockFacts DecSseModel DecCompact DecSseProofs
  EncSseModel EncRvvModel DecRvvModel.
From Coq Require Import ZifyBool ZifyNat ZifyN.
Ltac Zify.zify_post_hook ::= Z.div_mod_to_equations.

(** ** Counting *)

Lemma cpop_nonneg l : 0 <= cpop l.
Proof. induction l as [|b l IH]; cbn [cpop]; [lia|]. destruct b; lia. Qed.

Lemma cpop_any l : (0 <? cpop l) = existsb id l.
Proof.
  induction l as [|b l IH]; [reflexivity|]. cbn [cpop existsb]. unfold id at 1. pose proof (cpop_nonneg l).
  destruct b; cbn [orb]; [lia|]. rewrite <- IH. reflexivity.
Qed.

Lemma cpop_keep l : cpop (map negb l) = nkeep l.
Proof. induction l as [|b l IH]; [reflexivity|]. cbn [map cpop]. rewrite nkeep_cons, IH. destruct b; cbn [negb]; lia. Qed.

Lemma nkeep_full l : nkeep l = zlen l <-> existsb id l = false.
Proof.
  induction l as [|b l IH]; [split; reflexivity|]. rewrite nkeep_cons, zlen_cons. cbn [existsb]. unfold id at 1.
  pose proof (nkeep_range l). destruct b; cbn [orb]; split; intro Hx; try lia; try discriminate; [apply IH; lia|apply IH in Hx; lia].
Qed.

Lemma compress_pick l : forall v, compress (map negb l) v = pick l v.
Proof. induction l as [|b l IH]; intros [|x v]; try reflexivity. cbn [map compress pick]. destruct b; cbn [negb]; rewrite IH; reflexivity. Qed.

(** ** Shifting a mask *)

Lemma bits8_mask l : length l = 8%nat -> bits8 (mask_of l) = l.
Proof.
  intro H. do 8 (destruct l as [|? l]; [discriminate|]). destruct l; [|discriminate].
  destruct b, b0, b1, b2, b3, b4, b5, b6; reflexivity.
Qed.

Lemma shift1_byte e l : length l = 8%nat ->
  bits8 (N.lor (uint 8 (N.shiftl (mask_of l) 1)) (N.b2n e)) = e :: firstn 7 l /\
  N.shiftr (mask_of l) 7 = N.b2n (nth 7 l false).
Proof.
  intro H. do 8 (destruct l as [|? l]; [discriminate|]). destruct l; [|discriminate].
  destruct e, b, b0, b1, b2, b3, b4, b5, b6; split; reflexivity.
Qed.

Lemma shift2_byte e f l : length l = 8%nat ->
  bits8 (N.lor (uint 8 (N.shiftl (mask_of l) 2)) (mask_of [e; f])) = e :: f :: firstn 6 l /\
  N.shiftr (mask_of l) 6 = mask_of [nth 6 l false; nth 7 l false].
Proof.
  intro H. do 8 (destruct l as [|? l]; [discriminate|]). destruct l; [|discriminate].
  destruct e, f, b, b0, b1, b2, b3, b4, b5, b6; split; reflexivity.
Qed.

Lemma mask_bytes_len k l : length (mask_bytes k l) = k.
Proof. revert l; induction k as [|k IH]; intro l; cbn [mask_bytes length]; [|rewrite IH]; reflexivity. Qed.

Lemma map2_firstn_r {A C D} (f : A -> C -> D) : forall x y n, length x = n -> map2 f x (firstn n y) = map2 f x y.
Proof.
  induction x as [|a x IH]; intros y n H; cbn [length] in H; subst n; [destruct y; reflexivity|].
  destruct y as [|b y]; [reflexivity|]. cbn [firstn map2]. rewrite IH by reflexivity. reflexivity.
Qed.

Lemma list8 (l : list bool) k : length l = (8 * S k)%nat -> exists a b, l = a ++ b /\ length a = 8%nat /\ length b = (8 * k)%nat.
Proof.
  intro H. exists (firstn 8 l), (skipn 8 l). rewrite firstn_skipn. split; [reflexivity|].
  rewrite firstn_length, skipn_length. lia.
Qed.

Lemma lshift1_aux k : forall l e, length l = (8 * k)%nat ->
  concat (map bits8 (map2 N.lor (map (fun b => uint 8 (N.shiftl b 1)) (mask_bytes k l))
    (N.b2n e :: map (fun b => N.shiftr b 7) (mask_bytes k l)))) = firstn (8 * k) (e :: l).
Proof.
  induction k as [|k IH]; intros l e H; [reflexivity|].
  destruct (list8 l k H) as (a & b & -> & Ha & Hb).
  cbn [mask_bytes]. rewrite firstn_app, (firstn_all2 a), Ha, Nat.sub_diag, firstn_O, app_nil_r by lia.
  rewrite (skipn_app_len a) by exact Ha. cbn [map map2 concat].
  destruct (shift1_byte e a Ha) as [-> ->]. rewrite (IH b _ Hb).
  replace (8 * S k)%nat with (S (7 + 8 * k)) by lia. rewrite firstn_cons.
  do 8 (destruct a as [|? a]; [discriminate|]). destruct a; [|discriminate]. reflexivity.
Qed.

Lemma lshift2_aux k : forall l e f, length l = (8 * k)%nat ->
  concat (map bits8 (map2 N.lor (map (fun b => uint 8 (N.shiftl b 2)) (mask_bytes k l))
    (mask_of [e; f] :: map (fun b => N.shiftr b 6) (mask_bytes k l)))) = firstn (8 * k) (e :: f :: l).
Proof.
  induction k as [|k IH]; intros l e f H; [reflexivity|].
  destruct (list8 l k H) as (a & b & -> & Ha & Hb).
  cbn [mask_bytes]. rewrite firstn_app, (firstn_all2 a), Ha, Nat.sub_diag, firstn_O, app_nil_r by lia.
  rewrite (skipn_app_len a) by exact Ha. cbn [map map2 concat].
  destruct (shift2_byte e f a Ha) as [-> ->]. rewrite (IH b _ _ Hb).
  replace (8 * S k)%nat with (S (S (6 + 8 * k))) by lia. rewrite !firstn_cons.
  do 8 (destruct a as [|? a]; [discriminate|]). destruct a; [|discriminate]. reflexivity.
Qed.

Lemma lshift1_ok n k l e : n = (8 * k)%nat -> length l = n -> mask_lshift 1 (N.b2n e) n l = firstn n (e :: l).
Proof.
  intros -> Hl. unfold mask_lshift, slide1up. replace (8 * k / 8)%nat with k by lia.
  rewrite map2_firstn_r by (rewrite !map_length; reflexivity). apply lshift1_aux. exact Hl.
Qed.

Lemma lshift2_ok n k l : n = (8 * k)%nat -> length l = n -> mask_lshift 2 0 n l = firstn n (false :: false :: l).
Proof.
  intros -> Hl. unfold mask_lshift, slide1up. replace (8 * k / 8)%nat with k by lia.
  rewrite map2_firstn_r by (rewrite !map_length; reflexivity). apply (lshift2_aux k l false false). exact Hl.
Qed.

(** ** Resolving escapes *)

Lemma bits64_len x : length (bits64 x) = 64%nat.
Proof. reflexivity. Qed.

Lemma bits64_mask n x : (n <= 64)%nat -> mask_of (firstn n (bits64 x)) = uint (N.of_nat n) x.
Proof.
  intro H. apply bits_ext32. intro i. rewrite mask_bit. unfold uint.
  destruct (Nat.lt_ge_cases i n) as [Hi|Hi].
  - rewrite N.mod_pow2_bits_low by lia.
    rewrite <- (firstn_skipn n (bits64 x)) at 1. rewrite firstn_app, firstn_firstn, Nat.min_id, firstn_length, bits64_len.
    replace (n - Nat.min n 64)%nat with 0%nat by lia. rewrite firstn_O, app_nil_r.
    replace (nth i (firstn n (bits64 x)) false) with (nth i (bits64 x) false).
    + unfold bits64. rewrite (nth_indep _ false (N.testbit x (N.of_nat 0))) by (rewrite map_length, seq_length; lia).
      rewrite (map_nth (fun i => N.testbit x (N.of_nat i))), seq_nth by lia. reflexivity.
    + rewrite <- (firstn_skipn n (bits64 x)) at 1. rewrite app_nth1; [reflexivity|]. rewrite firstn_length, bits64_len. lia.
  - rewrite N.mod_pow2_bits_high by lia. apply nth_overflow. rewrite firstn_length. lia.
Qed.

Lemma mask_xor a b : length a = length b -> N.lxor (mask_of a) (mask_of b) = mask_of (map2 xorb a b).
Proof. apply mask_map2; [intros; apply N.lxor_spec|reflexivity]. Qed.

Lemma dvl_small rv : (d_log rv <= 1)%nat -> dvl rv = 32%nat \/ dvl rv = 64%nat.
Proof. unfold dvl. destruct (d_log rv) as [|[|k]]; intro H; [left|right|lia]; reflexivity. Qed.

Lemma dvl_8 rv : exists k, dvl rv = (8 * k)%nat /\ (4 <= k)%nat.
Proof. exists (4 * 2 ^ d_log rv)%nat. unfold dvl. pose proof (Nat.pow_nonzero 2 (d_log rv) ltac:(lia)). lia. Qed.

Lemma uint_add w a b a' b' : uint w a = uint w a' -> uint w b = uint w b' -> uint w (a + b) = uint w (a' + b').
Proof.
  unfold uint. intros H1 H2. assert (2 ^ w <> 0)%N by (apply N.pow_nonzero; discriminate).
  rewrite (N.add_mod a), (N.add_mod a'), H1, H2 by assumption. reflexivity.
Qed.

Lemma fix_ok rv esc eqs : (d_log rv <= 1)%nat -> length eqs = dvl rv ->
  rvd_fix rv eqs (firstn (dvl rv) (esc :: eqs)) = Ok (leads esc eqs).
Proof.
  intros Hd Hl. set (n := dvl rv) in *. set (w := N.of_nat n).
  assert (Hn : n = 32%nat \/ n = 64%nat) by (apply dvl_small; exact Hd).
  unfold rvd_fix. fold n. set (ev := concat (map bits8 (repeat 85%N (n / 8)))).
  assert (Hev : length ev = n) by (unfold ev; destruct Hn as [-> | ->]; reflexivity).
  assert (Hevm : mask_of ev = uint w 0x5555555555555555) by (unfold ev, w; destruct Hn as [-> | ->]; reflexivity).
  set (sh := firstn n (esc :: eqs)). assert (Hsh : length sh = n) by (unfold sh; rewrite firstn_length; cbn [length]; lia).
  set (gs := map2 (fun e s => e && negb s) eqs sh). assert (Hgs : length gs = n) by (unfold gs; rewrite map2_len; lia).
  set (es := map2 andb gs ev). assert (Hes : length es = n) by (unfold es; rewrite map2_len; lia).
  unfold odd_groups. fold n. replace (Nat.max 1 (n / 64)) with 1%nat by (destruct Hn as [-> | ->]; reflexivity).
  cbn [elems64]. replace (n <=? 64)%nat with true by lia. cbn [Nat.sub seq map concat]. rewrite app_nil_r.
  set (pa := map (d_pad rv false) (seq 0 (64 - n))). set (pb := map (d_pad rv true) (seq 0 (64 - n))).
  assert (Hpa : length pa = (64 - n)%nat) by (unfold pa; rewrite map_length, seq_length; reflexivity).
  assert (Hpb : length pb = (64 - n)%nat) by (unfold pb; rewrite map_length, seq_length; reflexivity).
  rewrite (firstn_all2 (eqs ++ pa)), (firstn_all2 (es ++ pb)) by (rewrite app_length; lia).
  set (X := uint 64 (mask_of (eqs ++ pa) + mask_of (es ++ pb))).
  assert (HX : uint w X = uint w (mask_of eqs + mask_of es)).
  { transitivity (uint w (mask_of (eqs ++ pa) + mask_of (es ++ pb))).
    - unfold X, uint. rewrite <- (N.land_ones _ w), <- (N.land_ones _ 64), <- (N.land_ones _ w), <- N.land_assoc.
      f_equal. unfold w. destruct Hn as [-> | ->]; reflexivity.
    - apply uint_add; unfold w; rewrite !mask_uint; rewrite firstn_app.
      + rewrite Hl, Nat.sub_diag, firstn_O, app_nil_r. reflexivity.
      + rewrite Hes, Nat.sub_diag, firstn_O, app_nil_r. reflexivity. }
  f_equal. set (og := firstn n (bits64 X)).
  assert (Hog : length og = n) by (unfold og; rewrite firstn_length, bits64_len; lia).
  apply mask_inj. { rewrite !map2_len, leads_len. lia. }
  rewrite <- mask_and by (rewrite map2_len; lia). rewrite <- mask_xor by lia.
  unfold og. rewrite bits64_mask by lia. fold w. rewrite HX, Hevm.
  pose proof (fix_leads esc eqs ltac:(lia)) as Hfix. cbv zeta in Hfix. rewrite <- Hfix. rewrite Hl. fold n w.
  assert (E1 : uint w (mask_of (esc :: eqs)) = mask_of sh) by apply mask_uint.
  assert (E2 : unot w (mask_of sh) = mask_of (map negb sh)) by (apply (mask_not n); exact Hsh).
  unfold fix_eqMask. rewrite <- Hevm, E1, E2.
  rewrite !mask_and by (rewrite ?map2_len, ?map_length; lia).
  do 3 f_equal. f_equal. f_equal. unfold es, gs. f_equal.
  rewrite <- (map_id eqs) at 1. generalize eqs sh. clear. induction eqs as [|a eqs IH]; intros [|b sh]; try reflexivity.
  cbn [map map2]. rewrite <- IH. reflexivity.
Qed.

Lemma and_negb a : forall b, map2 (fun a b => a && negb b) a (map negb b) = map2 andb b a.
Proof. induction a as [|x a IH]; intros [|y b]; try reflexivity. cbn [map map2]. rewrite IH, negb_involutive, andb_comm. reflexivity. Qed.

Lemma or_negb a : forall b, map2 orb a (map negb b) = map negb (map2 (fun s e => s && negb e) b a).
Proof.
  induction a as [|x a IH]; intros [|y b]; try reflexivity. cbn [map map2]. rewrite IH. f_equal. destruct x, y; reflexivity.
Qed.

Lemma escapes_ok rv esc eqs sp :
  (d_log rv <= 1)%nat \/ existsb id (map2 andb sp (firstn (dvl rv) (esc :: eqs))) = false -> length eqs = dvl rv -> length sp = dvl rv ->
  Forall2 (fun e s : bool => e = true -> s = true) eqs sp ->
  rvd_escapes rv (map negb sp) eqs (N.b2n esc) =
    Ok (leads esc eqs, escs esc eqs, map negb (map2 (fun s e => s && negb e) sp (escs esc eqs))).
Proof.
  intros Hd Hl Hs Hf. destruct (dvl_8 rv) as (k & Hk & _). unfold rvd_escapes.
  rewrite !(lshift1_ok (dvl rv) k) by assumption. rewrite and_negb, cpop_any.
  destruct (existsb id (map2 andb sp (firstn (dvl rv) (esc :: eqs)))) eqn:E.
  - destruct Hd as [Hd|Hd]; [|discriminate Hd]. rewrite fix_ok by assumption. rewrite (lshift1_ok (dvl rv) k) by (rewrite ?leads_len; assumption).
    rewrite <- Hl, <- escs_leads, or_negb. reflexivity.
  - rewrite <- Hl in E. destruct (leads_simple eqs esc sp ltac:(lia) Hf E) as [E1 E2].
    rewrite E2, E1, escs_leads, E1, Hl. reflexivity.
Qed.

Definition roff (esc : bool) (n : nat) : vec := u8 (if esc then 106 else 42) :: repeat (u8 42) (n - 1).

Lemma sub_esc c : b_sub c (u8 106) = unescape c. Proof. destruct c; reflexivity. Qed.
Lemma sub_off c : b_sub c (u8 42) = unshift c. Proof. destruct c; reflexivity. Qed.

Lemma merge_off k : forall n, length k = n ->
  map2 (fun (b : bool) c => if b then u8 (64 + 42) else c) k (repeat (u8 42) n) = map (fun b : bool => if b then u8 106 else u8 42) k.
Proof.
  induction k as [|b k IH]; intros n H; cbn [length] in H; subst n; [reflexivity|].
  cbn [repeat map2 map]. rewrite IH by reflexivity. reflexivity.
Qed.

Lemma sub_dec : forall v k, length v = length k ->
  map2 b_sub v (map (fun b : bool => if b then u8 106 else u8 42) k) = map2 dec1 v k.
Proof.
  induction v as [|c v IH]; intros [|b k] H; cbn [length] in H; try lia; [reflexivity|].
  cbn [map map2]. rewrite IH by lia. f_equal. destruct b; [apply sub_esc|apply sub_off].
Qed.

Lemma unescape_rvv esc v n : length v = n -> (0 < n)%nat ->
  map2 b_sub v (map2 (fun (b : bool) c => if b then u8 (64 + 42) else c) (escs esc (map is_eq v)) (roff esc n)) = decoded esc v.
Proof.
  intros Hv Hn. change (decoded esc v) with (map2 dec1 v (escs esc (map is_eq v))).
  rewrite <- sub_dec by (rewrite escs_len, map_length; reflexivity). f_equal.
  destruct v as [|c v]; [cbn in Hv; lia|]. cbn [map escs map2 roff]. f_equal; [destruct esc; reflexivity|].
  apply merge_off. rewrite escs_len, map_length. cbn in Hv. lia.
Qed.

Lemma idle_rvv esc v n : length v = n -> (0 < n)%nat -> map2 b_sub v (roff esc n) = map2 dec1 v (esc :: repeat false (n - 1)).
Proof.
  intros Hv Hn. rewrite <- sub_dec by (cbn [length]; rewrite repeat_length; lia). f_equal. unfold roff. cbn [map].
  f_equal; [destruct esc; reflexivity|]. clear. induction (n - 1)%nat as [|k IH]; [reflexivity|]. cbn [repeat map]. rewrite IH. reflexivity.
Qed.

Lemma last_only esc l n : length l = n -> (0 < n)%nat ->
  Z.to_N (cpop (map2 andb (leads esc l) (map (fun b => beq b (u8 1)) (slide1down (repeat (u8 0) n) [u8 1])))) = N.b2n (lead_out esc l).
Proof.
  intros Hl Hn. unfold slide1down. cbn [length].
  replace (skipn 1 (repeat (u8 0) n)) with (repeat (u8 0) (n - 1)).
  2: { destruct n; [lia|]. cbn [repeat skipn]. f_equal. lia. }
  assert (Hk : length (leads esc l) = n) by (rewrite leads_len; exact Hl).
  unfold lead_out. destruct (exists_last (l := leads esc l)) as (y & c & Ey). { intros H. rewrite H in Hk. cbn in Hk. lia. }
  rewrite Ey in *.
  rewrite last_last. rewrite app_length in Hk. cbn [length] in Hk. rewrite map_app, map2_app by (rewrite map_length, repeat_length; lia).
  assert (E : map2 andb y (map (fun b => beq b (u8 1)) (repeat (u8 0) (n - 1))) = repeat false (length y)).
  { replace (n - 1)%nat with (length y) by lia. clear. induction y as [|b y IH]; [reflexivity|]. cbn [length repeat map map2].
    rewrite IH. rewrite andb_false_r. reflexivity. }
  rewrite E. assert (E2 : forall k z, cpop (repeat false k ++ z) = cpop z).
  { clear. induction k as [|k IH]; intro z; [reflexivity|]. cbn [repeat app cpop]. rewrite IH. reflexivity. }
  rewrite E2. destruct c; reflexivity.
Qed.

Lemma set_first_off esc e n : (0 < n)%nat -> set_first (roff esc n) (Z.lor 42 (Z.shiftl (Z.of_N (N.b2n e)) 6)) = roff e n.
Proof. intro H. unfold set_first, roff. cbn [tl]. destruct e; reflexivity. Qed.

(** ** Parts of the text *)

Lemma skipn_firstn_part {A} k n (t : list A) : skipn k (firstn (k + n) t) = firstn n (skipn k t).
Proof. revert t; induction k as [|k IH]; intro t; [reflexivity|]. destruct t as [|x t]; [rewrite ?skipn_nil, ?firstn_nil; reflexivity|]. apply IH. Qed.

Lemma slide_part j k n t w : (k <= n)%nat -> (j + k + n <= length t)%nat -> w = part (j + n) k t ->
  slide1down (part j n t) w = part (j + k) n t.
Proof.
  intros Hk Hl ->. unfold slide1down. rewrite part_len by lia. unfold part.
  assert (E : forall a b (l : list byte), skipn a (skipn b l) = skipn (b + a) l).
  { clear. intros a b. induction b as [|b IH]; intro l; [reflexivity|]. destruct l; [rewrite !skipn_nil; reflexivity|]. apply IH. }
  destruct (Nat.le_exists_sub k n Hk) as (a & -> & _). rewrite (Nat.add_comm a k).
  rewrite skipn_firstn_part, E. replace (j + (k + a))%nat with ((j + k) + a)%nat by lia. rewrite <- (E a (j + k)%nat t), (Nat.add_comm k a).
  generalize (skipn (j + k) t). clear.
  induction a as [|a IH]; intros [|x u]; try reflexivity; [cbn; rewrite ?firstn_nil; reflexivity|].
  cbn [firstn skipn Nat.add app]. rewrite IH. reflexivity.
Qed.
