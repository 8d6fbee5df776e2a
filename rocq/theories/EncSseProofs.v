(** The blocks of the SSE encoders write the text of 32 characters. *)
From Verif Require Import Base BaseLemmas EncNode EncNodeSpec EncNodeProofs EncSize DecMaskSpec DecMaskModel DecMaskProofs DecVec DecVecProofs DecCompact DecSseModel
  EncModel EncSpec EncProofs EncEnd EncSseModel EncBlock EncVec EncFlags EncSpread.
From Coq Require Import ZifyBool ZifyNat ZifyN.
Ltac Zify.zify_post_hook ::= Z.div_mod_to_equations.

(** ** Finding the characters to escape *)

Definition look (i : byte) : byte := if b_top i then x00 else nth (Z.to_nat (Z.land (bz i) 15)) esc_table x00.

Lemma look_mid c : beq (look (b_abs c)) c = must_escape false false c.
Proof. destruct c; vm_compute; reflexivity. Qed.
Lemma look_mid0 c : beq (look (b_adds (b_abs c) x00)) c = must_escape false false c.
Proof. destruct c; vm_compute; reflexivity. Qed.
Lemma look_first c : beq (look (b_adds (b_abs c) (u8 88))) c = must_escape true false c.
Proof. destruct c; vm_compute; reflexivity. Qed.

Lemma cmp_map (f : byte -> byte) (g : byte -> bool) v : (forall c, beq (f c) c = g c) -> v_cmpeq (map f v) v = vm (map g v).
Proof. intro H. unfold v_cmpeq, vm. induction v as [|c v IH]; [reflexivity|]. cbn [map map2]. rewrite IH, H. reflexivity. Qed.

Lemma adds_zero v : forall n, (length v <= n)%nat -> map2 b_adds (map b_abs v) (repeat x00 n) = map (fun c => b_adds (b_abs c) x00) v.
Proof. induction v as [|c v IH]; intros [|n] H; try reflexivity; cbn in H; [lia|]. cbn. rewrite IH by lia. reflexivity. Qed.

Lemma ssse3_cmp isa first v : e_fast isa = true -> length v = 16%nat -> sse_cmp isa first v = vm (esc_flags first v).
Proof.
  intros Hi Hv. unfold sse_cmp. rewrite Hi. cbv zeta. change (v_shuffle esc_table) with (map look). destruct first.
  - destruct v as [|c v]; [discriminate|]. unfold v_adds, v_abs. cbn [map].
    change (v_cvtsi32 88) with (u8 88 :: repeat x00 15). cbn [map2]. rewrite adds_zero by (cbn in Hv; lia).
    cbn [map]. unfold v_cmpeq. cbn [map2]. rewrite map_map. fold v_cmpeq. unfold esc_flags, vm. cbn [map]. f_equal.
    + f_equal. apply look_first.
    + apply cmp_map. exact look_mid0.
  - rewrite esc_flags_mid. unfold v_abs. rewrite map_map. apply cmp_map. exact look_mid.
Qed.

Lemma sse2_char c : (beq c (u8 (-42)) || beq c (u8 (10 - 42)) || (beq c (u8 (61 - 42)) || beq c (u8 (13 - 42)))) = must_escape false false c.
Proof. destruct c; vm_compute; reflexivity. Qed.

Lemma map2_orb {A} (f g : A -> bool) v : map2 orb (map f v) (map g v) = map (fun x => f x || g x) v.
Proof. induction v as [|c v IH]; [reflexivity|]. cbn. rewrite IH. reflexivity. Qed.

Lemma sse2_cmp isa first v : e_fast isa = false -> length v = 16%nat -> sse_cmp isa first v = vm (map (must_escape false false) v).
Proof.
  intros Hi Hv. unfold sse_cmp. rewrite Hi. unfold v_set1. rewrite !cmpeq_rep, !vm_or, !map2_orb by lia.
  f_equal. apply map_ext. exact sse2_char.
Qed.

Lemma first_mask c : (must_escape false false c || N.odd (eolFirstMask c)) = must_escape true false c /\ eolFirstMask c = N.b2n (N.odd (eolFirstMask c)).
Proof. destruct c; vm_compute; auto. Qed.

Lemma sse2_first c v : N.lor (mask_of (map (must_escape false false) (c :: v))) (eolFirstMask c) = mask_of (esc_flags true (c :: v)).
Proof.
  destruct (first_mask c) as [F1 F2]. rewrite F2. set (o := N.odd (eolFirstMask c)) in *.
  replace (N.b2n o) with (mask_of (o :: repeat false (length v))) by (cbn [mask_of]; rewrite mask_repeat0; lia).
  rewrite mask_or by (cbn [map length]; rewrite map_length, repeat_length; reflexivity).
  cbn [map map2 esc_flags]. rewrite F1. f_equal. f_equal.
  induction v as [|x v IH]; [reflexivity|]. cbn. rewrite IH, orb_false_r. reflexivity.
Qed.

(** ** Writing half a vector *)

Definition singles (n : nat) : list sym := map (fun j => [j]) (seq 0 n).

Ltac bits8 fs H := do 8 (destruct fs as [|[] fs]; [discriminate H| |]; try discriminate H); (destruct fs; [|discriminate H]).

Lemma plan_half d fs k P : length fs = 8%nat -> (k + 8 <= length d)%nat -> length P = 16%nat ->
  firstn (Z.to_nat (tot fs)) P = plan fs k ->
  exists junk, run_plan d P = expand fs (part k 8 d) ++ junk /\ zlen junk <= 8.
Proof.
  intros Hf Hd HP E. exists (run_plan d (skipn (Z.to_nat (tot fs)) P)).
  rewrite <- (firstn_skipn (Z.to_nat (tot fs)) P) at 1. rewrite run_plan_app, E. split.
  - f_equal. apply plan_ok; rewrite Hf; [reflexivity|]. apply part_len. exact Hd.
  - unfold run_plan, zlen. rewrite map_length, skipn_length. pose proof (tot_range fs). unfold zlen in *. lia.
Qed.

Lemma combine_len {A C} (x : list A) (y : list C) n : length x = n -> length y = n -> length (combine x y) = n.
Proof. intros. rewrite combine_length. lia. Qed.

Lemma row_len fs : length fs = 8%nat -> length (shuf_row (mask_of fs)) = 16%nat.
Proof. intro H. bits8 fs H; reflexivity. Qed.
Lemma mix_len fs : length fs = 8%nat -> length (mix_row (mask_of fs)) = 16%nat.
Proof. intro H. bits8 fs H; reflexivity. Qed.
Lemma shuf_plan fs : length fs = 8%nat ->
  firstn (Z.to_nat (tot fs)) (combine (s_shuffle (singles 16) (shuf_row (mask_of fs))) (mix_row (mask_of fs))) = plan fs 0 /\
  firstn (Z.to_nat (tot fs)) (combine (s_shuffle (singles 16) (v_or (shuf_row (mask_of fs)) (v_set1 8))) (mix_row (mask_of fs))) = plan fs 8.
Proof. intro H. bits8 fs H; vm_compute; split; reflexivity. Qed.

Lemma ssse3_half d fs : length d = 16%nat -> length fs = 8%nat ->
  (exists junk, v_add (v_shuffle d (shuf_row (mask_of fs))) (mix_row (mask_of fs)) = expand fs (part 0 8 d) ++ junk /\ zlen junk <= 8) /\
  (exists junk, v_add (v_shuffle d (v_or (shuf_row (mask_of fs)) (v_set1 8))) (mix_row (mask_of fs)) = expand fs (part 8 8 d) ++ junk /\ zlen junk <= 8).
Proof.
  intros Hd Hf. destruct (shuf_plan fs Hf) as [P1 P2].
  assert (E : forall r, v_shuffle d r = map (V d) (s_shuffle (singles 16) r)).
  { intro r. rewrite (text_sym d 16 Hd) at 1. apply v_shuffle_s. }
  rewrite !E, !run_plan_add. split; apply plan_half; auto; try lia; apply combine_len; auto using mix_len; unfold s_shuffle; rewrite map_length.
  - apply row_len. exact Hf.
  - unfold v_or. rewrite map2_len; rewrite row_len by exact Hf; reflexivity.
Qed.

(** [expand_bytes] on symbolic bytes. *)
Definition below (n : Z) (k : nat) : list bool := map (fun j => j <? n) (js k).

Fixpoint s_expand (fuel : nat) (mask : N) (a : list sym) : list sym :=
  match fuel with
  | O => a
  | S f =>
    if N.eqb mask 0 then a else
    let b := N.log2 mask in
    let mm := below (Z.of_N b) 0 in
    s_expand f (N.lxor mask (N.shiftl 1 b)) (s_or (s_and mm a) (s_slli (s_andnot mm a) 1))
  end.

Lemma maskmix_vm z k : maskmix_mask z k = vm (below z k).
Proof.
  unfold maskmix_mask, below, vm. rewrite map_map. apply map_ext. intro j. destruct (j <? z); reflexivity.
Qed.

Lemma ok_evex isa : enc_ok isa -> e_avx3 isa = true -> e_fast isa = true /\ f_popcnt isa = true.
Proof.
  intros [_ _ H] E. unfold e_avx3 in E. destruct H as [H1 H2]; [lia|]. split; [|exact H1]. unfold e_fast, e_ssse3.
  replace (0x200 <=? e_level isa) with true by lia. destruct (e_tune isa); try reflexivity; exfalso; apply H2; cbn; auto.
Qed.

Lemma ok_lz isa : enc_ok isa -> e_lzcnt isa = f_lzcnt isa.
Proof. intros [_ H _]. fold (f_lzcnt isa) in H. unfold e_lzcnt. destruct (f_lzcnt isa); [rewrite H; reflexivity|apply andb_false_r]. Qed.

(** The length of the text is known in one way or the other. *)
Lemma len_known isa : enc_ok isa -> e_set_len isa = false -> e_popcnt isa = true.
Proof.
  intros [H _ _]. fold (f_popcnt isa) in H. unfold e_set_len, e_popcnt. destruct (e_btver1 isa); [discriminate|]. cbn [orb negb]. rewrite andb_true_r.
  destruct (f_popcnt isa); [|discriminate]. rewrite H; reflexivity.
Qed.

(** Both ways to take the highest bit off a mask of 8 bits. *)
Lemma high_bit mask : (mask < 256)%N -> mask <> 0%N ->
  N.land mask (N.shiftr 0x7fffffff (Z.to_N (lzcnt32 mask))) = N.lxor mask (N.shiftl 1 (N.log2 mask)) /\
  (N.lxor mask (N.shiftl 1 (N.log2 mask)) < 256)%N /\ (N.log2 mask < 8)%N.
Proof.
  intros H H0.
  assert (E : forall k, (k < 256)%nat -> k <> O -> N.land (N.of_nat k) (N.shiftr 0x7fffffff (Z.to_N (lzcnt32 (N.of_nat k)))) = N.lxor (N.of_nat k) (N.shiftl 1 (N.log2 (N.of_nat k))) /\
     (N.lxor (N.of_nat k) (N.shiftl 1 (N.log2 (N.of_nat k))) < 256)%N).
  { assert (F : forallb (fun k => (Nat.eqb k O || N.eqb (N.land (N.of_nat k) (N.shiftr 0x7fffffff (Z.to_N (lzcnt32 (N.of_nat k))))) (N.lxor (N.of_nat k) (N.shiftl 1 (N.log2 (N.of_nat k))))
       && N.ltb (N.lxor (N.of_nat k) (N.shiftl 1 (N.log2 (N.of_nat k)))) 256)) (seq 0 256) = true) by (vm_compute; reflexivity).
    intros k Hk Hk0. rewrite forallb_forall in F. specialize (F k). rewrite in_seq in F. specialize (F ltac:(lia)).
    destruct (Nat.eqb k 0) eqn:Ek; [apply Nat.eqb_eq in Ek; contradiction|]. cbn [orb] in F. apply andb_prop in F as [F1 F2].
    apply N.eqb_eq in F1. apply N.ltb_lt in F2. auto. }
  specialize (E (N.to_nat mask)). rewrite N2Nat.id in E. destruct E as [E1 E2]; [lia|lia|]. split; [exact E1|]. split; [exact E2|].
  apply N.log2_lt_pow2; [lia|exact H].
Qed.

Lemma expand_bytes_s isa d f : enc_ok isa -> forall mask a, (mask < 256)%N -> expand_bytes isa f mask (map (V d) a) = map (V d) (s_expand f mask a).
Proof.
  intro Hok. induction f as [|f IH]; intros mask a Hm; [reflexivity|]. cbn [expand_bytes s_expand]. destruct (N.eqb mask 0) eqn:E0; [reflexivity|]. cbv zeta.
  apply N.eqb_neq in E0. destruct (high_bit mask Hm E0) as (H1 & H2 & H3).
  rewrite H1, (ok_lz isa Hok). unfold entry_n.
  assert (Hl : lzcnt32 mask = 31 - Z.of_N (N.log2 mask)) by (unfold lzcnt32; destruct (N.eqb mask 0) eqn:E; [apply N.eqb_eq in E; contradiction|reflexivity]).
  rewrite Hl. destruct (f_lzcnt isa).
  - cbv beta iota. destruct (31 - Z.of_N (N.log2 mask) =? 32) eqn:E; [lia|]. replace (31 - (31 - Z.of_N (N.log2 mask))) with (Z.of_N (N.log2 mask)) by lia.
    rewrite maskmix_vm, v_and_s, v_andnot_s, v_slli_s, v_or_s. apply IH. exact H2.
  - cbv beta iota. destruct (Z.of_N (N.log2 mask) + 1 =? 0) eqn:E; [lia|]. replace (Z.of_N (N.log2 mask) + 1 - 1) with (Z.of_N (N.log2 mask)) by lia.
    rewrite maskmix_vm, v_and_s, v_andnot_s, v_slli_s, v_or_s. apply IH. exact H2.
Qed.

Lemma mask8 fs : length fs = 8%nat -> (mask_of fs < 256)%N.
Proof. intro H. bits8 fs H; reflexivity. Qed.

Lemma expand_plan fs : length fs = 8%nat ->
  firstn (Z.to_nat (tot fs)) (combine (s_expand 8 (mask_of fs) (singles 16)) (mix_row (mask_of fs))) = plan fs 0 /\
  firstn (Z.to_nat (tot fs)) (combine (s_expand 8 (mask_of fs) (s_srli (singles 16) 8)) (mix_row (mask_of fs))) = plan fs 8 /\
  length (s_expand 8 (mask_of fs) (singles 16)) = 16%nat /\ length (s_expand 8 (mask_of fs) (s_srli (singles 16) 8)) = 16%nat.
Proof. intro H. bits8 fs H; vm_compute; repeat split; reflexivity. Qed.

Lemma sse2_half isa d fs : enc_ok isa -> length d = 16%nat -> length fs = 8%nat ->
  (exists junk, v_add (expand_bytes isa 8 (mask_of fs) d) (mix_row (mask_of fs)) = expand fs (part 0 8 d) ++ junk /\ zlen junk <= 8) /\
  (exists junk, v_add (expand_bytes isa 8 (mask_of fs) (v_srli d 8)) (mix_row (mask_of fs)) = expand fs (part 8 8 d) ++ junk /\ zlen junk <= 8).
Proof.
  intros Hok Hd Hf. destruct (expand_plan fs Hf) as (P1 & P2 & P3 & P4). pose proof (mask8 fs Hf) as H8.
  assert (E : expand_bytes isa 8 (mask_of fs) d = map (V d) (s_expand 8 (mask_of fs) (singles 16))).
  { rewrite (text_sym d 16 Hd) at 1. apply expand_bytes_s; assumption. }
  assert (E2 : expand_bytes isa 8 (mask_of fs) (v_srli d 8) = map (V d) (s_expand 8 (mask_of fs) (s_srli (singles 16) 8))).
  { rewrite (text_sym d 16 Hd) at 1. rewrite v_srli_s. apply expand_bytes_s; assumption. }
  rewrite E, E2, !run_plan_add. split; apply plan_half; auto; try lia; apply combine_len; auto using mix_len.
Qed.

Lemma sub42 v : length v = 16%nat -> v_sub v (v_set1 (-42)) = expand (repeat false 16) v.
Proof.
  unfold v_set1, v_sub. generalize 16%nat. intro n. revert n. induction v as [|c v IH]; intros [|n] H; try discriminate; [reflexivity|].
  cbn [repeat map2 expand]. rewrite IH by (cbn in H; lia). cbn [expand1 app]. f_equal. destruct c; reflexivity.
Qed.

(** ** Pieces of a block *)

Lemma part_split n k (t : list byte) : part 0 n t ++ part n k t = part 0 (n + k) t.
Proof.
  unfold part. cbn [skipn]. revert t; induction n as [|n IH]; intro t; [reflexivity|].
  destruct t as [|c t]; cbn [firstn skipn app Nat.add]; [apply firstn_nil|]. f_equal. apply IH.
Qed.

Lemma quad_some (a a' b b' c c' d d' : Z) : a = a' -> b = b' -> c = c' -> d = d' -> (Some a, b, c, d) = (Some a', b', c', d').
Proof. congruence. Qed.
Lemma quad (a a' b b' c c' d d' : Z) : a = a' -> b = b' -> c = c' -> d = d' -> (a, b, c, d) = (a', b', c', d').
Proof. congruence. Qed.

Lemma tri {A} (v : A) (b b' c c' : Z) : b = b' -> c = c' -> (v, b, c) = (v, b', c').
Proof. congruence. Qed.

Lemma eol_eq a a' b b' : a = a' -> b = b' -> Eol a b = Eol a' b'.
Proof. congruence. Qed.

Section Block.
Variable isa : enc_isa.
Hypothesis Hok : enc_ok isa.
Variable B : bufs.

(** [o] followed by at most 8 bytes has been written at [p]. *)
Definition wrote (m m' : mem) (p : Z) (o : list byte) (k : Z) : Prop :=
  exists junk, zlen junk <= k /\ forall x, m' x = put m p (o ++ junk) x.

Lemma wrote_nil m p : wrote m m p [] 0.
Proof. exists []. split; [cbv; congruence|reflexivity]. Qed.

Lemma wrote_store m m1 p q o v e junk k :
  wrote m m1 p o k -> v = e ++ junk -> k <= zlen v -> q = p + zlen o -> wlo B <= q -> q + zlen v <= whi B ->
  exists m2, store_n B q v m1 = Ok (tt, m2) /\ wrote m m2 p (o ++ e) (zlen junk).
Proof.
  intros (j & Hj & Hm) -> Hk -> H1 H2. eexists. split; [apply store_n_put; assumption|].
  exists junk. split; [lia|]. intro x. rewrite (put_next m m1 p o j (e ++ junk) Hm) by lia. rewrite app_assoc. reflexivity.
Qed.

Lemma wrote_weaken m m' p o k k' : k <= k' -> wrote m m' p o k -> wrote m m' p o k'.
Proof. intros H (j & Hj & Hm). exists j. split; [lia|exact Hm]. Qed.

Lemma half_len d fs k : length fs = 8%nat -> (k + 8 <= length d)%nat -> zlen (expand fs (part k 8 d)) = tot fs.
Proof. intros H1 H2. apply expand_len. rewrite part_len by lia. exact H1. Qed.

Lemma halves d f1 f2 : length d = 16%nat -> length f1 = 8%nat -> length f2 = 8%nat ->
  expand (f1 ++ f2) d = expand f1 (part 0 8 d) ++ expand f2 (part 8 8 d).
Proof.
  intros Hd H1 H2. rewrite <- expand_app by (rewrite part_len; lia). f_equal.
  rewrite part_split. unfold part. cbn [skipn]. symmetry. apply firstn_all2. cbn. lia.
Qed.

Lemma v_add_len a b : length a = 16%nat -> length b = 16%nat -> zlen (v_add a b) = 16.
Proof. intros Ha Hb. unfold v_add, zlen. rewrite map2_len; lia. Qed.

(** A store of 16 bytes of which the first are [e]. *)
Lemma store16_piece m m1 p q o v e : wrote m m1 p o 8 -> (exists junk, v = e ++ junk /\ zlen junk <= 8) -> zlen v = 16 ->
  q = p + zlen o -> wlo B <= q -> q + zlen e + 8 <= whi B ->
  exists m2, store_n B q v m1 = Ok (tt, m2) /\ wrote m m2 p (o ++ e) 8.
Proof.
  intros Hw (junk & E & Hj) Hv Hq H1 H2.
  assert (zlen v = zlen e + zlen junk) by (rewrite E; apply zlen_app).
  destruct (wrote_store m m1 p q o v e junk 8 Hw E) as (m2 & S & W); auto; try lia.
  exists m2. split; [exact S|]. eapply wrote_weaken; [|exact W]. lia.
Qed.

Lemma expand_store_run d f1 f2 p0 p m0 m o : length d = 16%nat -> length f1 = 8%nat -> length f2 = 8%nat ->
  wrote m0 m p0 o 8 -> p = p0 + zlen o -> wlo B <= p -> p + tot (f1 ++ f2) + 8 <= whi B ->
  exists m', expand_store_vector isa B d (mask_of (f1 ++ f2)) (mask_of f1) (mask_of f2) p m = Ok ((tot f1, tot (f1 ++ f2)), m') /\
    wrote m0 m' p0 (o ++ expand (f1 ++ f2) d) 8.
Proof.
  intros Hd H1 H2 Hw Hp Hlo Hhi. unfold expand_store_vector. rewrite !bits_plus8 by assumption. rewrite mask_eqb0, negb_involutive.
  pose proof (tot_range f1). pose proof (tot_range f2). rewrite tot_app in Hhi.
  assert (zlen f1 = 8) by (unfold zlen; lia). assert (zlen f2 = 8) by (unfold zlen; lia).
  destruct (existsb id (f1 ++ f2)) eqn:Ex.
  - cbv zeta. destruct (sse2_half isa d f1 Hok Hd H1) as [A1 _]. destruct (sse2_half isa d f2 Hok Hd H2) as [_ A2].
    destruct (expand_plan f1 H1) as (_ & _ & L1 & _). destruct (expand_plan f2 H2) as (_ & _ & _ & L2).
    assert (Z1 : zlen (v_add (expand_bytes isa 8 (mask_of f1) d) (mix_row (mask_of f1))) = 16).
    { apply v_add_len; [|apply mix_len; assumption]. rewrite (text_sym d 16 Hd) at 1. rewrite expand_bytes_s, map_length by (auto using mask8). exact L1. }
    assert (Z2 : zlen (v_add (expand_bytes isa 8 (mask_of f2) (v_srli d 8)) (mix_row (mask_of f2))) = 16).
    { apply v_add_len; [|apply mix_len; assumption]. rewrite (text_sym d 16 Hd) at 1. rewrite v_srli_s, expand_bytes_s, map_length by (auto using mask8). exact L2. }
    pose proof (half_len d f1 0 H1 ltac:(lia)) as HL1. pose proof (half_len d f2 8 H2 ltac:(lia)) as HL2.
    destruct (store16_piece m0 m p0 p o _ _ Hw A1 Z1) as (m1 & S1 & W1); auto; try lia.
    destruct (store16_piece m0 m1 p0 (p + tot f1) _ _ _ W1 A2 Z2) as (m2 & S2 & W2); auto; try lia.
    { rewrite zlen_app. lia. }
    exists m2. erewrite bind_ok by exact S1. erewrite bind_ok by exact S2. unfold ret. rewrite tot_app. split; [reflexivity|].
    rewrite halves, app_assoc by assumption. exact W2.
  - assert (Ef : f1 ++ f2 = repeat false 16).
    { rewrite (tot_none (f1 ++ f2)); [f_equal; rewrite app_length; lia|].
      assert (M : mask_of (f1 ++ f2) = 0%N) by (apply mask_zero; exact Ex).
      pose proof (popcount_tot (f1 ++ f2)) as P. rewrite M in P. change (popcount 0) with 0 in P. lia. }
    assert (T1 : tot (f1 ++ f2) = 16) by (rewrite Ef; reflexivity). rewrite tot_app in T1.
    assert (tot f1 = 8) by lia. rewrite T1 in Hhi. rewrite Ef, sub42 by exact Hd.
    assert (Hlen : zlen (expand (repeat false 16) d) = 16) by (rewrite expand_len by (rewrite repeat_length; lia); reflexivity).
    destruct (store16_piece m0 m p0 p o (expand (repeat false 16) d) (expand (repeat false 16) d) Hw) as (m1 & S1 & W1); auto; try lia.
    { exists []. rewrite app_nil_r. split; [reflexivity|cbv; congruence]. }
    exists m1. erewrite bind_ok by exact S1. split; [|exact W1]. unfold ret. do 3 f_equal. lia.
Qed.

Lemma mask_half f1 f2 : length f1 = 8%nat -> length f2 = 8%nat ->
  N.land (mask_of (f1 ++ f2)) 0xff = mask_of f1 /\ N.shiftr (mask_of (f1 ++ f2)) 8 = mask_of f2.
Proof.
  intros H1 H2. change 0xff%N with (N.ones (N.of_nat 8)). change 8%N with (N.of_nat 8). rewrite mask_low, mask_shiftr.
  rewrite firstn_app, skipn_app, H1, Nat.sub_diag, firstn_O, skipn_O, app_nil_r, (firstn_all2 f1), (skipn_all2 f1) by lia. split; reflexivity.
Qed.

(** The vectors of the slow path from SSSE3 on. *)
Definition starts (v : vec) (fs : list bool) (d : list byte) : Prop :=
  (exists junk, v = expand fs d ++ junk /\ zlen junk <= 8) /\ zlen v = 16.

Lemma adj_part fs d k n : length fs = length d -> firstn n (skipn k (adj fs d)) = adj (firstn n (skipn k fs)) (part k n d).
Proof.
  unfold part, adj. revert fs d. induction k as [|k IH]; intros fs d H.
  - cbn [skipn]. revert fs d H. induction n as [|n IH]; intros [|f fs] [|c d] H; try discriminate; try reflexivity. cbn [map2 firstn]. rewrite IH by (cbn in H; lia). reflexivity.
  - destruct fs as [|f fs], d as [|c d]; try discriminate; [rewrite !skipn_nil, !firstn_nil; reflexivity|]. cbn [map2 skipn]. apply IH. cbn in H. lia.
Qed.

Lemma y_expand_len src : forall k a, length (y_expand src k a) = length src.
Proof. induction src as [|c src IH]; intros k a; [reflexivity|]. cbn [y_expand]. destruct (N.odd k); cbn [length]; rewrite IH; reflexivity. Qed.

Lemma vbmi2_half fs a d : length fs = 8%nat -> (8 <= length a)%nat -> firstn 8 a = adj fs d -> length d = 8%nat ->
  starts (y_expand (v_set1 61) (expand_mask (mask_of fs)) a) fs d.
Proof.
  intros Hf Ha E Hd. pose proof (tot_range fs) as Ht. assert (zlen fs = 8) by (unfold zlen; lia).
  split; [|unfold zlen; rewrite y_expand_len; reflexivity].
  assert (Em : expand_mask (mask_of fs) = mask_of (map negb (eqs fs))).
  { unfold expand_mask. rewrite <- Hf at 1. rewrite expand_fill_ok. apply N.shiftl_0_r. }
  assert (Ef : map negb (eqs fs) = firstn 16 (map negb (eqs fs))).
  { symmetry. apply firstn_all2. rewrite map_length. pose proof (eqs_len fs). unfold zlen in *. lia. }
  rewrite Em, Ef. change (v_set1 61) with (repeat EQS 16). rewrite y_expand_ok with (k := 16%nat) by lia.
  assert (Es : spread fs a = expand fs d).
  { rewrite expand_spread, <- E. rewrite <- (firstn_skipn 8 a) at 1. apply spread_more. rewrite firstn_length. lia. }
  rewrite Es. assert (Hs : zlen (expand fs d) = tot fs) by (apply expand_len; lia).
  rewrite firstn_app, firstn_all2 by (unfold zlen in *; lia). eexists. split; [reflexivity|].
  unfold zlen in *. rewrite firstn_length, repeat_length. lia.
Qed.

Lemma slow_vectors_run da db cmpA cmpB f1 f2 f3 f4 :
  length da = 16%nat -> length db = 16%nat ->
  length f1 = 8%nat -> length f2 = 8%nat -> length f3 = 8%nat -> length f4 = 8%nat ->
  (e_vbmi2 isa = true -> sse_shift da cmpA = adj (f1 ++ f2) da /\ sse_shift db cmpB = adj (f3 ++ f4) db) ->
  exists v1 v2 v3 v4, sse_slow_vectors isa da db cmpA cmpB (mask_of f1) (mask_of f2) (mask_of f3) (mask_of f4) = (v1, v2, v3, v4) /\
    starts v1 f1 (part 0 8 da) /\ starts v2 f2 (part 8 8 da) /\ starts v3 f3 (part 0 8 db) /\ starts v4 f4 (part 8 8 db).
Proof.
  intros Ha Hb H1 H2 H3 H4 Hsh. unfold sse_slow_vectors.
  destruct (e_vbmi2 isa); do 4 eexists; (split; [reflexivity|]).
  - destruct (Hsh eq_refl) as [Ea Eb]. rewrite Ea, Eb.
    assert (P : forall g1 g2 d, length d = 16%nat -> length g1 = 8%nat -> length g2 = 8%nat ->
       starts (y_expand (v_set1 61) (expand_mask (mask_of g1)) (adj (g1 ++ g2) d)) g1 (part 0 8 d) /\
       starts (y_expand (v_set1 61) (expand_mask (mask_of g2)) (v_srli (adj (g1 ++ g2) d) 8)) g2 (part 8 8 d)).
    { intros g1 g2 d Hd G1 G2. assert (Hl : length (g1 ++ g2) = length d) by (rewrite app_length; lia).
      assert (La : length (adj (g1 ++ g2) d) = 16%nat) by (rewrite adj_len; lia). split; apply vbmi2_half; auto.
      - lia.
      - pose proof (adj_part (g1 ++ g2) d 0 8 Hl) as Q. cbn [skipn] in Q. rewrite firstn_app, G1, Nat.sub_diag, firstn_O, app_nil_r, (firstn_all2 g1) in Q by lia. exact Q.
      - apply part_len. lia.
      - unfold v_srli. rewrite app_length, skipn_length, repeat_length. lia.
      - unfold v_srli. rewrite firstn_app, skipn_length, La. cbn [Nat.sub firstn]. rewrite app_nil_r.
        pose proof (adj_part (g1 ++ g2) d 8 8 Hl) as Q. rewrite skipn_app, G1, Nat.sub_diag, skipn_O, (skipn_all2 g1), app_nil_l, (firstn_all2 g2) in Q by lia. exact Q.
      - apply part_len. lia. }
    destruct (P f1 f2 da Ha H1 H2). destruct (P f3 f4 db Hb H3 H4). auto.
  - assert (Zl : forall d f, length f = 8%nat -> zlen (v_add (v_shuffle d (shuf_row (mask_of f))) (mix_row (mask_of f))) = 16).
    { intros d f Hf. apply v_add_len; [|apply mix_len; assumption]. unfold v_shuffle. rewrite map_length. apply row_len. exact Hf. }
    assert (Zh : forall d f, length f = 8%nat -> zlen (v_add (v_shuffle d (v_or (shuf_row (mask_of f)) (v_set1 8))) (mix_row (mask_of f))) = 16).
    { intros d f Hf. apply v_add_len; [|apply mix_len; assumption]. unfold v_shuffle, v_or. rewrite map_length, map2_len; rewrite row_len by exact Hf; reflexivity. }
    destruct (ssse3_half da f1 Ha H1) as [A1 _]. destruct (ssse3_half da f2 Ha H2) as [_ A2].
    destruct (ssse3_half db f3 Hb H3) as [A3 _]. destruct (ssse3_half db f4 Hb H4) as [_ A4].
    unfold starts. auto 10.
Qed.

Lemma slow_store_run p m da db cmpA cmpB f1 f2 f3 f4 :
  length da = 16%nat -> length db = 16%nat ->
  length f1 = 8%nat -> length f2 = 8%nat -> length f3 = 8%nat -> length f4 = 8%nat ->
  (e_vbmi2 isa = true -> sse_shift da cmpA = adj (f1 ++ f2) da /\ sse_shift db cmpB = adj (f3 ++ f4) db) ->
  let fs := (f1 ++ f2) ++ f3 ++ f4 in
  wlo B <= p -> p + tot fs + 8 <= whi B ->
  exists m', sse_slow_store isa B p da db cmpA cmpB (mask_of (f1 ++ f2)) (mask_of (f3 ++ f4)) (if e_popcnt isa then Some (tot fs) else None) m =
      Ok ((tot fs, tot f1, tot (f1 ++ f2), tot (f1 ++ f2) + tot f3), m') /\
    wrote m m' p (expand fs (da ++ db)) 8.
Proof.
  intros Ha Hb H1 H2 H3 H4 Hsh fs Hlo Hhi. unfold sse_slow_store. cbv zeta.
  destruct (mask_half f1 f2 H1 H2) as [-> ->]. destruct (mask_half f3 f4 H3 H4) as [-> ->].
  assert (Ht : tot fs = tot (f1 ++ f2) + tot (f3 ++ f4)) by (unfold fs; rewrite !tot_app; lia).
  assert (Hp2 : popcount (mask_of (f1 ++ f2)) + 16 = tot (f1 ++ f2)).
  { rewrite popcount_tot. unfold zlen. rewrite !app_length, H1, H2. cbn. lia. }
  assert (He : expand fs (da ++ db) = expand (f1 ++ f2) da ++ expand (f3 ++ f4) db).
  { unfold fs. apply expand_app. rewrite app_length. lia. }
  pose proof (tot_range f1). pose proof (tot_range f2). pose proof (tot_range f3). pose proof (tot_range f4).
  assert (zlen f1 = 8) by (unfold zlen; lia). assert (zlen f2 = 8) by (unfold zlen; lia).
  assert (zlen f3 = 8) by (unfold zlen; lia). assert (zlen f4 = 8) by (unfold zlen; lia).
  assert (Hw : wrote m m p [] 8) by (eapply wrote_weaken; [|apply wrote_nil]; lia).
  destruct (e_ssse3 isa) eqn:Es.
  - destruct (slow_vectors_run da db cmpA cmpB f1 f2 f3 f4 Ha Hb H1 H2 H3 H4 Hsh) as (v1 & v2 & v3 & v4 & -> & [A1 Z1] & [A2 Z2] & [A3 Z3] & [A4 Z4]).
    rewrite !bits_plus8 by assumption. rewrite Hp2.
    assert (El : (if e_popcnt isa
        then (if e_popcnt isa then Some (tot fs) else None, tot f1, tot (f1 ++ f2), tot f3 + tot (f1 ++ f2))
        else (Some (tot f1 + tot f2 + tot f3 + tot f4), tot f1, tot f1 + tot f2, tot f1 + tot f2 + tot f3)) =
        (Some (tot fs), tot f1, tot (f1 ++ f2), tot (f1 ++ f2) + tot f3)).
    { unfold fs. rewrite !tot_app. destruct (e_popcnt isa); apply quad_some; lia. }
    rewrite El. clear El.
    pose proof (half_len da f1 0 H1 ltac:(lia)) as HL1. pose proof (half_len da f2 8 H2 ltac:(lia)) as HL2.
    pose proof (half_len db f3 0 H3 ltac:(lia)) as HL3. pose proof (half_len db f4 8 H4 ltac:(lia)) as HL4.
    rewrite !tot_app in *.
    destruct (store16_piece m m p p [] _ _ Hw A1 Z1) as (m1 & S1 & W1); auto; try lia.
    { change (zlen (@nil byte)) with 0. lia. }
    destruct (store16_piece m m1 p (p + tot f1) _ _ _ W1 A2 Z2) as (m2 & S2 & W2); auto; try lia.
    { rewrite !zlen_app. change (zlen (@nil byte)) with 0. lia. }
    destruct (store16_piece m m2 p (p + (tot f1 + tot f2)) _ _ _ W2 A3 Z3) as (m3 & S3 & W3); auto; try lia.
    { rewrite !zlen_app. change (zlen (@nil byte)) with 0. lia. }
    destruct (store16_piece m m3 p (p + (tot f1 + tot f2 + tot f3)) _ _ _ W3 A4 Z4) as (m4 & S4 & W4); auto; try lia.
    { rewrite !zlen_app. change (zlen (@nil byte)) with 0. lia. }
    exists m4. erewrite bind_ok by exact S1. erewrite bind_ok by exact S2. erewrite bind_ok by exact S3. erewrite bind_ok by exact S4.
    split; [reflexivity|]. rewrite He, (halves da), (halves db) by assumption. rewrite <- !app_assoc in W4. cbn [app] in W4.
    rewrite <- !app_assoc. exact W4.
  - destruct (expand_store_run da f1 f2 p p m m [] Ha H1 H2 Hw) as (m1 & S1 & W1); try lia.
    { change (zlen (@nil byte)) with 0. lia. }
    { rewrite !tot_app in *. lia. }
    erewrite bind_ok by exact S1. cbv beta iota.
    assert (HL1 : zlen (expand (f1 ++ f2) da) = tot (f1 ++ f2)) by (apply expand_len; rewrite app_length; lia).
    destruct (expand_store_run db f3 f4 p (p + tot (f1 ++ f2)) m m1 _ Hb H3 H4 W1) as (m2 & S2 & W2).
    { rewrite app_nil_l, HL1. reflexivity. }
    { rewrite !tot_app in *. lia. }
    { rewrite !tot_app in *. lia. }
    erewrite bind_ok by exact S2. cbv beta iota.
    exists m2. split; [|rewrite He; exact W2].
    assert (Eo : (if e_set_len isa then Some (tot (f1 ++ f2) + tot (f3 ++ f4)) else if e_popcnt isa then Some (tot fs) else None) = Some (tot fs)).
    { rewrite Ht. pose proof (len_known isa Hok) as K. destruct (e_set_len isa); [reflexivity|]. rewrite K by reflexivity. reflexivity. }
    rewrite Eo. cbn [given]. erewrite bind_ok by reflexivity. unfold ret. f_equal. f_equal. apply quad; lia.
Qed.

(** ** The end of the line in the slow path *)

Lemma row_eqs fs : length fs = 8%nat ->
  v_movemask (shuf_row (mask_of fs)) = mask_of (eqs fs) /\ v_movemask (v_or (shuf_row (mask_of fs)) (v_set1 8)) = mask_of (eqs fs) /\
  expand_mask (mask_of fs) = mask_of (map negb (eqs fs)).
Proof. intro H. bits8 fs H; vm_compute; auto. Qed.

Lemma join32 a b n m : n = zlen a -> zlen a + zlen b <= 32 -> n < 32 ->
  (hi <- shl32 (mask_of b) n ;; ret (N.lor hi (mask_of a))) m = Ok (mask_of (a ++ b), m).
Proof.
  intros -> Hl Hn. unfold shl32. pose proof (zlen_nonneg a). destruct ((0 <=? zlen a) && (zlen a <? 32)) eqn:E; [|lia].
  assert (Eu : uint 32 (N.shiftl (mask_of b) (Z.to_N (zlen a))) = N.shiftl (mask_of b) (N.of_nat (length a))).
  { replace (Z.to_N (zlen a)) with (N.of_nat (length a)) by (unfold zlen; lia). rewrite mask_shiftl.
    change 32%N with (N.of_nat 32). rewrite mask_uint, firstn_all2; [reflexivity|]. rewrite app_length, repeat_length. unfold zlen in *. lia. }
  unfold bind, ret. rewrite Eu, N.lor_comm, mask_app. reflexivity.
Qed.

Lemma bind_pair (X : M N) (f : N -> N) (v : N) m m' (a b : Z) : (hi <- X ;; ret (f hi)) m = Ok (v, m') ->
  (hi <- X ;; ret (f hi, a, b)) m = Ok ((v, a, b), m').
Proof. unfold bind, ret. destruct (X m) as [[y m1]| |]; congruence. Qed.

Lemma count_ok l : (length l <= 32)%nat -> sse_count isa (mask_of l) = tot l - zlen l.
Proof.
  intro H. unfold sse_count. destruct (e_popcnt_eol isa); [apply popcount_tot|]. apply count_bytes. exact H.
Qed.

(** The half of the block with the end of the line. *)
Lemma shr_run l n m : 0 <= n < 32 -> shr32 (mask_of l) n m = Ok (mask_of (skipn (Z.to_nat n) l), m).
Proof.
  intro H. unfold shr32. destruct ((0 <=? n) && (n <? 32)) eqn:E; [|lia]. unfold ret.
  replace (Z.to_N n) with (N.of_nat (Z.to_nat n)) by lia. rewrite mask_shiftr. reflexivity.
Qed.

Definition eqbits (fh : list bool) : list bool := if e_emask isa then map negb (eqs fh) else eqs fh.

Lemma eq_half_run fa fb n m : length fa = 8%nat -> length fb = 8%nat -> n = tot fa ->
  (if e_emask isa then hi <- shl32 (expand_mask (mask_of fb)) n ;; ret (N.lor hi (expand_mask (mask_of fa)))
   else hi <- shl32 (v_movemask (v_or (shuf_row (mask_of fb)) (v_set1 8))) n ;; ret (N.lor hi (v_movemask (shuf_row (mask_of fa))))) m =
  Ok (mask_of (eqbits (fa ++ fb)), m).
Proof.
  intros Ha Hb ->. destruct (row_eqs fa Ha) as (A1 & _ & A3). destruct (row_eqs fb Hb) as (_ & B2 & B3). unfold eqbits.
  pose proof (tot_range fa). pose proof (tot_range fb). assert (zlen fa = 8) by (unfold zlen; lia). assert (zlen fb = 8) by (unfold zlen; lia).
  destruct (e_emask isa).
  - rewrite A3, B3, eqs_app, map_app. apply join32; unfold zlen; rewrite ?map_length; fold (zlen (eqs fa)); fold (zlen (eqs fb)); rewrite ?eqs_len; lia.
  - rewrite A1, B2, eqs_app. apply join32; rewrite ?eqs_len; lia.
Qed.

Lemma slow_eol_run i p col f1 f2 f3 f4 m :
  length f1 = 8%nat -> length f2 = 8%nat -> length f3 = 8%nat -> length f4 = 8%nat ->
  let fs := (f1 ++ f2) ++ f3 ++ f4 in
  col < 0 -> 0 <= col + tot fs ->
  sse_slow_eol isa (i + 32) (p + tot fs) (col + tot fs) (mask_of (f1 ++ f2)) (mask_of (f3 ++ f4))
    (tot fs) (tot f1) (tot (f1 ++ f2)) (tot (f1 ++ f2) + tot f3) m =
  Ok (let '(k, q) := cut fs (- col) in Eol (i + k) (p + q), m).
Proof.
  intros H1 H2 H3 H4 fs Hc Hc'. unfold sse_slow_eol.
  assert (Ht : tot fs = tot (f1 ++ f2) + tot (f3 ++ f4)) by (unfold fs; apply tot_app).
  assert (Hr12 := tot_range (f1 ++ f2)). assert (Hr34 := tot_range (f3 ++ f4)).
  assert (L12 : zlen (f1 ++ f2) = 16) by (unfold zlen; rewrite app_length; lia).
  assert (L34 : zlen (f3 ++ f4) = 16) by (unfold zlen; rewrite app_length; lia).
  unfold fs. rewrite cut_app by lia. fold fs.
  (* the half, the shift and the input position *)
  set (inA := - col <=? tot (f1 ++ f2)).
  set (fh := if inA then f1 ++ f2 else f3 ++ f4).
  set (T := if inA then - col else - col - tot (f1 ++ f2)).
  assert (Em : sse_eq_mask isa (i + 32) (col + tot fs) (mask_of (f1 ++ f2)) (mask_of (f3 ++ f4)) (tot fs) (tot f1) (tot (f1 ++ f2)) (tot (f1 ++ f2) + tot f3) m =
    Ok ((mask_of (eqbits fh), T - 1, i + 32 - (if inA then 16 - (if e_emask isa then 0 else tot (f3 ++ f4)) else 0)), m)).
  { unfold sse_eq_mask. cbv zeta. destruct (mask_half f1 f2 H1 H2) as [-> ->]. destruct (mask_half f3 f4 H3 H4) as [-> ->].
    pose proof (eq_half_run f1 f2 (tot f1) m H1 H2 eq_refl) as Ea.
    pose proof (eq_half_run f3 f4 (tot (f1 ++ f2) + tot f3 - tot (f1 ++ f2)) m H3 H4 ltac:(lia)) as Eb.
    unfold fh, T, inA. destruct (- col <=? tot (f1 ++ f2)) eqn:E; (destruct (tot fs - tot (f1 ++ f2) - (col + tot fs) - 1 <? 0) eqn:E2; [try lia|try lia]).
    - destruct (e_emask isa); erewrite (bind_pair _ _ _ _ _ _ _ Ea); f_equal; f_equal; apply tri; lia.
    - destruct (e_emask isa); erewrite (bind_pair _ _ _ _ _ _ _ Eb); f_equal; f_equal; apply tri; lia. }
  erewrite bind_ok by exact Em. cbv beta iota. clear Em.
  assert (HT : 1 <= T <= tot fh) by (unfold T, fh, inA; destruct (- col <=? tot (f1 ++ f2)) eqn:E; lia).
  assert (Lh : zlen fh = 16) by (unfold fh; destruct inA; assumption).
  assert (Th := tot_range fh).
  assert (Er : exists n, (if inA then cut (f1 ++ f2) (- col) else let '(k, q) := cut (f3 ++ f4) (- col - tot (f1 ++ f2)) in (zlen (f1 ++ f2) + k, tot (f1 ++ f2) + q))
     = (let '(k, q) := cut fh T in (n + k, (if inA then 0 else tot (f1 ++ f2)) + q)) /\ n = if inA then 0 else 16).
  { exists (if inA then 0 else 16). split; [|reflexivity]. unfold fh, T. destruct inA.
    - destruct (cut (f1 ++ f2) (- col)) as [k q]. reflexivity.
    - rewrite L12. reflexivity. }
  destruct Er as (n & Er & Hn). rewrite Er. clear Er.
  destruct (cut_eqs fh T HT) as [C1 C2]. cbv zeta in C1, C2. rewrite C2. cbv iota beta. clear C2.
  set (r := skipn (Z.to_nat (T - 1)) (eqs fh)) in *.
  assert (Hlr : (length r <= 32)%nat) by (unfold zlen in C1; lia).
  destruct r as [|b0 r0] eqn:Er0; [change (zlen (@nil bool)) with 0 in C1; lia|].
  unfold eqbits. destruct (e_emask isa) eqn:Es.
  - assert (Hk : skipn (Z.to_nat (T - 1)) (map negb (eqs fh)) = negb b0 :: map negb r0) by (rewrite skipn_map; fold r; rewrite Er0; reflexivity).
    assert (Hz : zlen (map negb r0) = zlen r0) by (unfold zlen; rewrite map_length; reflexivity).
    rewrite zlen_cons in C1. cbn [length] in Hlr.
    destruct (e_asm isa).
    + replace (N.shiftr (mask_of (map negb (eqs fh))) 1) with (mask_of (skipn 1 (map negb (eqs fh)))) by (change 1%N with (N.of_nat 1); rewrite mask_shiftr; reflexivity).
      erewrite bind_ok by (apply shr_run; lia).
      assert (Es' : skipn (Z.to_nat (T - 1)) (skipn 1 (map negb (eqs fh))) = map negb r0).
      { apply skipn_S in Hk. rewrite <- Hk. destruct (map negb (eqs fh)); [rewrite !skipn_nil; reflexivity|reflexivity]. }
      rewrite Es'. cbv zeta. rewrite count_ok by (rewrite map_length; lia). rewrite tot_negb, Hz. cbn [nth]. rewrite tot_cons, zlen_cons.
      assert (Ec : (if T - 1 =? 0 then N.odd (mask_of (map negb (eqs fh))) else N.testbit (mask_of (skipn 1 (map negb (eqs fh)))) (Z.to_N (T - 1 - 1))) = negb b0).
      { apply nth_skip in Hk. destruct (T - 1 =? 0) eqn:E0.
        - replace (Z.to_nat (T - 1)) with 0%nat in Hk by lia. rewrite <- N.bit0_odd. change 0%N with (N.of_nat 0). rewrite mask_bit. exact Hk.
        - replace (Z.to_N (T - 1 - 1)) with (N.of_nat (Z.to_nat (T - 2))) by lia. rewrite mask_bit.
          replace (Z.to_nat (T - 1)) with (S (Z.to_nat (T - 2))) in Hk by lia.
          destruct (map negb (eqs fh)); [destruct (Z.to_nat (T - 2)); exact Hk|exact Hk]. }
      rewrite Ec. unfold ret. destruct b0; cbv beta iota delta [bz1 negb wid]; f_equal; f_equal; apply eol_eq; rewrite ?Hn, ?Lh; unfold fh, T in C1 |- *; destruct inA; lia.
    + erewrite bind_ok by (apply shr_run; lia). rewrite Hk. cbv zeta. rewrite land1_mask, count_ok by (cbn [length]; rewrite map_length; exact Hlr).
      rewrite !tot_cons, !zlen_cons, tot_negb, Hz. cbn [nth].
      replace (N.eqb (N.b2n (negb b0)) 1) with (negb b0) by (destruct b0; reflexivity). rewrite negb_involutive.
      unfold ret. destruct b0; cbv beta iota delta [bz1 negb wid]; f_equal; f_equal; apply eol_eq; rewrite ?Hn, ?Lh; unfold fh, T in C1 |- *; destruct inA; lia.
  - erewrite bind_ok by (apply shr_run; lia). fold r. rewrite Er0. cbv zeta. rewrite land1_mask, count_ok by exact Hlr. cbn [nth]. unfold ret.
    replace (Z.of_N (N.b2n b0)) with (bz1 b0) by (destruct b0; reflexivity).
    assert (Ei : i + 32 - (if inA then 16 - tot (f3 ++ f4) else 0) + (tot (b0 :: r0) - zlen (b0 :: r0)) - (col + tot fs + bz1 b0) =
      i + (n + (zlen fh + (tot (b0 :: r0) - zlen (b0 :: r0)) - (tot fh - T) - bz1 b0))).
    { rewrite Hn, Lh. unfold fh, T. destruct inA; lia. }
    assert (Ep : p + tot fs - (col + tot fs + bz1 b0) = p + ((if inA then 0 else tot (f1 ++ f2)) + (T - bz1 b0))).
    { unfold T. destruct inA; lia. }
    rewrite Ei, Ep. reflexivity.
Qed.

(** ** At most one character to escape *)

Definition singles_at (k n : nat) : list sym := map (fun j => [j]) (seq k n).

(** [sse_one_vectors] before the constants are added, on symbolic bytes. *)
Definition s_one (n : Z) (fb : list bool) : list sym * list sym :=
  let a := singles_at 0 16 in
  let b := singles_at 16 16 in
  if e_fast isa then
    let mm := map (fun j => j <=? n) (js 16) in
    (s_shuffle a (shufmix_shuf n),
     if e_blend isa then s_blend (s_alignr b a 15) (s_andnot fb b) mm
     else s_or (s_and mm (s_andnot fb b)) (s_andnot mm (s_alignr b a 15)))
  else
    let ma := below n 0 in
    let mb := below n 16 in
    (s_or (s_and ma a) (s_slli (s_andnot ma a) 1),
     s_or (s_and mb b)
       (if e_alignr isa then s_alignr (s_andnot mb b) (s_andnot ma a) 15
        else s_or (s_slli (s_andnot mb b) 1) (s_srli (s_andnot ma a) 15))).

Lemma mask_if_vm (f : Z -> bool) l : map (fun j => if f j then xff else x00) l = vm (map f l).
Proof. unfold vm. rewrite map_map. apply map_ext. intro j. destruct (f j); reflexivity. Qed.

Lemma one_vectors_s bi a b fb : length a = 16%nat -> length b = 16%nat ->
  sse_one_vectors isa bi a b (vm fb) =
  (run_plan (a ++ b) (combine (fst (s_one bi fb)) (entry_mix bi 0)), run_plan (a ++ b) (combine (snd (s_one bi fb)) (entry_mix bi 16))).
Proof.
  intros Ha Hb. set (d := a ++ b).
  assert (Ea : a = map (V d) (singles_at 0 16)).
  { unfold singles_at. rewrite V_seq by (unfold d; rewrite app_length; lia). unfold d. cbn [skipn].
    rewrite firstn_app, Ha, Nat.sub_diag, firstn_O, app_nil_r. symmetry. apply firstn_all2. lia. }
  assert (Eb : b = map (V d) (singles_at 16 16)).
  { unfold singles_at. rewrite V_seq by (unfold d; rewrite app_length; lia). unfold d.
    rewrite skipn_app, Ha, Nat.sub_diag, skipn_O, (skipn_all2 a) by lia. rewrite app_nil_l. symmetry. apply firstn_all2. lia. }
  rewrite Ea, Eb at 1. unfold sse_one_vectors, s_one, shufmix_mask, maskmix_mask, below. rewrite !mask_if_vm.
  destruct (e_fast isa).
  - cbv zeta iota beta. rewrite v_shuffle_s, v_alignr_s, v_andnot_s, run_plan_add. cbn [fst snd]. f_equal.
    destruct (e_blend isa).
    + rewrite v_blend_s, run_plan_add. reflexivity.
    + rewrite v_and_s, v_andnot_s, v_or_s, run_plan_add. reflexivity.
  - cbv zeta iota beta. rewrite !v_and_s, !v_andnot_s, v_slli_s, v_or_s, run_plan_add. cbn [fst snd]. f_equal.
    destruct (e_alignr isa).
    + rewrite v_alignr_s, v_or_s, run_plan_add. reflexivity.
    + rewrite v_slli_s, v_srli_s, !v_or_s, run_plan_add. reflexivity.
Qed.

Definition one_ok (bi : Z) (fs : list bool) : Prop :=
  combine (fst (s_one bi (skipn 16 fs))) (entry_mix bi 0) ++ combine (snd (s_one bi (skipn 16 fs))) (entry_mix bi 16) = firstn 32 (plan fs 0) /\ length (combine (fst (s_one bi (skipn 16 fs))) (entry_mix bi 0)) = 16%nat.

Lemma one_none : e_fast isa = true -> one_ok 32 (repeat false 32).
Proof. intro H. unfold one_ok, s_one. rewrite H. destruct (e_blend isa); vm_compute; split; reflexivity. Qed.

Lemma one_single n : (n < 32)%nat -> one_ok (Z.of_nat n) (single n).
Proof.
  intro H. unfold one_ok, s_one, single.
  do 32 (destruct n as [|n]; [destruct (e_fast isa), (e_blend isa), (e_alignr isa); vm_compute; split; reflexivity|]). lia.
Qed.

Lemma plan_len fs : forall k, zlen (plan fs k) = tot fs.
Proof.
  induction fs as [|f fs IH]; intro k; [reflexivity|]. cbn [plan]. rewrite zlen_app, IH, tot_cons. destruct f; reflexivity.
Qed.

Lemma expand_last f c : forall fs ds, length fs = length ds -> expand (fs ++ [f]) (ds ++ [c]) = expand fs ds ++ expand1 f c.
Proof. intros fs ds H. rewrite expand_app by exact H. cbn [expand]. rewrite app_nil_r. reflexivity. Qed.

Lemma put_ext3 m m1 m2 p a b : (forall x, m2 x = put m1 p a x) -> (forall x, m1 x = put m (p + zlen a) b x) -> forall x, m2 x = put m p (a ++ b) x.
Proof. intros H1 H2 x. rewrite H1, <- (put_swap m p a b). apply put_ext. exact H2. Qed.

Lemma noesc_run i p col da db m : length da = 16%nat -> length db = 16%nat -> col < 0 ->
  let fs := repeat false 32 in
  wlo B <= p -> p + 32 + 8 <= whi B ->
  exists m', sse_noesc B (i + 32) p col da db m =
      Ok (if col + tot fs <? 0 then Next (p + tot fs) (col + tot fs) else let '(k, q) := cut fs (- col) in Eol (i + k) (p + q), m') /\ wrote m m' p (expand fs (da ++ db)) 8.
Proof.
  intros Ha Hb Hc fs H1 H2. unfold sse_noesc. rewrite !sub42 by assumption.
  assert (La : zlen (expand (repeat false 16) da) = 16) by (rewrite expand_len by (rewrite repeat_length; lia); reflexivity).
  assert (Lb : zlen (expand (repeat false 16) db) = 16) by (rewrite expand_len by (rewrite repeat_length; lia); reflexivity).
  erewrite bind_ok by (apply store_n_put; lia). erewrite bind_ok by (apply store_n_put; lia). cbv zeta.
  eexists. split.
  - change (tot fs) with 32. destruct (col + 32 <? 0) eqn:E; (destruct (0 <=? col + 32) eqn:E2; [try lia|try lia]); [reflexivity|].
    unfold fs. rewrite cut_repeat by lia. unfold ret. f_equal. f_equal. apply eol_eq; lia.
  - exists []. split; [cbv; congruence|]. intro x. rewrite app_nil_r. unfold fs. change 32%nat with (16 + 16)%nat. rewrite repeat_app, expand_app by (rewrite repeat_length; lia).
    rewrite put_app, La. reflexivity.
Qed.

Lemma branch_fast : e_branch isa = false -> e_fast isa = true.
Proof. unfold e_branch, e_fast. destruct (e_tune isa); try discriminate; intro H; apply negb_false_iff in H; rewrite H; reflexivity. Qed.

Lemma avx3_popcnt : e_avx3 isa = true -> e_popcnt isa = true.
Proof.
  intro H. destruct (ok_evex isa Hok H) as [Hf Hp']. unfold e_popcnt. rewrite Hp', (ok_popcnt isa Hok) by exact Hp'.
  unfold e_fast, e_btver1 in *. destruct (e_tune isa); try reflexivity. rewrite andb_false_r in Hf. discriminate.
Qed.

Lemma single_len n : (n < 32)%nat -> length (single n) = 32%nat.
Proof. intro H. unfold single. rewrite app_length. cbn [length]. rewrite !repeat_length. lia. Qed.

Lemma single_tot n : (n < 32)%nat -> tot (single n) = 33.
Proof. intro H. unfold single. rewrite tot_app, tot_cons, !tot_repeat. cbn [wid]. lia. Qed.

(** What a block with at most one '=' looks like; [n] is 32 if there is none. *)
Definition one_eq (fs : list bool) (n : Z) : Prop :=
  fs = repeat false 32 /\ n = 32 /\ e_branch isa = false \/ exists k, (k < 32)%nat /\ fs = single k /\ n = Z.of_nat k.

Lemma one_eq_len fs n : one_eq fs n -> length fs = 32%nat.
Proof. intros [(-> & _)|(k & Hk & -> & _)]; [reflexivity|apply single_len; exact Hk]. Qed.

Lemma one_eq_tot fs n : one_eq fs n -> tot fs = if n =? 32 then 32 else 33.
Proof. intros [(-> & -> & _)|(k & Hk & -> & ->)]; [reflexivity|]. rewrite single_tot by exact Hk. destruct (Z.of_nat k =? 32) eqn:E; lia. Qed.

Lemma one_eq_mask fs n : one_eq fs n -> N.eqb (mask_of fs) 0 = (n =? 32) /\ lzcnt32 (mask_of fs) = (if n =? 32 then 32 else 31 - n) /\
  (n <> 32 -> Z.of_N (N.log2 (mask_of fs)) = n) /\ 0 <= n <= 32.
Proof.
  intros [(-> & -> & _)|(k & Hk & -> & ->)].
  - rewrite mask_repeat0. repeat split; try reflexivity; lia.
  - unfold single. rewrite mask_single. unfold lzcnt32.
    assert (E : N.eqb (2 ^ N.of_nat k) 0 = false) by (apply N.eqb_neq, N.pow_nonzero; discriminate). rewrite E, N.log2_pow2 by lia.
    destruct (Z.of_nat k =? 32) eqn:E2; [lia|]. repeat split; lia.
Qed.

Lemma one_text_run es i ds fs n cmpA m :
  length ds = 32%nat -> bytes_at m (es + i) ds -> rlo B <= es + i -> es + i + 32 <= rhi B -> one_eq fs n ->
  (e_avx3 isa = true -> cmpA = vm (firstn 16 fs) /\ sse_shift (part 0 16 ds) cmpA = adj (firstn 16 fs) (part 0 16 ds)
     /\ sse_shift (part 16 16 ds) (vm (skipn 16 fs)) = adj (skipn 16 fs) (part 16 16 ds)) ->
  exists vA vB last bi,
    sse_one_text isa B es (i + 32) (part 0 16 ds) (part 16 16 ds) cmpA (vm (skipn 16 fs)) (mask_of fs)
      (if e_popcnt isa then Some (popcount (mask_of fs)) else None) (if e_popcnt isa then Some (popcount (mask_of fs) + 32) else None) m =
      Ok ((vA, vB, last, bi, Some (tot fs)), m) /\
    (forall m', (if e_avx3 isa then ret (lzcnt32 (mask_of fs) + 1)
                 else bitIndex <- given bi ;; ret (if f_lzcnt isa then bitIndex + 1 else 31 - bitIndex + 1)) m' = Ok (if n =? 32 then 33 else 32 - n, m')) /\
    zlen vA = 16 /\ zlen vB = 16 /\ exists junk, zlen junk <= 8 /\ expand fs ds ++ junk = (vA ++ vB) ++ [last].
Proof.
  intros Hd Hb Hr1 Hr2 Hone Hevex.
  pose proof (one_eq_len fs n Hone) as Hfl. pose proof (one_eq_tot fs n Hone) as Hft.
  destruct (one_eq_mask fs n Hone) as (Hm0 & Hlz & Hlg & Hn).
  assert (Hpc : popcount (mask_of fs) = tot fs - 32) by (rewrite popcount_tot; unfold zlen; rewrite Hfl; reflexivity).
  assert (Hda : length (part 0 16 ds) = 16%nat) by (apply part_len; lia). assert (Hdb : length (part 16 16 ds) = 16%nat) by (apply part_len; lia).
  assert (Eds : part 0 16 ds ++ part 16 16 ds = ds).
  { rewrite part_split. unfold part. cbn [skipn]. apply firstn_all2. cbn. lia. }
  unfold sse_one_text. rewrite Hpc. destruct (e_avx3 isa) eqn:E3.
  - rewrite (avx3_popcnt E3). destruct (Hevex eq_refl) as (EA & SA & SB). unfold evex_one_vectors. rewrite SA, SB, EA. cbv zeta.
    set (a := adj (firstn 16 fs) (part 0 16 ds)). set (b := adj (skipn 16 fs) (part 16 16 ds)).
    assert (La : length a = 16%nat) by (unfold a; rewrite adj_len; rewrite ?firstn_length; lia).
    assert (Lb : length b = 16%nat) by (unfold b; rewrite adj_len; rewrite ?skipn_length; lia).
    assert (Ev : expand fs ds = spread fs (a ++ b)).
    { rewrite <- Eds at 1. rewrite <- (firstn_skipn 16 fs) at 1 2. rewrite expand_app by (rewrite firstn_length; lia).
      rewrite !expand_spread. fold a b. symmetry. apply spread_app. rewrite firstn_length, La. lia. }
    destruct (evex_len (e_vbmi2 isa) fs a b Hfl La Lb) as [Za Zb].
    exists (evex_a (e_vbmi2 isa) fs a), (evex_b fs a b), (nth 15 b x00), None. split; [|split; [|split; [exact Za|split; [exact Zb|]]]].
    + unfold ret, evex_a, evex_b. change (v_set1 61) with (repeat (u8 61) 16). rewrite !tern_b8_ok by (rewrite ?firstn_length, ?skipn_length; lia).
      replace (tot fs - 32 + 32) with (tot fs) by lia. reflexivity.
    + intro m'. unfold ret. rewrite Hlz. f_equal. f_equal. destruct (n =? 32) eqn:E; lia.
    + destruct Hone as [(Ef & _)|(k & Hk & Ef & _)].
      * exists [nth 15 b x00]. split; [cbv; congruence|]. rewrite Ev, Ef. f_equal. symmetry. apply evex_none; assumption.
      * exists []. split; [cbv; congruence|]. rewrite app_nil_r, Ev, Ef. symmetry. apply evex_single; assumption.
  - cbv zeta.
    assert (Emb : (if e_branch isa then Some 1 else if e_set_len isa then Some (if N.eqb (mask_of fs) 0 then 0 else 1) else if e_popcnt isa then Some (tot fs - 32) else None) = Some (tot fs - 32)).
    { rewrite Hm0, Hft. destruct (e_branch isa) eqn:Eb.
      - destruct Hone as [(_ & _ & ?)|(k & Hk & _ & ->)]; [congruence|]. destruct (Z.of_nat k =? 32) eqn:E; [lia|reflexivity].
      - pose proof (len_known isa Hok) as K. destruct (e_set_len isa); [destruct (n =? 32); reflexivity|]. rewrite K by reflexivity. reflexivity. }
    rewrite Emb.
    assert (Eob : (if e_set_len isa then maskBits <- given (Some (tot fs - 32)) ;; ret (Some (32 + maskBits)) else ret (if e_popcnt isa then Some (tot fs - 32 + 32) else None)) m = Ok (Some (tot fs), m)).
    { pose proof (len_known isa Hok) as K. destruct (e_set_len isa).
      - cbn [given]. erewrite bind_ok by reflexivity. unfold ret. do 3 f_equal. lia.
      - rewrite K by reflexivity. unfold ret. do 3 f_equal. lia. }
    erewrite bind_ok by exact Eob. clear Eob.
    set (bi := if f_lzcnt isa then (if n =? 32 then 32 else 31 - n) else if n =? 32 then -1 else n).
    assert (Ebi : (if e_lzcnt isa then ret (lzcnt32 (mask_of fs))
                 else maskBits <- given (Some (tot fs - 32)) ;;
                      ret (Z.lor (if N.eqb (mask_of fs) 0 then e_bsr0 isa else Z.of_N (N.log2 (mask_of fs))) (maskBits - 1))) m = Ok (bi, m)).
    { rewrite (ok_lz isa Hok). unfold bi. destruct (f_lzcnt isa); [rewrite Hlz; reflexivity|].
      cbn [given]. erewrite bind_ok by reflexivity. rewrite Hm0, Hft. unfold ret. f_equal. f_equal. destruct (n =? 32) eqn:E.
      - change (32 - 32 - 1) with (-1). apply Z.lor_m1_r.
      - change (33 - 32 - 1) with 0. rewrite Z.lor_0_r. apply Hlg. lia. }
    erewrite bind_ok by exact Ebi. clear Ebi.
    assert (Een : entry_n isa (if f_lzcnt isa then bi else bi + 1) = n /\ 0 <= (if f_lzcnt isa then bi else bi + 1) < 33).
    { unfold entry_n, bi. destruct (f_lzcnt isa), (n =? 32) eqn:E.
      - cbn. lia.
      - destruct (31 - n =? 32) eqn:E2; lia.
      - cbn. lia.
      - destruct (n + 1 =? 0) eqn:E2; lia. }
    destruct Een as [Een Ern]. destruct ((0 <=? _) && (_ <? 33)) eqn:E33; [|lia]. clear E33. rewrite Een.
    rewrite one_vectors_s, Eds by assumption.
    assert (Hok1 : one_ok n fs).
    { destruct Hone as [(-> & -> & Hbr)|(k & Hk & -> & ->)]; [apply one_none, branch_fast; exact Hbr|apply one_single; exact Hk]. }
    destruct Hok1 as [O1 O2]. set (vA := combine (fst (s_one n (skipn 16 fs))) (entry_mix n 0)) in *.
    set (vB := combine (snd (s_one n (skipn 16 fs))) (entry_mix n 16)) in *.
    (* the last character *)
    destruct (@exists_last _ ds) as (ds0 & cl & Edl); [intros ->; discriminate|].
    assert (Hd0 : length ds0 = 31%nat) by (rewrite Edl, app_length in Hd; cbn in Hd; lia).
    assert (Hld : load B (es + (i + 32 - 1)) m = Ok (cl, m)).
    { rewrite load_r by lia. f_equal. f_equal. rewrite Edl in Hb. apply bytes_at_app in Hb as [_ Hb]. destruct Hb as [Hb _].
      rewrite <- Hb. f_equal. unfold zlen. lia. }
    erewrite bind_ok by exact Hld. clear Hld.
    set (last := u8 (bz cl + 42 + Z.of_N (N.land 64 (N.shiftr (mask_of fs) (16 * 2 - 1 - 6))))).
    assert (Lv : zlen (run_plan ds vA) = 16) by (unfold run_plan, zlen; rewrite map_length, O2; reflexivity).
    assert (Hpl : zlen (firstn 32 (plan fs 0)) = 32).
    { unfold zlen. rewrite firstn_length. pose proof (plan_len fs 0) as Pl. unfold zlen in Pl. destruct (n =? 32); lia. }
    assert (Lw : zlen (run_plan ds vB) = 16).
    { rewrite <- O1, zlen_app in Hpl. unfold run_plan, zlen in *. rewrite !map_length in *. lia. }
    exists (run_plan ds vA), (run_plan ds vB), last, (Some bi). split; [reflexivity|]. split; [|split; [exact Lv|split; [exact Lw|]]].
    { intro m'. cbn [given]. erewrite bind_ok by reflexivity. unfold ret, bi. f_equal. f_equal. destruct (f_lzcnt isa), (n =? 32) eqn:E; lia. }
    rewrite <- run_plan_app, O1.
    assert (Ex : expand fs ds = run_plan ds (plan fs 0)).
    { symmetry. apply plan_ok; rewrite Hfl; [|exact Hd]. cbn [skipn]. apply firstn_all2. lia. }
    destruct Hone as [(Ef & _)|(k & Hk & Ef & _)].
    + exists [last]. split; [cbv; congruence|]. f_equal. rewrite Ex, Ef. reflexivity.
    + exists []. split; [cbv; congruence|]. rewrite app_nil_r. rewrite Ex, <- (firstn_skipn 32 (plan fs 0)) at 1.
      rewrite run_plan_app. f_equal.
      assert (El : skipn 32 (plan fs 0) = [([31%nat], if Nat.eqb k 31 then u8 106 else u8 42)]).
      { rewrite Ef. clear -Hk. do 32 (destruct k as [|k]; [reflexivity|]). lia. }
      rewrite El. cbn [run_plan map fst snd]. rewrite V_one.
      assert (En : nth 31 ds x00 = cl).
      { rewrite Edl, app_nth2 by lia. rewrite Hd0. reflexivity. }
      rewrite En. f_equal. unfold last. rewrite Ef. unfold single. rewrite mask_single.
      assert (Es : N.land 64 (N.shiftr (2 ^ N.of_nat k) (16 * 2 - 1 - 6)) = if Nat.eqb k 31 then 64%N else 0%N).
      { clear -Hk. do 32 (destruct k as [|k]; [reflexivity|]). lia. }
      rewrite Es. destruct (Nat.eqb k 31); rewrite ?add_106, ?add_42; f_equal; lia.
Qed.

Lemma one_run es i p col ds fs n cmpA m :
  length ds = 32%nat -> bytes_at m (es + i) ds -> rlo B <= es + i -> es + i + 32 <= rhi B -> (rhi B <= wlo B \/ whi B <= rlo B) ->
  col < 0 -> wlo B <= p -> p + tot fs + 8 <= whi B -> one_eq fs n ->
  (e_avx3 isa = true -> cmpA = vm (firstn 16 fs) /\ sse_shift (part 0 16 ds) cmpA = adj (firstn 16 fs) (part 0 16 ds)
     /\ sse_shift (part 16 16 ds) (vm (skipn 16 fs)) = adj (skipn 16 fs) (part 16 16 ds)) ->
  exists m', sse_one isa B es (i + 32) p col (part 0 16 ds) (part 16 16 ds) cmpA (vm (skipn 16 fs)) (mask_of fs)
      (if e_popcnt isa then Some (popcount (mask_of fs)) else None) (if e_popcnt isa then Some (popcount (mask_of fs) + 32) else None) m =
      Ok (if col + tot fs <? 0 then Next (p + tot fs) (col + tot fs) else let '(k, q) := cut fs (- col) in Eol (i + k) (p + q), m') /\ wrote m m' p (expand fs ds) 8.
Proof.
  intros Hd Hb Hr1 Hr2 Hdis Hc Hw1 Hw2 Hone Hevex.
  destruct (one_text_run es i ds fs n cmpA m Hd Hb Hr1 Hr2 Hone Hevex) as (vA & vB & last & bi & E & Ebi & Lv & Lw & junk & Hj & Etext).
  pose proof (one_eq_tot fs n Hone) as Hft. destruct (one_eq_mask fs n Hone) as (_ & _ & _ & Hn).
  unfold sse_one. erewrite bind_ok by exact E. cbv beta iota zeta. clear E.
  assert (Htot : 32 <= tot fs) by (destruct (n =? 32); lia).
  erewrite bind_ok by (apply store_w; lia). erewrite bind_ok by (apply store_n_put; lia). erewrite bind_ok by (apply store_n_put; lia).
  cbn [given]. erewrite bind_ok by reflexivity.
  eexists. split.
  - destruct (col + tot fs <? 0) eqn:E; (destruct (0 <=? col + tot fs) eqn:E2; [try lia|try lia]); [reflexivity|].
    erewrite bind_ok by apply Ebi. unfold ret. destruct Hone as [(Ef & -> & _)|(k & Hk & Ef & ->)].
    + assert (Et : tot fs = 32) by (rewrite Ef; reflexivity). assert (Ec : cut fs (- col) = (- col, - col)) by (rewrite Ef; apply cut_repeat; lia). rewrite Ec. clear Ec.
      rewrite Z.eqb_refl. destruct (col + tot fs =? 33) eqn:E3; [lia|]. destruct (33 <? col + tot fs) eqn:E4; [lia|].
      f_equal. f_equal. apply eol_eq; lia.
    + assert (Et : tot fs = 33) by (rewrite Ef; apply single_tot; exact Hk). pose proof (cut_single k (31 - k) (- col) ltac:(lia)) as Ec. fold (single k) in Ec. rewrite <- Ef in Ec. rewrite Ec. clear Ec.
      destruct (Z.of_nat k =? 32) eqn:E0; [lia|].
      destruct (col + tot fs =? 32 - Z.of_nat k) eqn:E3.
      * destruct (- col <=? Z.of_nat k) eqn:E4; [lia|]. destruct (- col =? Z.of_nat k + 1) eqn:E5; [|lia]. f_equal. f_equal. apply eol_eq; lia.
      * destruct (32 - Z.of_nat k <? col + tot fs) eqn:E6; destruct (- col <=? Z.of_nat k) eqn:E4; try lia;
          [|destruct (- col =? Z.of_nat k + 1) eqn:E5; [lia|]]; f_equal; f_equal; apply eol_eq; lia.
  - exists junk. split; [exact Hj|]. rewrite Etext. rewrite <- Lv. apply put_ext3 with (m1 := upd m (p + 32) last).
    + intro x. rewrite <- put_app. reflexivity.
    + intro x. rewrite zlen_app, Lv, Lw. reflexivity.
Qed.

End Block.

(** The characters as the AVX512 levels write them. *)
Lemma sse_shift_ok first v : length v = 16%nat -> sse_shift v (vm (esc_flags first v)) = adj (esc_flags first v) v.
Proof.
  intro H. unfold sse_shift.
  assert (E : v_sub v (v_set1 (-42)) = v_add v (repeat (u8 42) 16)).
  { unfold v_sub, v_add, v_set1. rewrite <- H. clear H. induction v as [|c v IH]; [reflexivity|]. cbn [length repeat map2]. f_equal; [destruct c; reflexivity|exact IH]. }
  rewrite E. apply shift_flags. lia.
Qed.

Lemma sse_block_ok isa B es : enc_ok isa -> block_ok B (sse_block isa B es) es 32 8 0.
Proof.
  intros Hok first i p col ds m Hd Hb Hr1 Hr2 Hdis Hc fs o Hw1 Hw2.
  assert (Hdl : length ds = 32%nat) by (unfold zlen in Hd; lia).
  set (da := part 0 16 ds). set (db := part 16 16 ds).
  assert (Hda : length da = 16%nat) by (apply part_len; lia). assert (Hdb : length db = 16%nat) by (apply part_len; lia).
  assert (Eds : ds = da ++ db).
  { unfold da, db. rewrite part_split. unfold part. cbn [skipn]. symmetry. apply firstn_all2. cbn. lia. }
  set (fa := esc_flags first da). set (fb := map (must_escape false false) db).
  assert (Efs : fs = fa ++ fb).
  { unfold fs. rewrite Eds. unfold fa, fb. destruct da as [|c da']; [discriminate|]. cbn [app esc_flags]. rewrite map_app. reflexivity. }
  assert (Hfa : length fa = 16%nat) by (unfold fa; rewrite esc_flags_len; exact Hda).
  assert (Hfb : length fb = 16%nat) by (unfold fb; rewrite map_length; exact Hdb).
  assert (Hfl : length fs = 32%nat) by (rewrite Efs, app_length; lia).
  assert (Hol : zlen o = tot fs) by (apply expand_len; lia). rewrite Hol in Hw2.
  assert (Hwr : exists m', sse_block isa B es first i p col m =
      Ok (if col + tot fs <? 0 then Next (p + tot fs) (col + tot fs) else let '(k, q) := cut fs (- col) in Eol (i + k) (p + q), m') /\ wrote m m' p o 8).
  2:{ destruct Hwr as (m' & E & junk & Hj & Hm). exists junk, m'. auto. }
  unfold sse_block.
  assert (Hla : mm_loadu B (es + i) m = Ok (da, m)).
  { unfold mm_loadu. apply load_part with (a := es + i) (t := ds); auto; lia. }
  assert (Hlb : mm_loadu B (es + i + 16) m = Ok (db, m)).
  { unfold mm_loadu. apply load_part with (a := es + i) (t := ds); auto; lia. }
  erewrite bind_ok by exact Hla. erewrite bind_ok by exact Hlb. cbv zeta. clear Hla Hlb.
  assert (HcB : sse_cmp isa false db = vm fb).
  { destruct (e_fast isa) eqn:Es; [rewrite ssse3_cmp by assumption; rewrite esc_flags_mid; reflexivity|apply sse2_cmp; assumption]. }
  assert (HmA : (if first && negb (e_fast isa) then c <- load B (es + i) ;; ret (N.lor (v_movemask (sse_cmp isa first da)) (eolFirstMask c))
      else ret (v_movemask (sse_cmp isa first da))) m = Ok (mask_of fa, m)).
  { destruct (e_fast isa) eqn:Es.
    - rewrite andb_false_r, ssse3_cmp, movemask_vm by assumption. reflexivity.
    - rewrite andb_true_r, sse2_cmp, movemask_vm by assumption. unfold fa. destruct first; [|rewrite esc_flags_mid; reflexivity].
      destruct da as [|c da'] eqn:Ed; [discriminate|].
      assert (Hl : load B (es + i) m = Ok (c, m)).
      { rewrite load_r by lia. rewrite Eds in Hb. destruct Hb as [Hb _]. rewrite Hb. reflexivity. }
      erewrite bind_ok by exact Hl. rewrite sse2_first. reflexivity. }
  erewrite bind_ok by exact HmA. clear HmA. rewrite HcB, movemask_vm.
  assert (Emask : N.lor (N.shiftl (mask_of fb) 16) (mask_of fa) = mask_of fs).
  { rewrite N.lor_comm. change 16%N with (N.of_nat 16). rewrite <- Hfa, mask_app, <- Efs. reflexivity. }
  rewrite Emask.
  assert (Hpc : popcount (mask_of fs) = tot fs - 32) by (rewrite popcount_tot; unfold zlen; rewrite Hfl; reflexivity).
  assert (Hmany : (if e_popcnt isa then (Some (popcount (mask_of fs)), Some (popcount (mask_of fs) + 32), 1 <? popcount (mask_of fs))
      else (None, None, negb (N.eqb (N.land (mask_of fs) (uint 32 (mask_of fs + 4294967295))) 0))) =
      (if e_popcnt isa then Some (popcount (mask_of fs)) else None, if e_popcnt isa then Some (popcount (mask_of fs) + 32) else None, 1 <? tot fs - 32)).
  { pose proof (many_bits fs ltac:(lia)) as Hm. rewrite Hm. replace (zlen fs) with 32 by (unfold zlen; lia); rewrite Hpc; destruct (e_popcnt isa); reflexivity. }
  rewrite Hmany. clear Hmany Emask.
  (* the AVX512 levels *)
  assert (Hx : e_avx3 isa = true -> sse_cmp isa first da = vm fa /\ sse_shift da (sse_cmp isa first da) = adj fa da /\ sse_shift db (vm fb) = adj fb db).
  { intro E3. destruct (ok_evex isa Hok E3) as [Hf _]. rewrite ssse3_cmp by assumption. split; [reflexivity|]. split; [apply sse_shift_ok; exact Hda|].
    unfold fb. rewrite <- esc_flags_mid. apply sse_shift_ok. exact Hdb. }
  assert (Hzf : zlen fs = 32) by (unfold zlen; lia). assert (Hft := tot_range fs).
  destruct (1 <? tot fs - 32) eqn:Em.
  - (* several escapes *)
    set (f1 := firstn 8 fa). set (f2 := skipn 8 fa). set (f3 := firstn 8 fb). set (f4 := skipn 8 fb).
    assert (E1 : fa = f1 ++ f2) by (symmetry; apply firstn_skipn). assert (E2 : fb = f3 ++ f4) by (symmetry; apply firstn_skipn).
    assert (L1 : length f1 = 8%nat) by (unfold f1; rewrite firstn_length; lia). assert (L2 : length f2 = 8%nat) by (unfold f2; rewrite skipn_length; lia).
    assert (L3 : length f3 = 8%nat) by (unfold f3; rewrite firstn_length; lia). assert (L4 : length f4 = 8%nat) by (unfold f4; rewrite skipn_length; lia).
    assert (E3 : fs = (f1 ++ f2) ++ f3 ++ f4) by (rewrite Efs, E1, E2; reflexivity).
    destruct (slow_store_run isa Hok B p m da db (sse_cmp isa first da) (vm fb) f1 f2 f3 f4) as (m' & S & W); auto.
    { rewrite <- E1, <- E2. intro Hv. apply Hx. unfold e_vbmi2, e_avx3 in *. lia. }
    { rewrite <- E3; lia. }
    exists m'. split.
    + unfold sse_slow.
      replace (if e_popcnt isa then Some (popcount (mask_of fs) + 32) else None) with (if e_popcnt isa then Some (tot ((f1 ++ f2) ++ f3 ++ f4)) else None)
        by (rewrite <- E3, Hpc; destruct (e_popcnt isa); [f_equal; lia|reflexivity]).
      rewrite E1 at 1. rewrite E2 at 2. erewrite bind_ok by exact S. cbv beta iota zeta. rewrite <- E3.
      destruct (0 <=? col + tot fs) eqn:E; (destruct (col + tot fs <? 0) eqn:E'; [try lia|try lia]); [|reflexivity].
      rewrite E1, E2, E3. rewrite E3 in E. apply slow_eol_run; auto; lia.
    + unfold o. rewrite Eds, E3. exact W.
  - rewrite mask_eqb0.
    assert (Htc : tot fs = zlen fs \/ tot fs = zlen fs + 1) by lia.
    assert (Hcase : fs = repeat false 32 \/ exists n, (n < 32)%nat /\ fs = repeat false n ++ true :: repeat false (31 - n)).
    { destruct Htc as [Ht|Ht]; [left; rewrite <- Hfl; apply tot_none; exact Ht|right].
      destruct (tot_one fs Ht) as (n & Hn & E). exists n. split; [lia|]. replace (31 - n)%nat with (length fs - n - 1)%nat by lia. exact E. }
    assert (Efb : fb = skipn 16 fs).
    { rewrite Efs, skipn_app, Hfa, Nat.sub_diag, skipn_O, (skipn_all2 fa) by lia. reflexivity. }
    assert (Hex : existsb id fs = false -> fs = repeat false 32).
    { intro Ex. destruct Hcase as [?|(n & Hn & E)]; [assumption|]. exfalso. rewrite E, existsb_app in Ex. cbn in Ex. rewrite orb_true_r in Ex. discriminate. }
    destruct (e_branch isa && negb (existsb id fs)) eqn:En.
    + apply andb_prop in En as [En1 En2]. apply negb_true_iff in En2. specialize (Hex En2).
      destruct (noesc_run B i p col da db m Hda Hdb Hc) as (m' & E & W); auto.
      { rewrite Hex in Hw2. change (tot (repeat false 32)) with 32 in Hw2. lia. }
      rewrite Hex. exists m'. split; [exact E|]. unfold o. rewrite Hex, Eds. exact W.
    + rewrite Efb. rewrite Z.add_0_r in Hr1.
      assert (Hone : exists n, one_eq isa fs n).
      { destruct Hcase as [E|(n & Hn & E)].
        - exists 32. left. repeat split; auto. rewrite E in En. destruct (e_branch isa); [|reflexivity]. cbn in En. discriminate.
        - exists (Z.of_nat n). right. exists n. auto. }
      destruct Hone as (n & Hone).
      destruct (one_run isa Hok B es i p col ds fs n (sse_cmp isa first da) m) as (m' & E & W); auto.
      { intro E3. destruct (Hx E3) as (X1 & X2 & X3). rewrite <- Efb.
        assert (Efa : fa = firstn 16 fs) by (rewrite Efs, firstn_app, Hfa, Nat.sub_diag, firstn_O, app_nil_r, firstn_all2 by lia; reflexivity).
        rewrite <- Efa. auto. }
      exists m'. split; [exact E|exact W].
Qed.

(** ** The whole kernel *)

Lemma kernel_blocks B (kernel : enc_kernel) (start : Z -> Z -> Z -> Z -> M (Z * Z * Z)) L col src dest data m fin block width slack back off :
  (forall es, block_ok B (block es) es width slack back) ->
  1 <= width -> width + 4 <= off -> 0 <= slack <= 24 -> 0 <= back <= 1 -> 16 <= off ->
  (zlen data <= off \/ L < 16 -> kernel B L col (src + zlen data) dest (zlen data) m = Ok ((col, dest, zlen data), m)) ->
  (off < zlen data -> 16 <= L -> kernel B L col (src + zlen data) dest (zlen data) m =
    (let es := src + zlen data - off in
     '(i, p, col) <- start es (- zlen data + off) dest (col - L + 1) ;;
     '(i, p, col) <- enc_blocks (Z.to_nat (zlen data)) (block es) width B L es false i p col ;;
     ret (col + L - 1, p, - (i - off))) m) ->
  (let es := src + zlen data - off in
   let i := - zlen data + off in
   off < zlen data -> 16 <= L -> rlo B <= es + i -> geom B (es + off) (i - off) dest -> inv m (es + off) (i - off) dest dest [] data ->
   dest + zlen (yenc L false col data) + 32 <= whi B ->
   exists m' i' p' c' o' rest', start es i dest (col - L + 1) m = Ok ((i', p', c'), m') /\ inv m' (es + off) (i' - off) p' dest o' rest' /\
     i + back <= i' <= i + 3 /\ c' < 0 /\ 1 <= c' + L - 1 /\ cont L col data (c' + L - 1) o' rest') ->
  rlo B <= src -> src + zlen data <= rhi B -> wlo B = dest ->
  (rhi B <= wlo B \/ whi B <= rlo B) ->
  bytes_at m src data -> 1 <= L -> 0 <= col ->
  dest + zlen (yenc L fin col data) + 32 <= whi B ->
  kernel_run B kernel L col src dest data m.
Proof.
  intros HB Hw Hoff Hs Hbk Hoff2 Hk1 Hk2 Hstart Hr1 Hr2 Hwl Hdis Hb HL Hc Hroom.
  assert (Hroom' : dest + zlen (yenc L false col data) + 32 <= whi B) by (pose proof (yenc_fin_le L fin col data); lia).
  unfold kernel_run. destruct (Z_le_gt_dec (zlen data) off) as [Hsm|Hbig].
  { exists m, col, [], [], data. rewrite Hk1 by auto. change (zlen (@nil byte)) with 0. rewrite !Z.add_0_r. repeat split; auto. }
  destruct (Z_lt_le_dec L 16) as [Hsl|HL2].
  { exists m, col, [], [], data. rewrite Hk1 by auto. change (zlen (@nil byte)) with 0. rewrite !Z.add_0_r. repeat split; auto. }
  rewrite Hk2 by lia. cbv zeta in Hstart |- *. clear Hk1 Hk2. set (es := src + zlen data - off) in *.
  assert (G : geom B (es + off) (- zlen data) dest) by (constructor; auto; lia).
  assert (I : inv m (es + off) (- zlen data + off - off) dest dest [] data).
  { constructor; auto; [replace (es + off + _) with src by lia; exact Hb|lia|exact I|change (zlen (@nil byte)) with 0; lia]. }
  destruct Hstart as (m2 & i2 & p2 & c2 & o2 & r2 & E2 & I2 & Hi2 & Hc2 & Hc2' & HC2); auto; try lia.
  { eapply geom_mono; [exact G|lia]. }
  erewrite bind_ok by exact E2. cbv beta iota. clear E2.
  destruct (blocks_run B (block es) es width slack back off data L col dest (HB es)) with (fuel := Z.to_nat (zlen data)) (first := false) (i := i2) (p := p2) (col := c2) (m := m2) (o := o2) (rest := r2)
    as (m3 & i3 & p3 & c3 & o3 & r3 & E3 & I3 & Hi3 & Hc3 & HC3); auto; try lia.
  { eapply geom_mono; [exact G|lia]. }
  erewrite bind_ok by exact E3. cbv beta iota. clear E3.
  pose proof (inv_len _ _ _ _ _ _ _ I3) as Hl3. pose proof (inv_p _ _ _ _ _ _ _ I3) as Hp3.
  destruct HC3 as [[Hy Hrc] [pre Hpre]].
  assert (Hlp : zlen data = zlen pre + zlen r3) by (rewrite Hpre; apply zlen_app).
  exists m3, (c3 + L - 1), o3, pre, r3. split; [|split; [exact Hpre|split; [|split; [|split; [lia|split; assumption]]]]].
  - unfold ret. rewrite Hp3. do 3 f_equal. lia.
  - pose proof (inv_src _ _ _ _ _ _ _ I3) as Hs3. replace (src + zlen pre) with (es + off + (i3 - off)) by lia. exact Hs3.
  - exact (inv_dst _ _ _ _ _ _ _ I3).
Qed.

(** A kernel that keeps its contract makes an encoder. *)
Definition good_kernel (k : enc_kernel) : Prop :=
  forall B L fin col src dest data m,
    rlo B <= src -> src + zlen data <= rhi B -> wlo B = dest ->
    (rhi B <= wlo B \/ whi B <= rlo B) ->
    bytes_at m src data -> 1 <= L -> 0 <= col ->
    dest + zlen (yenc L fin col data) + 32 <= whi B ->
    kernel_run B k L col src dest data m.

Lemma simd_meets k : good_kernel k -> meets_spec (do_encode_simd k).
Proof.
  intros Hk B L fin col src dest data m H1 H2 H3 H4 H5 H6 H7 H8 H9 H10.
  apply simd_run; auto; try lia. intro. apply Hk with (fin := fin); auto; lia.
Qed.

Lemma sse_good isa : enc_ok isa -> good_kernel (do_encode_sse isa).
Proof.
  intros Hok B L fin col src dest data m H1 H2 H3 H4 H5 H6 H7 H8.
  apply kernel_blocks with (start := enc_start B L) (fin := fin) (block := fun es => sse_block isa B es)
    (width := 32) (slack := 8) (back := 0) (off := 64); auto; try lia.
  - intro es. apply sse_block_ok. exact Hok.
  - intro H. unfold do_encode_sse. destruct ((zlen data <=? 64) || (L <? 16)) eqn:E; [reflexivity|lia].
  - intros H H'. unfold do_encode_sse. destruct ((zlen data <=? 64) || (L <? 16)) eqn:E; [lia|]. reflexivity.
  - intros es i I1 I2 I3 I4 I5 I6.
    destruct (start_run B L es i dest (col - L + 1) 64 data col dest m [] data) as (m' & i' & p' & c' & o' & r' & E & J1 & J2 & _ & J3 & J4 & J5); auto; try lia.
    { replace (col - L + 1 + L - 1) with col by lia. apply cont_refl. }
    do 6 eexists. split; [exact E|]. split; [exact J1|]. do 3 (split; [lia|]). exact J5.
Qed.

(** ** The open result of BSR32(0) *)

Lemma bind_same {A C} (x : M A) (f g : A -> M C) m : (forall a m', f a m' = g a m') -> (y <- x ;; f y) m = (y <- x ;; g y) m.
Proof. intro H. unfold bind. destruct (x m) as [[a m']| |]; auto. Qed.

Lemma bind_left {A C} (x y : M A) (f : A -> M C) m : x m = y m -> (z <- x ;; f z) m = (z <- y ;; f z) m.
Proof. intro H. unfold bind. rewrite H. reflexivity. Qed.

Lemma one_bsr0 isa z B es i p col da db cmpA cmpB mask mb ob m :
  e_branch isa && N.eqb mask 0 = false -> mb = None \/ mb = Some (popcount mask) ->
  sse_one (with_bsr0 isa z) B es i p col da db cmpA cmpB mask mb ob m = sse_one isa B es i p col da db cmpA cmpB mask mb ob m.
Proof.
  intros H Hmb. unfold sse_one. apply bind_left. unfold sse_one_text.
  change (e_avx3 (with_bsr0 isa z)) with (e_avx3 isa). destruct (e_avx3 isa); [reflexivity|].
  change (e_set_len (with_bsr0 isa z)) with (e_set_len isa). change (e_branch (with_bsr0 isa z)) with (e_branch isa).
  change (e_lzcnt (with_bsr0 isa z)) with (e_lzcnt isa). change (f_lzcnt (with_bsr0 isa z)) with (f_lzcnt isa).
  change (entry_n (with_bsr0 isa z)) with (entry_n isa). change (sse_one_vectors (with_bsr0 isa z)) with (sse_one_vectors isa).
  cbv zeta. apply bind_same. intros ob' m1. destruct (e_lzcnt isa); [reflexivity|]. apply bind_left. destruct (N.eqb mask 0) eqn:E; [|reflexivity].
  apply N.eqb_eq in E. subst mask. rewrite andb_true_r in H. rewrite H.
  destruct (e_set_len isa); [|destruct Hmb as [->| ->]]; cbn [given popcount]; [| reflexivity |]; unfold bind, ret; change (0 - 1) with (-1); rewrite !Z.lor_m1_r; reflexivity.
Qed.

Lemma block_bsr0 isa z B es first i p col m : sse_block (with_bsr0 isa z) B es first i p col m = sse_block isa B es first i p col m.
Proof.
  unfold sse_block. apply bind_same. intros da m1. apply bind_same. intros db m2. cbv zeta.
  change (e_fast (with_bsr0 isa z)) with (e_fast isa). change (e_popcnt (with_bsr0 isa z)) with (e_popcnt isa). change (e_branch (with_bsr0 isa z)) with (e_branch isa).
  change (sse_cmp (with_bsr0 isa z)) with (sse_cmp isa). apply bind_same. intros ma m3.
  set (mask := N.lor _ ma). destruct (e_popcnt isa); [destruct (1 <? popcount mask); [reflexivity|]|destruct (negb _); [reflexivity|]].
  all: destruct (e_branch isa && _) eqn:E; [reflexivity|]; apply one_bsr0; auto.
Qed.

Lemma blocks_same b1 b2 width B L es : (forall first i p col m, b1 first i p col m = b2 first i p col m) ->
  forall fuel first i p col m, enc_blocks fuel b1 width B L es first i p col m = enc_blocks fuel b2 width B L es first i p col m.
Proof.
  intro H. induction fuel as [|f IH]; intros first i p col m; [reflexivity|]. cbn [enc_blocks]. unfold bind at 1 4. rewrite H.
  destruct (b2 first i p col m) as [[r m1]| |]; try reflexivity. destruct r as [p' c'|i' p'].
  - cbv zeta. destruct (i + width <? 0); [apply IH|reflexivity].
  - apply bind_same. intros c m2. apply bind_same. intros q m3. cbv zeta. destruct (0 <=? i'); [reflexivity|apply IH].
Qed.

Lemma kernel_bsr0 isa z B L col srcEnd dest len m :
  do_encode_sse (with_bsr0 isa z) B L col srcEnd dest len m = do_encode_sse isa B L col srcEnd dest len m.
Proof.
  unfold do_encode_sse. destruct ((len <=? 64) || (L <? 16)); [reflexivity|]. cbv zeta.
  apply bind_same. intros [[i p] c] m1. apply bind_left. apply blocks_same. apply block_bsr0.
Qed.
