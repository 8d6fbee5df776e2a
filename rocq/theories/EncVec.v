(** Vectors whose bytes are selected from a given text, computed symbolically: each
    byte is the bitwise or of the characters at a list of positions. *)
From Verif Require Import Base BaseLemmas DecMaskSpec DecMaskModel DecMaskProofs DecVec DecVecProofs DecCompact DecSseModel DecSseProofs
  EncModel EncSpec EncProofs EncSseModel EncBlock.
From Coq Require Import ZifyBool ZifyNat ZifyN.
Ltac Zify.zify_post_hook ::= Z.div_mod_to_equations.

(** ** Bytes *)

Lemma b_or_0_l b : b_or x00 b = b. Proof. destruct b; reflexivity. Qed.
Lemma b_or_0_r b : b_or b x00 = b. Proof. destruct b; reflexivity. Qed.
Lemma b_or_z a b : bz (b_or a b) = Z.lor (bz a) (bz b).
Proof.
  unfold b_or. rewrite bz_u8. apply Z.mod_small. pose proof (bz_range a). pose proof (bz_range b). split.
  - apply Z.lor_nonneg. lia.
  - destruct (Z.eq_dec (Z.lor (bz a) (bz b)) 0) as [->|N]; [lia|].
    assert (0 < Z.lor (bz a) (bz b)) by (assert (0 <= Z.lor (bz a) (bz b)) by (apply Z.lor_nonneg; lia); lia).
    apply Z.log2_lt_pow2 with (b := 8); auto. rewrite Z.log2_lor by lia.
    apply Z.max_lub_lt; (destruct (Z.eq_dec (bz a) 0) as [Ea|Ea]; [|]); (destruct (Z.eq_dec (bz b) 0) as [Eb|Eb]; [|]);
      rewrite ?Ea, ?Eb; try (cbn; lia); apply Z.log2_lt_pow2; lia.
Qed.
Lemma b_or_assoc a b c : b_or (b_or a b) c = b_or a (b_or b c).
Proof. apply bz_inj. rewrite !b_or_z. symmetry. apply Z.lor_assoc. Qed.
Lemma b_and_bm f b : b_and (bm f) b = if f then b else x00. Proof. destruct f, b; reflexivity. Qed.
Lemma b_andnot_bm f b : b_andnot (bm f) b = if f then x00 else b. Proof. destruct f, b; reflexivity. Qed.

(** ** Symbolic bytes *)

Definition sym := list nat.

Section Sym.
Variable d : list byte.

Definition V (s : sym) : byte := fold_right (fun k acc => b_or (nth k d x00) acc) x00 s.

Lemma V_one k : V [k] = nth k d x00. Proof. apply b_or_0_r. Qed.
Lemma V_app a b : V (a ++ b) = b_or (V a) (V b).
Proof. induction a as [|k a IH]; [symmetry; apply b_or_0_l|]. cbn [app V fold_right]. fold (V (a ++ b)) (V a). rewrite IH. symmetry. apply b_or_assoc. Qed.

Lemma V_seq k n : (k + n <= length d)%nat -> map V (map (fun j => [j]) (seq k n)) = firstn n (skipn k d).
Proof.
  intro H. rewrite map_map. revert k H; induction n as [|n IH]; intros k H; [reflexivity|].
  cbn [seq map]. rewrite V_one, IH by lia.
  assert (E : skipn k d = nth k d x00 :: skipn (S k) d).
  { clear IH. revert d H. induction k as [|k IH]; intros [|c l] H; cbn in H; try lia; [reflexivity|]. apply (IH l). lia. }
  rewrite E. reflexivity.
Qed.

Definition s_and (bs : list bool) (a : list sym) : list sym := map2 (fun (b : bool) s => if b then s else []) bs a.
Definition s_andnot (bs : list bool) (a : list sym) : list sym := map2 (fun (b : bool) s => if b then [] else s) bs a.
Definition s_or : list sym -> list sym -> list sym := map2 (@app nat).
Definition s_slli (a : list sym) (n : nat) : list sym := firstn 16 (repeat [] n ++ a).
Definition s_srli (a : list sym) (n : nat) : list sym := skipn n a ++ repeat [] n.
Definition s_alignr (a b : list sym) (n : nat) : list sym := firstn 16 (skipn n (b ++ a)).
Definition s_shuffle (a : list sym) (idx : vec) : list sym :=
  map (fun i => if b_top i then [] else nth (Z.to_nat (Z.land (bz i) 15)) a []) idx.
Definition s_blend (a b : list sym) (bs : list bool) : list sym := map2 (fun ab (c : bool) => if c then snd ab else fst ab) (map2 pair a b) bs.

Lemma v_and_s bs a : v_and (vm bs) (map V a) = map V (s_and bs a).
Proof. revert a; induction bs as [|b bs IH]; intros [|s a]; try reflexivity. cbn. fold (vm bs). unfold v_and in IH. rewrite IH, b_and_bm. destruct b; reflexivity. Qed.
Lemma v_andnot_s bs a : v_andnot (vm bs) (map V a) = map V (s_andnot bs a).
Proof. revert a; induction bs as [|b bs IH]; intros [|s a]; try reflexivity. cbn. fold (vm bs). unfold v_andnot in IH. rewrite IH, b_andnot_bm. destruct b; reflexivity. Qed.
Lemma v_or_s a b : v_or (map V a) (map V b) = map V (s_or a b).
Proof. revert b; induction a as [|s a IH]; intros [|t b]; try reflexivity. cbn. unfold v_or in IH. rewrite IH, <- V_app. reflexivity. Qed.
Lemma map_rep n : map V (repeat [] n) = repeat x00 n.
Proof. induction n as [|n IH]; [reflexivity|]. cbn. rewrite IH. reflexivity. Qed.
Lemma v_slli_s a n : v_slli (map V a) n = map V (s_slli a n).
Proof. unfold v_slli, s_slli. rewrite <- firstn_map, map_app, map_rep. reflexivity. Qed.
Lemma v_srli_s a n : v_srli (map V a) n = map V (s_srli a n).
Proof. unfold v_srli, s_srli. rewrite map_app, <- skipn_map, map_rep. reflexivity. Qed.
Lemma v_alignr_s a b n : v_alignr (map V a) (map V b) n = map V (s_alignr a b n).
Proof. unfold v_alignr, s_alignr. rewrite <- firstn_map, <- skipn_map, map_app. reflexivity. Qed.
Lemma v_shuffle_s a idx : v_shuffle (map V a) idx = map V (s_shuffle a idx).
Proof.
  unfold v_shuffle, s_shuffle. rewrite map_map. apply map_ext. intro i. destruct (b_top i); [reflexivity|].
  change x00 with (V []). apply map_nth.
Qed.
Lemma v_blend_s a b bs : v_blendv (map V a) (map V b) (vm bs) = map V (s_blend a b bs).
Proof.
  unfold v_blendv, s_blend. revert b bs; induction a as [|s a IH]; intros [|t b] [|c bs]; try reflexivity.
  cbn. fold (vm bs). rewrite IH, b_top_bm. destruct c; reflexivity.
Qed.

End Sym.

Lemma text_sym d n : length d = n -> d = map (V d) (map (fun j => [j]) (seq 0 n)).
Proof. intro H. rewrite V_seq by lia. cbn [skipn]. symmetry. apply firstn_all2. lia. Qed.

(** ** The text of a block, symbolically: each byte is a symbolic one plus a constant *)

(** The character at position [k] and the constant added to it. *)
Fixpoint plan (fs : list bool) (k : nat) : list (sym * byte) :=
  match fs with
  | [] => []
  | f :: t => (if f then [([], EQS); ([k], u8 106)] else [([k], u8 42)]) ++ plan t (S k)
  end.

Definition run_plan (d : list byte) (l : list (sym * byte)) : list byte := map (fun x => b_add (V d (fst x)) (snd x)) l.

Lemma run_plan_add d a x : v_add (map (V d) a) x = run_plan d (combine a x).
Proof. unfold run_plan. revert x; induction a as [|s a IH]; intros [|c x]; try reflexivity. cbn. unfold v_add in IH. rewrite IH. reflexivity. Qed.

Lemma run_plan_app d a b : run_plan d (a ++ b) = run_plan d a ++ run_plan d b.
Proof. apply map_app. Qed.

Lemma add_106 c : b_add c (u8 106) = u8 (bz c + 106). Proof. destruct c; reflexivity. Qed.
Lemma add_42 c : b_add c (u8 42) = u8 (bz c + 42). Proof. destruct c; reflexivity. Qed.

Lemma plan_ok fs : forall k d ds, firstn (length fs) (skipn k d) = ds -> length ds = length fs ->
  run_plan d (plan fs k) = expand fs ds.
Proof.
  induction fs as [|f fs IH]; intros k d ds H Hl.
  - destruct ds; [reflexivity|discriminate].
  - destruct ds as [|c ds]; [discriminate|]. cbn [length] in Hl. cbn [plan expand].
    assert (E : skipn k d = c :: skipn (S k) d).
    { cbn [length firstn] in H. destruct (skipn k d) as [|c' t] eqn:Ek; [discriminate|]. injection H as -> _. f_equal.
      clear - Ek. revert d Ek. induction k as [|k IH]; intros [|x d] Ek; try discriminate.
      - cbn in Ek. injection Ek as _ <-. reflexivity.
      - cbn [skipn] in Ek. apply (IH d Ek). }
    assert (Ec : nth k d x00 = c).
    { clear - E. revert d E. induction k as [|k IH]; intros [|x d] E; try discriminate; [injection E; auto|]. apply IH. exact E. }
    rewrite E in H. cbn [length firstn] in H. injection H as H.
    rewrite run_plan_app, (IH (S k) d ds) by (auto; lia). f_equal.
    destruct f; cbn [run_plan map fst snd expand1]; rewrite V_one, Ec; [rewrite add_106|rewrite add_42]; reflexivity.
Qed.
