(** The text of a block made from characters that have had their constants added:
    putting the '=' between them, and making room for a single one. *)
From Verif Require Import Base BaseLemmas DecMaskSpec DecMaskModel DecMaskProofs DecVec DecVecProofs DecCompact DecSseModel DecSseProofs
  EncModel EncSpec EncProofs EncSseModel EncBlock EncVec EncFlags.
From Coq Require Import ZifyBool ZifyNat ZifyN.
Ltac Zify.zify_post_hook ::= Z.div_mod_to_equations.

(** ** The characters with their constants added, and the '=' put between them *)

Lemma map2_len {A C D} (f : A -> C -> D) x : forall y, length x = length y -> length (map2 f x y) = length x.
Proof. induction x as [|a x IH]; intros [|b y] H; try discriminate; [reflexivity|]. cbn. rewrite IH; auto. Qed.

Definition adj (fs : list bool) (ds : list byte) : list byte := map2 (fun (f : bool) c => u8 (bz c + if f then 106 else 42)) fs ds.

Fixpoint spread (fs : list bool) (a : list byte) : list byte :=
  match fs, a with
  | f :: fs, c :: a => (if f then [EQS; c] else [c]) ++ spread fs a
  | _, _ => []
  end.

Lemma expand_spread fs : forall ds, expand fs ds = spread fs (adj fs ds).
Proof.
  induction fs as [|f fs IH]; intros [|c ds]; try reflexivity. unfold adj in *. cbn [expand map2 spread]. rewrite IH.
  destruct f; reflexivity.
Qed.

Lemma adj_len fs ds : length fs = length ds -> length (adj fs ds) = length ds.
Proof. intro H. unfold adj. rewrite map2_len; lia. Qed.

Lemma spread_len fs : forall a, length fs = length a -> zlen (spread fs a) = tot fs.
Proof.
  induction fs as [|f fs IH]; intros [|c a] H; try discriminate; [reflexivity|]. cbn [spread].
  rewrite zlen_app, IH, tot_cons by (cbn in H; lia). destruct f; reflexivity.
Qed.

Lemma spread_more fs : forall a b, (length fs <= length a)%nat -> spread fs (a ++ b) = spread fs a.
Proof.
  induction fs as [|f fs IH]; intros a b H; [destruct a, b; reflexivity|]. destruct a as [|c a]; [cbn in H; lia|].
  cbn [app spread]. rewrite IH by (cbn in H; lia). reflexivity.
Qed.

Lemma spread_app f1 f2 : forall a b, length f1 = length a -> spread (f1 ++ f2) (a ++ b) = spread f1 a ++ spread f2 b.
Proof.
  induction f1 as [|f f1 IH]; intros [|c a] b H; try discriminate; [reflexivity|]. cbn [app spread]. rewrite IH by (cbn in H; lia). apply app_assoc.
Qed.

Lemma crit_or first c : must_escape first false c = true -> b_or (b_add c (u8 42)) (u8 64) = u8 (bz c + 106).
Proof. destruct first, c; vm_compute; congruence. Qed.

Lemma tot_negb l : tot (map negb l) = 3 * zlen l - tot l.
Proof. induction l as [|b l IH]; [reflexivity|]. cbn [map]. rewrite !tot_cons, zlen_cons, IH. destruct b; cbn [negb wid]; lia. Qed.


Lemma shift_or (g : byte -> bool) v : (forall c, g c = true -> b_or (b_add c (u8 42)) (u8 64) = u8 (bz c + 106)) -> forall n, (length v <= n)%nat ->
  v_tern_f8 (v_add v (repeat (u8 42) n)) (vm (map g v)) (repeat (u8 64) n) = adj (map g v) v.
Proof.
  intro Hg. induction v as [|c v IH]; intros [|n] H; try reflexivity; [cbn in H; lia|].
  specialize (IH n). unfold adj, v_tern_f8, v_add, v_or, v_and in *. cbn [map vm repeat map2]. fold (vm (map g v)).
  rewrite <- IH by (cbn in H; lia). f_equal. rewrite b_and_bm. destruct (g c) eqn:E; [apply Hg; exact E|]. rewrite b_or_0_r. apply add_42.
Qed.

Lemma shift_flags first v n : (length v <= n)%nat ->
  v_tern_f8 (v_add v (repeat (u8 42) n)) (vm (esc_flags first v)) (repeat (u8 64) n) = adj (esc_flags first v) v.
Proof.
  intro Hv. destruct v as [|c v]; [destruct n; reflexivity|]. destruct n as [|n]; [cbn in Hv; lia|]. cbn [esc_flags].
  pose proof (shift_or (must_escape false false) v (crit_or false) n ltac:(cbn in Hv; lia)) as E.
  pose proof (shift_or (must_escape first false) [c] (crit_or first) 1 ltac:(cbn; lia)) as E1.
  unfold adj, v_tern_f8, v_add, v_or, v_and in *. cbn [map vm repeat map2] in *. fold (vm (map (must_escape false false) v)).
  rewrite <- E. injection E1 as E1. exact (f_equal2 cons E1 eq_refl).
Qed.

(** The same with the expand instruction. *)

Lemma odd_mask b l : N.odd (mask_of (b :: l)) = b /\ N.div2 (mask_of (b :: l)) = mask_of l.
Proof.
  cbn [mask_of]. split.
  - rewrite N.odd_add, N.odd_mul. destruct b; reflexivity.
  - rewrite N.div2_div. destruct b; cbn [N.b2n]; lia.
Qed.

Lemma y_expand_0 src : forall a, y_expand src 0 a = src.
Proof. induction src as [|s src IH]; intro a; [reflexivity|]. cbn [y_expand]. change (N.odd 0) with false. change (N.div2 0) with 0%N. cbv iota. rewrite IH. reflexivity. Qed.

Lemma y_expand_ok fs : forall n k a, (n <= k)%nat -> (length fs <= length a)%nat ->
  y_expand (repeat EQS n) (mask_of (firstn n (map negb (eqs fs)))) a = firstn n (spread fs a ++ repeat EQS k).
Proof.
  induction fs as [|f fs IH]; intros n k a Hn Ha.
  - cbn [eqs flat_map map]. rewrite firstn_nil. change (mask_of []) with 0%N. rewrite y_expand_0.
    assert (E : firstn n (repeat EQS k) = repeat EQS n) by (clear - Hn; revert k Hn; induction n as [|n IH]; intros [|k] H; try lia; try reflexivity; cbn [repeat firstn]; rewrite IH by lia; reflexivity).
    destruct a; symmetry; exact E.
  - destruct a as [|c a]; [cbn in Ha; lia|]. cbn [length] in Ha. cbn [spread eqs flat_map]. fold (eqs fs).
    destruct f; cbn [app map negb].
    + destruct n as [|[|n]]; [reflexivity|reflexivity|]. cbn [firstn repeat y_expand].
      destruct (odd_mask false (true :: firstn n (map negb (eqs fs)))) as [-> ->].
      destruct (odd_mask true (firstn n (map negb (eqs fs)))) as [-> ->]. cbn [hd tl]. rewrite IH with (k := k) by lia. reflexivity.
    + destruct n as [|n]; [reflexivity|]. cbn [firstn repeat y_expand].
      destruct (odd_mask true (firstn n (map negb (eqs fs)))) as [-> ->]. cbn [hd tl]. rewrite IH with (k := k) by lia. reflexivity.
Qed.

Lemma expand_fill_ok fs : forall j p, expand_fill (length fs) j p (mask_of fs) = N.shiftl (mask_of (map negb (eqs fs))) (j + p).
Proof.
  induction fs as [|f fs IH]; intros j p; [symmetry; apply N.shiftl_0_l|]. cbn [length expand_fill].
  rewrite land1_mask. cbn [nth].
  replace (N.shiftr (mask_of (f :: fs)) 1) with (mask_of fs) by (change 1%N with (N.of_nat 1); rewrite mask_shiftr; reflexivity). rewrite IH.
  cbn [eqs flat_map]. fold (eqs fs). destruct f; cbn [N.b2n N.eqb Pos.eqb].
  - change (map negb ([true; false] ++ eqs fs)) with ([false; true] ++ map negb (eqs fs)). rewrite <- mask_app, N.shiftl_lor, N.shiftl_shiftl.
    change (mask_of [false; true]) with (N.shiftl 1 1). rewrite N.shiftl_shiftl. f_equal; f_equal; cbn [length]; lia.
  - change (map negb ([false] ++ eqs fs)) with ([true] ++ map negb (eqs fs)). rewrite <- mask_app, N.shiftl_lor, N.shiftl_shiftl.
    change (mask_of [true]) with 1%N. f_equal; f_equal; cbn [length]; lia.
Qed.

Lemma skipn_S {A} n (l r : list A) x : skipn n l = x :: r -> skipn (S n) l = r.
Proof. revert l; induction n as [|n IH]; intros [|y l] H; try discriminate; [cbn in *; congruence|]. cbn [skipn] in *. apply IH in H. exact H. Qed.

Lemma nth_skip n (l r : list bool) x : skipn n l = x :: r -> nth n l false = x.
Proof. revert l; induction n as [|n IH]; intros [|y l] H; try discriminate; [cbn in *; congruence|]. cbn [skipn nth] in *. apply IH. exact H. Qed.


(** ** A single '=' *)

Definition pick_eq (fs : list bool) (d : list byte) : list byte := map2 (fun (f : bool) c => if f then EQS else c) fs d.

Lemma tern_b8_ok fs : forall d n, (length fs <= n)%nat -> v_tern_b8 d (vm fs) (repeat (u8 61) n) = pick_eq fs d.
Proof.
  induction fs as [|f fs IH]; intros d n H; [destruct d; reflexivity|]. destruct n as [|n]; [cbn in H; lia|].
  unfold v_tern_b8, pick_eq, vm, v_andnot, v_and, v_or in *. cbn [map repeat map2]. destruct d as [|c d]; [reflexivity|]. cbn [map2].
  rewrite IH by (cbn in H; lia). f_equal. rewrite b_andnot_bm, b_and_bm. destruct f; [apply b_or_0_l|apply b_or_0_r].
Qed.

Definition single (n : nat) : list bool := repeat false n ++ true :: repeat false (31 - n).

Ltac vars16 a H := do 16 (destruct a as [|?c a]; [discriminate H|]); destruct a; [|discriminate H].

(** The two vectors of 16 bytes and the byte after them. *)
Definition evex_a (vbmi2 : bool) (fs : list bool) (a : vec) : vec :=
  if vbmi2 then y_expand (v_set1 61) (N.lxor (mask_of fs) 0xffffffff) a
  else pick_eq (firstn 16 fs) (k_blend (uint 32 (2 ^ 32 - mask_of fs)) a (v_alignr a a 15)).
Definition evex_b (fs : list bool) (a b : vec) : vec :=
  pick_eq (skipn 16 fs) (k_blend (N.shiftr (uint 32 (2 ^ 32 - mask_of fs)) 16) b (v_alignr b a 15)).

Lemma evex_none vbmi2 a b : length a = 16%nat -> length b = 16%nat ->
  evex_a vbmi2 (repeat false 32) a ++ evex_b (repeat false 32) a b = spread (repeat false 32) (a ++ b).
Proof. intros Ha Hb. vars16 a Ha. vars16 b Hb. destruct vbmi2; vm_compute; reflexivity. Qed.

Lemma evex_single vbmi2 n a b : (n < 32)%nat -> length a = 16%nat -> length b = 16%nat ->
  (evex_a vbmi2 (single n) a ++ evex_b (single n) a b) ++ [nth 15 b x00] = spread (single n) (a ++ b).
Proof.
  intros Hn Ha Hb. vars16 a Ha. vars16 b Hb. destruct vbmi2; do 32 (destruct n as [|n]; [vm_compute; reflexivity|]); lia.
Qed.

Lemma evex_len vbmi2 fs a b : length fs = 32%nat -> length a = 16%nat -> length b = 16%nat ->
  zlen (evex_a vbmi2 fs a) = 16 /\ zlen (evex_b fs a b) = 16.
Proof.
  intros Hf Ha Hb.
  assert (K : forall k (x y : vec), length x = 16%nat -> length y = 16%nat -> length (k_blend k x y) = 16%nat).
  { intros k x y. generalize 16%nat as n. revert k y. induction x as [|c x IH]; intros k y n Hx Hy; [exact Hx|].
    destruct y as [|e y]; [cbn in *; congruence|]. destruct n; [discriminate|]. cbn [k_blend length]. f_equal. apply IH; cbn in *; lia. }
  assert (Y : forall src k x, length (y_expand src k x) = length src).
  { induction src as [|s src IH]; intros k x; [reflexivity|]. cbn [y_expand]. destruct (N.odd k); cbn [length]; rewrite IH; reflexivity. }
  assert (L : forall x y : vec, length x = 16%nat -> length y = 16%nat -> length (v_alignr x y 15) = 16%nat).
  { intros x y Hx Hy. unfold v_alignr. rewrite firstn_length, skipn_length, app_length. lia. }
  split; unfold zlen.
  - unfold evex_a. destruct vbmi2; [rewrite Y; reflexivity|]. unfold pick_eq. rewrite map2_len; rewrite firstn_length; [lia|rewrite K; auto; lia].
  - unfold evex_b, pick_eq. rewrite map2_len; rewrite skipn_length; [lia|rewrite K; auto; lia].
Qed.
