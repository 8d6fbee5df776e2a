(** Memory safety of the RVV decoder for every vector length and every text. *)
From Verif Require Import Base BaseLemmas EncSpec DecSpec DecModel DecProofs DecNode DecNodeSpec DecSimdModel DecSimdSpec DecSimdMain DecMaskModel DecVec DecVecProofs
  DecKernelModel EncSseModel EncRvvModel DecRvvModel DecRvvMain DecSafe.
From Coq Require Import ZifyBool ZifyNat ZifyN.
Ltac Zify.zify_post_hook ::= Z.div_mod_to_equations.

(** The loop over the carries does not end in its rounds for some masks. *)
Definition endless (rv : rvd) : Prop := exists a b, odd_groups rv a b = NoFuel.

Lemma map2_le {A C D} (f : A -> C -> D) x y : (length (map2 f x y) <= length y)%nat /\ (length (map2 f x y) <= length x)%nat.
Proof. revert y. induction x as [|a x IH]; intros [|b y]; cbn [map2 length]; try lia. specialize (IH y). lia. Qed.

Lemma compress_le m : forall v, (length (compress m v) <= length v)%nat.
Proof. induction m as [|b m IH]; intros [|x v]; cbn [compress length]; try lia. specialize (IH v). destruct b; cbn [length]; lia. Qed.

Lemma cpop_le l : 0 <= cpop l <= Z.of_nat (length l).
Proof. unfold cpop. induction l as [|[] l IH]; cbn [filter id length] in *; lia. Qed.

Lemma may_newlines H rv r e B x data cmp cmpEq cmpCr lf m : rlo B <= x -> x + Z.of_nat (dvl rv) + lookahead r e <= rhi B -> (2 <= dvl rv)%nat ->
  may H (rvd_newlines rv r e B x data cmp cmpEq cmpCr lf) m (fun y m' => m' = m /\
    match y with inl _ => True | inr (cmp', _) => (length cmp' <= length cmp)%nat end).
Proof.
  intros H1 H2 Hd. unfold rvd_newlines.
  assert (DONE : forall l', may H (ret (inr (cmp, l'))) m (fun (y : Z + (list bool * vec)) m' => m' = m /\
    match y with inl _ => True | inr (cmp', _) => (length cmp' <= length cmp)%nat end)) by (intro; apply may_ret; split; [reflexivity|lia]).
  assert (STOP : may H (n <- rvd_stop r B x cmp ;; ret (inl n)) m (fun (y : Z + (list bool * vec)) m' => m' = m /\
    match y with inl _ => True | inr (cmp', _) => (length cmp' <= length cmp)%nat end)).
  { eapply may_bind; [apply may_fwd; [lia|]|].
    - unfold lookahead in H2. destruct e; [|destruct r]; lia.
    - intros nm m1 ->. apply may_ret. split; [reflexivity|exact I]. }
  destruct (_ && _) eqn:E; [|apply DONE].
  eapply may_bind.
  { apply may_load_n; [lia|]. unfold lookahead in H2. destruct e; [lia|]. destruct r; [lia|discriminate E]. }
  cbv zeta. intros w m1 [-> Hw]. clear E.
  destruct (r && _).
  - destruct (if e then _ else false); [exact STOP|]. apply may_ret. split; [reflexivity|]. apply (proj2 (map2_le _ _ _)).
  - destruct e; [|apply DONE]. destruct (0 <? _); [|apply DONE]. destruct (0 <? _); [exact STOP|apply DONE].
Qed.

Lemma escapes_may rv cmp cmpEq esc : match rvd_escapes rv cmp cmpEq esc with
  | Ok (_, _, cmp') => (length cmp' <= length cmp)%nat | UB => False | NoFuel => endless rv end.
Proof.
  assert (L : forall f k c o, carry_loop rv f k c o <> UB).
  { induction f as [|f IH]; intros k c o; cbn [carry_loop]; destruct (0 <? _); try discriminate. apply IH. }
  assert (O : forall a b, odd_groups rv a b <> UB).
  { intros a b. unfold odd_groups. cbv zeta. destruct (dvl rv <=? 64)%nat; [discriminate|].
    match goal with |- context [carry_loop rv ?f ?k ?c ?o] => specialize (L f k c o); destruct (carry_loop rv f k c o) end; congruence. }
  unfold rvd_escapes, rvd_fix. cbv zeta. destruct (0 <? _); [|lia].
  match goal with |- context [odd_groups rv ?a ?b] => specialize (O a b); destruct (odd_groups rv a b) as [l| |] eqn:E end.
  - apply (proj1 (map2_le _ _ _)).
  - congruence.
  - eexists _, _. exact E.
Qed.

Lemma may_block rv r e B src i p esc yo lf m : rlo B <= src + i -> src + i + Z.of_nat (dvl rv) + lookahead r e <= rhi B -> (2 <= dvl rv)%nat ->
  wlo B <= p -> p + Z.of_nat (dvl rv) <= whi B ->
  may (endless rv) (rvd_block rv r e B src i (p, esc, yo, lf)) m (fun x m' => match x with
    | inl _ => m' = m
    | inr (p', _, _, _) => p <= p' <= p + Z.of_nat (dvl rv) /\ forall q, ~ (p <= q < p + Z.of_nat (dvl rv)) -> m' q = m q
    end).
Proof.
  intros H1 H2 Hd H3 H4. unfold rvd_block.
  assert (LA : 0 <= lookahead r e) by (unfold lookahead; destruct e, r; lia).
  eapply may_bind; [apply may_load_n; lia|]. intros data m1 [-> Hl]. cbv zeta.
  match goal with |- context [rvd_newlines rv r e B _ data ?c _ _ _] => set (cmp := c) end.
  assert (Hc : (length cmp <= dvl rv)%nat).
  { subst cmp. eapply Nat.le_trans; [apply (proj2 (map2_le _ _ _))|].
    eapply Nat.le_trans; [apply (proj2 (map2_le _ _ _))|]. rewrite map_length. lia. }
  destruct (negb _).
  - eapply may_bind; [apply may_newlines; lia|]. intros [nm|[cmp' lf']] m1 [-> Hc']; [apply may_ret; reflexivity|].
    eapply (may_bind (endless rv) _ _ m (fun x m' => m' = m /\ let '(_, _, c) := x in (length c <= length cmp')%nat)).
    { unfold may, lift. pose proof (escapes_may rv cmp' (map (fun b => beq b (u8 61)) data) esc) as X.
      destruct (rvd_escapes _ _ _ _) as [[[? ?] ?]| |]; auto. }
    intros [[ce cs] c] m1 [-> Hc2].
    match goal with |- context [compress c ?v] => set (pk := compress c v) end.
    assert (Hp : (length pk <= dvl rv)%nat).
    { subst pk. eapply Nat.le_trans; [apply compress_le|]. eapply Nat.le_trans; [apply (proj2 (map2_le _ _ _))|]. lia. }
    assert (Hz : zlen (pk ++ map (d_tail rv) (seq (length pk) (dvl rv - length pk))) = Z.of_nat (dvl rv)).
    { unfold zlen. rewrite app_length, map_length, seq_length. lia. }
    eapply may_bind; [apply may_store_n; rewrite ?Hz; lia|]. rewrite Hz. intros u m1 F. apply may_ret.
    pose proof (cpop_le c). split; [lia|exact F].
  - assert (Hz : zlen (map2 b_sub data yo) <= Z.of_nat (dvl rv)).
    { unfold zlen. destruct (map2_le b_sub data yo) as [_ X]. lia. }
    eapply may_bind; [apply may_store_n; lia|]. intros u m1 F. apply may_ret. pose proof (cpop_le cmp). split; [lia|].
    intros q Hq. apply F. lia.
Qed.

Lemma rvv_may rv r e : (e = true -> r = true) -> kernel_may (endless rv) r e (Z.of_nat (dvl rv)) (do_decode_rvv rv r e).
Proof.
  intros Hre B src dest n look esc nm m Hn Hw _ Hl H1 H2 H3 H4. unfold do_decode_rvv. cbv zeta.
  assert (D : (32 <= dvl rv)%nat) by (unfold dvl; pose proof (Nat.pow_nonzero 2 (d_log rv)); lia).
  assert (Hwn : Z.of_nat (dvl rv) <= n).
  { destruct (Z_le_gt_dec (Z.of_nat (dvl rv)) n); [assumption|]. rewrite Z.mod_small in Hw by lia. lia. }
  eapply may_bind.
  { apply may_back; [exact Hn|]. intros ->. unfold lookahead in Hl. destruct e; lia. }
  intros nm1 m1 ->.
  eapply (may_bind (endless rv) _ _ m (fun x m' => let '(stop, (p', _, _, _)) := x in let i' := match stop with Some (i', _) => i' | None => 0 end in
    - n <= i' <= 0 /\ dest <= p' <= dest + (n + i') /\ forall q, ~ (dest <= q < dest + n) -> m' q = m q)).
  - eapply may_mono.
    + apply (may_loop (endless rv) (Z.of_nat (dvl rv)) _ (fun st : rvd_vars => let '(p, _, _, _) := st in p) n dest); try lia.
      intros i [[[p ef] yo] lf] m1 Hi1 Hi2 _ Hp. eapply may_mono.
      * apply may_block; lia.
      * intros [k|[[[p' ef'] yo'] lf']] m2; [auto|]. intros [A F]. split; [exact A|]. intros q Hq. apply F. lia.
      * rewrite Z.mod_opp_l_z by lia. reflexivity.
    + intros [stop [[[p' ef] yo] lf]] m1. cbv beta iota zeta. auto.
  - intros [stop [[[p' ef] yo] lf]] m1. cbv beta iota zeta. intros (I1 & I2 & F).
    destruct stop as [[i' nm']|]; apply may_ret; (split; [lia|]; split; [lia|exact F]).
Qed.

Lemma rvv_safe rv r e : (e = true -> r = true) -> forall src dest len state m, 0 <= len -> (e = true -> state <> None) -> dec_layout src len dest ->
  may (endless rv) (do_decode_simd (do_decode_rvv rv r e) r e (Z.of_nat (dvl rv)) {| rlo := src; rhi := src + len; wlo := dest; whi := dest + len |}
    src dest len state) m (within src dest len m).
Proof.
  intros Hre src dest len state m Hl Hs Hd. pose proof (rvv_may rv r e Hre) as HK. rewrite dvl_pow in *.
  apply may_front; auto.
  - unfold rv_log. lia.
  - unfold dec_layout in Hd. constructor; cbn [rlo rhi wlo whi]; lia.
Qed.

(** Up to 1024 bits the loop is entered only for carries that were not written. *)
Lemma short_ends rv : (d_log rv <= 3)%nat -> (forall i, d_carry rv i = false) -> ~ endless rv.
Proof.
  intros Hd Hc (a & b & E). revert E. unfold odd_groups. cbv zeta. destruct (dvl rv <=? 64)%nat; [discriminate|].
  assert (K : (Nat.max 1 (dvl rv / 64) < 8)%nat).
  { unfold dvl. destruct (d_log rv) as [|[|[|[|?]]]]; try lia; cbn; lia. }
  unfold mask_lshift64 at 1. replace (_ <? 8)%nat with true by lia.
  match goal with |- context [carry_loop rv ?f ?k ?c ?o] => replace (carry_loop rv f k c o) with (Ok o); [discriminate|] end.
  assert (Z : forall n k, cpop (map (d_carry rv) (seq k n)) = 0).
  { induction n as [|n IH]; intro k; [reflexivity|]. cbn [seq map]. rewrite Hc. unfold cpop in *. cbn [filter id]. apply IH. }
  destruct (d_rounds rv); cbn [carry_loop]; rewrite Z; reflexivity.
Qed.

Lemma tiny_ends rv : (d_log rv <= 1)%nat -> ~ endless rv.
Proof.
  intros Hd (a & b & E). revert E. unfold odd_groups. cbv zeta.
  replace (dvl rv <=? 64)%nat with true; [discriminate|]. unfold dvl. destruct (d_log rv) as [|[|?]]; try lia; reflexivity.
Qed.
