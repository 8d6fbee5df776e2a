(** Searching, and parsing of header lines. *)
From Verif Require Import Base BaseLemmas EncSpec JsBase JsModel JsSpec JsStrings.
From Coq Require Import ZifyBool ZifyNat ZifyN.
From Coq Require Strings.String.
Import String.StringSyntax.
Open Scope Z_scope.
Ltac Zify.zify_post_hook ::= Z.div_mod_to_equations.

(** ** Searching *)

Lemma is_prefix_iff p l : is_prefix p l = true <-> exists r, l = p ++ r.
Proof.
  revert l. induction p as [|x p IH]; intro l; cbn.
  - split; eauto.
  - destruct l as [|y l]. { split; [discriminate|intros [r E]; discriminate]. }
    rewrite andb_true_iff, IH, beq_true. split.
    + intros [-> [r ->]]. eauto.
    + intros [r E]. injection E as -> ->. eauto.
Qed.
Lemma is_prefix_app p r : is_prefix p (p ++ r) = true.
Proof. apply is_prefix_iff. eauto. Qed.


Lemma prefix_occurs s l : is_prefix s l = true -> occurs s l.
Proof. intro H. apply is_prefix_iff in H. destruct H as [r ->]. exists [], r. reflexivity. Qed.
Lemma occurs_cons s c l : occurs s l -> occurs s (c :: l).
Proof. intros (a & b & ->). exists (c :: a), b. reflexivity. Qed.
Lemma occurs_skip s j l : occurs s (skipn j l) -> occurs s l.
Proof. intros (a & b & E). exists (firstn j l ++ a), b. rewrite <- app_assoc, <- E. symmetry. apply firstn_skipn. Qed.
Lemma occurs_inv s c l : occurs s (c :: l) -> is_prefix s (c :: l) = true \/ occurs s l.
Proof.
  intros ([|x a] & b & E).
  - left. rewrite E. cbn [app]. apply is_prefix_app.
  - right. injection E as -> ->. exists a, b. reflexivity.
Qed.
Lemma occurs_no_head s0 s u v : Forall (fun b => b <> s0) u -> occurs (s0 :: s) (u ++ v) -> occurs (s0 :: s) v.
Proof.
  induction 1 as [|c u H _ IH]; [auto|]. cbn [app]. intro O. apply occurs_inv in O. destruct O as [P|O]; [|auto].
  cbn in P. apply andb_prop in P. destruct P as [P _]. apply beq_true in P. congruence.
Qed.
Lemma occurs_len s l : occurs s l -> zlen s <= zlen l.
Proof. intros (a & b & ->). rewrite !zlen_app. pose proof (zlen_nonneg a). pose proof (zlen_nonneg b). lia. Qed.

Lemma find_loop_none s l i : s <> [] -> ~ occurs s l -> find_loop s l i = -1.
Proof.
  intro Hs. revert i. induction l as [|c l IH]; intros i H; [reflexivity|]. cbn [find_loop].
  destruct (is_prefix s (c :: l)) eqn:E; [elim H; apply prefix_occurs, E|].
  apply IH. intro O. apply H, occurs_cons, O.
Qed.

(** A string whose first character does not recur in it cannot overlap itself. *)
Lemma no_overlap_gen s0 t s u b : Forall (fun c => c <> s0) s ->
  is_prefix s (u ++ (s0 :: t) ++ b) = true -> is_prefix s u = true.
Proof.
  intro Hs. revert u. induction Hs as [|c s Hc Hs IH]; intros u H; [reflexivity|].
  destruct u as [|y u].
  - cbn in H. apply andb_prop in H. destruct H as [H _]. apply beq_true in H. congruence.
  - cbn [app is_prefix] in *. apply andb_prop in H. destruct H as [-> H]. cbn [andb]. apply IH. exact H.
Qed.
Lemma no_overlap s0 s u b : Forall (fun c => c <> s0) s -> u <> [] ->
  is_prefix (s0 :: s) (u ++ (s0 :: s) ++ b) = true -> is_prefix (s0 :: s) u = true.
Proof.
  intros Hs Hu H. destruct u as [|x u]; [congruence|]. cbn [app is_prefix] in *. apply andb_prop in H. destruct H as [-> H].
  exact (no_overlap_gen s0 s s u b Hs H).
Qed.

Lemma find_loop_first s0 s x b i : Forall (fun c => c <> s0) s -> ~ occurs (s0 :: s) x ->
  find_loop (s0 :: s) (x ++ (s0 :: s) ++ b) i = i + zlen x.
Proof.
  intros Hs. revert i. induction x as [|c x IH]; intros i H.
  - cbn [app find_loop]. rewrite (is_prefix_app (s0 :: s) b : is_prefix (s0 :: s) (s0 :: s ++ b) = true).
    change (zlen (@nil byte)) with 0. lia.
  - assert (E : is_prefix (s0 :: s) ((c :: x) ++ (s0 :: s) ++ b) = false).
    { apply not_true_is_false. intro P. apply no_overlap in P; [|exact Hs|discriminate]. apply H, prefix_occurs, P. }
    cbn [app find_loop] in *. rewrite E, IH, zlen_cons; [lia|]. intro O. apply H, occurs_cons, O.
Qed.

Lemma no_nl_occurs l : no_nl l <-> ~ occurs [CR; LF] l.
Proof. split; [intros H (a & b & E); exact (H a b E)|intros H a b E; apply H; exists a, b; exact E]. Qed.

Lemma skipn_zlen {A} (a b : list A) : skipn (Z.to_nat (zlen a)) (a ++ b) = b.
Proof. unfold zlen. rewrite Nat2Z.id, skipn_app, skipn_all, Nat.sub_diag. reflexivity. Qed.
Lemma firstn_zlen {A} (a b : list A) : firstn (Z.to_nat (zlen a)) (a ++ b) = a.
Proof. unfold zlen. rewrite Nat2Z.id, firstn_app, firstn_all, Nat.sub_diag. cbn. apply app_nil_r. Qed.

Lemma bufferFind_first s0 s pre x b : Forall (fun c => c <> s0) s -> ~ occurs (s0 :: s) x ->
  bufferFind (pre ++ x ++ (s0 :: s) ++ b) (s0 :: s) (zlen pre) = zlen pre + zlen x.
Proof.
  intros Hs Hx. unfold bufferFind. pose proof (zlen_nonneg s). rewrite !zlen_app, !zlen_cons.
  pose proof (zlen_nonneg x). pose proof (zlen_nonneg b).
  destruct (Z.eqb_spec (zlen s + 1) 0); [lia|].
  match goal with |- (if ?c then _ else _) = _ => assert (c = false) as -> by lia end.
  rewrite skipn_zlen. apply find_loop_first; assumption.
Qed.
Lemma bufferFind_none s pre x : s <> [] -> ~ occurs s x -> bufferFind (pre ++ x) s (zlen pre) = -1.
Proof.
  intros Hs Hx. unfold bufferFind. destruct (zlen s =? 0); [reflexivity|].
  match goal with |- (if ?c then _ else _) = _ => destruct c; [reflexivity|] end.
  rewrite skipn_zlen. apply find_loop_none; assumption.
Qed.
Lemma find_loop_range s l i : find_loop s l i = -1 \/ (i <= find_loop s l i < i + zlen l /\ is_prefix s (skipn (Z.to_nat (find_loop s l i - i)) l) = true).
Proof.
  revert i. induction l as [|c l IH]; intro i; [left; reflexivity|]. cbn [find_loop].
  destruct (is_prefix s (c :: l)) eqn:E.
  - right. rewrite zlen_cons. pose proof (zlen_nonneg l). rewrite Z.sub_diag. split; [lia|exact E].
  - destruct (IH (i + 1)) as [E1|[E1 E2]]; [auto|right]. rewrite zlen_cons. split; [lia|].
    replace (Z.to_nat (find_loop s l (i + 1) - i)) with (S (Z.to_nat (find_loop s l (i + 1) - (i + 1)))) by lia. exact E2.
Qed.

(** The last occurrence. *)
Lemma rev_loop_last s buf : forall k n, is_prefix s (skipn n buf) = true ->
  (forall j, (n < j <= n + k)%nat -> is_prefix s (skipn j buf) = false) ->
  rev_loop s buf (n + k) = Z.of_nat n.
Proof.
  induction k as [|k IH]; intros n H1 H2.
  - rewrite Nat.add_0_r. destruct n; cbn [rev_loop]; rewrite H1; reflexivity.
  - replace (n + S k)%nat with (S (n + k)) by lia. cbn [rev_loop]. rewrite (H2 (S (n + k))) by lia.
    apply IH; [exact H1|]. intros j Hj. apply H2. lia.
Qed.
Lemma skipn_plus {A} (l : list A) a b : skipn a (skipn b l) = skipn (b + a) l.
Proof. revert l. induction b as [|b IH]; intros l; [reflexivity|]. destruct l; [now rewrite !skipn_nil|]. apply IH. Qed.
Lemma bufferFindRev_last s0 s x r : ~ occurs (s0 :: s) (s ++ r) ->
  bufferFindRev (x ++ (s0 :: s) ++ r) (s0 :: s) = zlen x.
Proof.
  intro H. unfold bufferFindRev. rewrite !zlen_app, zlen_cons. pose proof (zlen_nonneg s). pose proof (zlen_nonneg x). pose proof (zlen_nonneg r).
  destruct (Z.eqb_spec (zlen s + 1) 0); [lia|].
  match goal with |- (if ?c then _ else _) = _ => assert (c = false) as -> by lia end.
  rewrite !app_length. replace (length x + (length (s0 :: s) + length r) - length (s0 :: s))%nat with (length x + length r)%nat by lia.
  apply rev_loop_last.
  - rewrite skipn_app, skipn_all, Nat.sub_diag. cbn [skipn app]. exact (is_prefix_app (s0 :: s) r).
  - intros j Hj. apply not_true_is_false. intro P. apply H. replace j with (length x + S (j - length x - 1))%nat in P by lia.
    rewrite <- skipn_plus in P. rewrite skipn_app, skipn_all, Nat.sub_diag in P. cbn [skipn app] in P.
    eapply occurs_skip, prefix_occurs, P.
Qed.

Lemma slice_mid pre x b : slice (pre ++ x ++ b) (zlen pre) (zlen pre + zlen x) = x.
Proof. unfold slice. replace (zlen pre + zlen x - zlen pre) with (zlen x) by lia. rewrite skipn_zlen. apply firstn_zlen. Qed.

(** ** Parsing a line *)

Definition ident (k : jstr) : bool := match k with c :: t => prop_first c && forallb prop_char t | [] => false end.

Lemma prop_rest_ident k r : forallb prop_char k = true -> prop_rest (k ++ 61%N :: r) = Some (k, r).
Proof.
  induction k as [|c k IH]; [reflexivity|]. cbn [forallb app prop_rest]. intro H. apply andb_prop in H. destruct H as [H1 H2].
  rewrite (IH H2), H1. destruct (N.eqb_spec c 61) as [->|_]; [discriminate|reflexivity].
Qed.
Lemma prop_match_ident k r : ident k = true -> prop_match (k ++ 61%N :: r) false = Some (false, k, r).
Proof.
  intro H. unfold ident in H. destruct k as [|c k]; [discriminate|]. apply andb_prop in H. destruct H as [H1 H2].
  cbn [app prop_match prop_here]. rewrite H1, (prop_rest_ident k r H2). reflexivity.
Qed.
Lemma parse_nil f tag props w : parse_props f tag [] props w = (props, [], w).
Proof. destruct f; reflexivity. Qed.
Lemma parse_step f tag k v more props w : ident k = true -> no_space v ->
  jeq tag (J "begin") && jeq k (J "name") = false -> has props k = false ->
  parse_props (S f) tag (k ++ 61%N :: v ++ 32%N :: more) props w = parse_props f tag more (set_prop props k v) w.
Proof.
  intros H1 H2 H3 H4. cbn [parse_props]. rewrite (prop_match_ident _ _ H1), H3, (cut_space_app _ _ H2), H4. reflexivity.
Qed.
Lemma parse_last f tag k v props w : ident k = true -> no_space v ->
  jeq tag (J "begin") && jeq k (J "name") = false -> has props k = false ->
  parse_props (S f) tag (k ++ 61%N :: v) props w = (set_prop props k v, [], w).
Proof.
  intros H1 H2 H3 H4. cbn [parse_props]. rewrite (prop_match_ident _ _ H1), H3, (cut_space_all _ H2), H4. apply parse_nil.
Qed.
Lemma parse_name f v props w : has props (J "name") = false ->
  parse_props (S f) (J "begin") (J "name" ++ 61%N :: v) props w = (set_prop props (J "name") v, [], w).
Proof.
  intros H. cbn [parse_props]. rewrite (prop_match_ident (J "name") v eq_refl). cbn [jeq J]. rewrite H. apply parse_nil.
Qed.

Lemma parse_line_of tag rest d props f : no_space tag -> trim rest = rest -> has_tag d tag = false ->
  f = S (length rest) -> parse_props f tag rest [] [] = (props, [], []) ->
  parse_line (61%N :: 121%N :: tag ++ 32%N :: rest) d = (set_tag d tag props, []).
Proof.
  intros H1 H2 H3 -> H4. unfold parse_line. cbn [skipn]. rewrite cut_space_app by exact H1.
  rewrite skipn_app, skipn_all2 by lia. replace (length tag + 1 - length tag)%nat with 1%nat by lia. cbn [skipn app].
  rewrite H2, H4, H3. reflexivity.
Qed.
