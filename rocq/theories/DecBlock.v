(** The decoder automata on a block of characters, position by position. *)
From Verif Require Import Base BaseLemmas EncSpec DecSpec DecModel DecProofs DecMaskSpec DecMaskProofs DecSimdModel DecSimdSpec DecVec.
From Coq Require Import ZifyBool ZifyNat ZifyN.
Ltac Zify.zify_post_hook ::= Z.div_mod_to_equations.

(** ** Flags of the positions of a text *)

(** [f] applied to the first [n] suffixes of the text. *)
Fixpoint flags (f : list byte -> bool) (n : nat) (l : list byte) : list bool :=
  match n with O => [] | S k => f l :: flags f k (tl l) end.

(** The [k]-th character is [c]. *)
Definition at_ (k : nat) (c : byte) (l : list byte) : bool :=
  match nth_error l k with Some x => beq x c | None => false end.

Definition crlf (l : list byte) : bool := at_ 0 CR l && at_ 1 LF l.
Definition nldot (l : list byte) : bool := at_ 0 CR l && at_ 1 LF l && at_ 2 DOT l.

Lemma flags_len f n l : length (flags f n l) = n.
Proof. revert l; induction n as [|n IH]; intro l; cbn [flags length]; [|rewrite IH]; reflexivity. Qed.

Lemma tl_skipn {A} (l : list A) n : tl (skipn n l) = skipn (S n) l.
Proof. revert l; induction n as [|n IH]; intros [|a l]; try reflexivity. cbn [skipn]. apply IH. Qed.

Lemma flags_app f n k l : flags f (n + k) l = flags f n l ++ flags f k (skipn n l).
Proof.
  revert l; induction n as [|n IH]; intro l; [reflexivity|].
  cbn [Nat.add flags app]. rewrite IH. do 3 f_equal. destruct l; [destruct n; reflexivity|reflexivity].
Qed.

Lemma flags_ext f g n l : (forall j, (j < n)%nat -> f (skipn j l) = g (skipn j l)) -> flags f n l = flags g n l.
Proof.
  revert l; induction n as [|n IH]; intros l H; [reflexivity|].
  cbn [flags]. f_equal; [apply (H 0%nat); lia|]. apply IH. intros j Hj.
  specialize (H (S j) ltac:(lia)). destruct l; [destruct j; exact H|exact H].
Qed.

Lemma flags_nth f n l j : (j < n)%nat -> nth j (flags f n l) false = f (skipn j l).
Proof.
  revert l j; induction n as [|n IH]; intros l j Hj; [lia|].
  destruct j as [|j]; [reflexivity|]. cbn [flags nth]. rewrite IH by lia.
  destruct l; [destruct j; reflexivity|reflexivity].
Qed.

Lemma flags_firstn f n k l : (k <= n)%nat -> firstn k (flags f n l) = flags f k l.
Proof.
  revert l k; induction n as [|n IH]; intros l k H.
  - destruct k; [reflexivity|lia].
  - destruct k as [|k]; [reflexivity|]. cbn [flags firstn]. f_equal. apply IH. lia.
Qed.

Lemma map2_len {A C D} (f : A -> C -> D) x y : length (map2 f x y) = Nat.min (length x) (length y).
Proof. revert y; induction x as [|a x IH]; intros [|b y]; try reflexivity. cbn [map2 length]. rewrite IH. reflexivity. Qed.

Lemma map2_app {A C D} (f : A -> C -> D) x y x' y' : length x = length y ->
  map2 f (x ++ x') (y ++ y') = map2 f x y ++ map2 f x' y'.
Proof.
  revert y; induction x as [|a x IH]; intros [|b y] H; cbn [length] in H; try lia; [reflexivity|].
  cbn [app map2]. rewrite IH by lia. reflexivity.
Qed.

Lemma map2_flags h f g n l : map2 h (flags f n l) (flags g n l) = flags (fun t => h (f t) (g t)) n l.
Proof. revert l; induction n as [|n IH]; intro l; [reflexivity|]. cbn [flags map2]. rewrite IH. reflexivity. Qed.

Lemma any_flags f n l : existsb id (flags f n l) = true <-> exists j, (j < n)%nat /\ f (skipn j l) = true.
Proof.
  rewrite existsb_exists. split.
  - intros (x & Hx & Ht). unfold id in Ht. subst x. apply (In_nth _ _ false) in Hx as (j & Hj & Hn).
    rewrite flags_len in Hj. rewrite flags_nth in Hn by exact Hj. eauto.
  - intros (j & Hj & Hf). exists true. split; [|reflexivity].
    rewrite <- Hf, <- (flags_nth f n l j Hj). apply nth_In. rewrite flags_len. exact Hj.
Qed.

(** ** What becomes of a block *)

(** Which characters are escaped. *)
Fixpoint escs (esc : bool) (eqs : list bool) : list bool :=
  match eqs with [] => [] | b :: t => esc :: escs (b && negb esc) t end.

Definition lead_out (esc : bool) (eqs : list bool) : bool := last (leads esc eqs) esc.

Definition is_eq (c : byte) : bool := beq c EQS.
Definition is_nl (c : byte) : bool := beq c CR || beq c LF.
Definition special (c : byte) : bool := is_nl c || is_eq c.

(** The characters to be removed: special ones and dots starting a line, unless
    escaped. *)
Definition removed (kills : list bool) (esc : bool) (l : list byte) : list bool :=
  map2 (fun s e => s && negb e) (map2 orb (map special l) kills) (escs esc (map is_eq l)).

Definition decoded (esc : bool) (l : list byte) : list byte :=
  map2 (fun c (e : bool) => if e then unescape c else unshift c) l (escs esc (map is_eq l)).

Fixpoint pick (rm : list bool) (v : list byte) : list byte :=
  match rm, v with
  | r :: rm', x :: v' => if r then pick rm' v' else x :: pick rm' v'
  | _, _ => []
  end.

Lemma escs_len esc l : length (escs esc l) = length l.
Proof. revert esc; induction l as [|b l IH]; intro esc; cbn [escs length]; [|rewrite IH]; reflexivity. Qed.

Lemma escs_leads esc l : escs esc l = firstn (length l) (esc :: leads esc l).
Proof.
  revert esc; induction l as [|b l IH]; intro esc; [reflexivity|].
  cbn [escs leads length firstn]. f_equal. rewrite IH. cbn [firstn]. reflexivity.
Qed.

Lemma last_cons {A} (k : list A) : forall x d, last (x :: k) d = last k x.
Proof.
  induction k as [|y k IH]; intros x d; [reflexivity|].
  change (last (x :: y :: k) d) with (last (y :: k) d). rewrite !IH. reflexivity.
Qed.

Lemma lead_out_cons esc b l : lead_out esc (b :: l) = lead_out (b && negb esc) l.
Proof. unfold lead_out. cbn [leads]. apply last_cons. Qed.

Lemma removed_len kills esc l : length kills = length l -> length (removed kills esc l) = length l.
Proof. intro H. unfold removed. rewrite !map2_len, escs_len, !map_length. lia. Qed.

Lemma decoded_len esc l : length (decoded esc l) = length l.
Proof. unfold decoded. rewrite map2_len, escs_len, map_length. lia. Qed.

(** ** The states *)

(** The two characters before the block, as far as they matter. *)
Definition pre (s : dstate) : list byte :=
  match s with S_CRLF => [CR; LF] | S_CR => [x00; CR] | _ => [x00; x00] end.

Definition is_esc (s : dstate) : bool := match s with S_EQ => true | _ => false end.

(** State [s] is that after characters [a], [b], the latter being a lead or not. *)
Definition ctx (s : dstate) (a b : byte) : Prop :=
  match s with
  | S_CRLF => a = CR /\ b = LF
  | S_CR => b = CR
  | S_NONE | S_EQ => ~ (a = CR /\ b = LF) /\ b <> CR
  | _ => False
  end.

Definition simple_state (s : dstate) : Prop := s = S_NONE \/ s = S_EQ \/ s = S_CR \/ s = S_CRLF.

Lemma pre_ctx s : simple_state s -> exists a b, pre s = [a; b] /\ ctx s a b.
Proof. intros [->|[->|[->| ->]]]; cbn [pre]; do 2 eexists; (split; [reflexivity|]); cbn; repeat split; try discriminate; intros [? ?]; discriminate. Qed.

Lemma nldot3 a b c t : nldot (a :: b :: c :: t) = beq a CR && beq b LF && beq c DOT.
Proof. reflexivity. Qed.

Lemma step_raw_ctx s a b c o s1 : ctx s a b -> step_raw s c = (o, s1) ->
  ctx s1 b c /\ is_esc s1 = is_eq c && negb (is_esc s) /\
  o = if (special c || (beq a CR && beq b LF && beq c DOT)) && negb (is_esc s) then []
      else [if is_esc s then unescape c else unshift c].
Proof.
  intros Hc. unfold step_raw, step_esc, step_normal, special, is_nl, is_eq.
  destruct s; cbn [ctx] in Hc; try contradiction; cbn [is_esc negb andb].
  - destruct Hc as [-> ->]. rewrite !beq_refl. cbn [andb].
    destruct (beq_spec c DOT) as [->|Hd]; [intros [= <- <-]; cbn; repeat split; try discriminate; intros [? ?]; discriminate|].
    destruct (beq_spec c CR) as [->|H1]; [intros [= <- <-]; cbn; auto|].
    destruct (beq_spec c LF) as [->|H2]; [intros [= <- <-]; cbn; repeat split; try discriminate; intros [? ?]; discriminate|].
    destruct (beq_spec c EQS) as [->|H3]; intros [= <- <-]; cbn; repeat split; auto; try discriminate; intros [? ?]; congruence.
  - destruct Hc as [Hc1 Hc2]. rewrite andb_false_r.
    destruct (beq_spec c CR) as [->|H1]; intros [= <- <-]; cbn; repeat split; rewrite ?andb_false_r; auto; try (intros [? ?]; congruence).
  - subst b. replace (beq a CR && beq CR LF && beq c DOT) with false by (cbn; rewrite andb_false_r; reflexivity).
    destruct (beq_spec c LF) as [->|H2]; [intros [= <- <-]; cbn; auto|].
    destruct (beq_spec c CR) as [->|H1]; [intros [= <- <-]; cbn; auto|].
    destruct (beq_spec c EQS) as [->|H3]; intros [= <- <-]; cbn; repeat split; auto; try discriminate; intros [? ?]; congruence.
  - destruct Hc as [Hc1 Hc2].
    assert (E : beq a CR && beq b LF && beq c DOT = false).
    { destruct (beq_spec a CR); [|reflexivity]. destruct (beq_spec b LF); [|reflexivity]. exfalso; auto. }
    rewrite E.
    destruct (beq_spec c CR) as [->|H1]; [intros [= <- <-]; cbn; auto|].
    destruct (beq_spec c LF) as [->|H2]; [intros [= <- <-]; cbn; repeat split; try discriminate; intros [? ?]; congruence|].
    destruct (beq_spec c EQS) as [->|H3]; intros [= <- <-]; cbn; repeat split; auto; try discriminate; intros [? ?]; congruence.
Qed.

(** The dot-unstuffing automaton on a block. *)
Lemma raw_block_ctx l : forall s a b o s1, ctx s a b -> run_raw s l = (o, s1) ->
  o = pick (removed (flags nldot (length l) (a :: b :: l)) (is_esc s) l) (decoded (is_esc s) l) /\
  is_esc s1 = lead_out (is_esc s) (map is_eq l) /\
  exists u v, ctx s1 u v /\ exists w, a :: b :: l = w ++ [u; v].
Proof.
  induction l as [|c l IH]; intros s a b o s1 Hc Hr.
  - cbn [run_raw] in Hr. injection Hr as <- <-. repeat split. exists a, b. split; [exact Hc|]. exists []. reflexivity.
  - cbn [run_raw] in Hr. destruct (step_raw s c) as [o1 s2] eqn:E1. destruct (run_raw s2 l) as [o2 s3] eqn:E2.
    injection Hr as <- <-.
    apply step_raw_ctx with (1 := Hc) in E1 as (Hc2 & He & Ho1).
    destruct (IH _ _ _ _ _ Hc2 E2) as (Ho2 & He2 & u & v & Huv & w & Hw).
    split; [|split].
    + unfold removed, decoded in *. cbn [map escs map2 flags length tl]. rewrite nldot3.
      cbn [pick]. rewrite <- He. rewrite Ho1, Ho2.
      destruct ((special c || beq a CR && beq b LF && beq c DOT) && negb (is_esc s)); reflexivity.
    + cbn [map]. rewrite lead_out_cons, <- He. exact He2.
    + exists u, v. split; [exact Huv|]. exists (a :: w). rewrite Hw. reflexivity.
Qed.

Lemma raw_block s l o s1 : simple_state s -> run_raw s l = (o, s1) ->
  o = pick (removed (flags nldot (length l) (pre s ++ l)) (is_esc s) l) (decoded (is_esc s) l) /\
  is_esc s1 = lead_out (is_esc s) (map is_eq l) /\
  exists u v, ctx s1 u v /\ exists w, pre s ++ l = w ++ [u; v].
Proof.
  intros Hs Hr. destruct (pre_ctx s Hs) as (a & b & -> & Hc). exact (raw_block_ctx l s a b o s1 Hc Hr).
Qed.

Lemma ctx_simple s a b : ctx s a b -> simple_state s.
Proof. unfold simple_state. destruct s; cbn; tauto. Qed.

Lemma dot_next_ctx s u v t : ctx s u v ->
  dot_next s t = if nldot (u :: v :: t) then 1 else if nldot (v :: t) then 2 else 0.
Proof.
  unfold nldot, at_. destruct s; cbn [ctx dot_next]; try contradiction.
  - intros [-> ->]. destruct t as [|c t]; [reflexivity|]. cbn [nth_error]. rewrite !beq_refl. cbn [andb].
    replace (beq LF CR) with false by reflexivity. cbn [andb]. reflexivity.
  - intros [H1 H2]. cbn [nth_error].
    destruct (beq_spec v CR); [contradiction|]. cbn [andb].
    destruct (beq_spec u CR); [|reflexivity]. destruct (beq_spec v LF); [exfalso; auto|reflexivity].
  - intros ->. destruct t as [|c t]; cbn [nth_error]; [rewrite !andb_false_r; reflexivity|].
    replace (beq CR LF) with false by reflexivity. rewrite andb_false_r. cbn [andb]. rewrite beq_refl. cbn [andb].
    destruct t as [|d t]; cbn [nth_error]; [rewrite andb_false_r; reflexivity|reflexivity].
  - intros [H1 H2]. cbn [nth_error].
    destruct (beq_spec v CR); [contradiction|]. cbn [andb].
    destruct (beq_spec u CR); [|reflexivity]. destruct (beq_spec v LF); [exfalso; auto|reflexivity].
Qed.

(** The plain automaton on a block. *)
Lemma plain_block l : forall s o s1, s = S_NONE \/ s = S_EQ -> run_plain s l = (o, s1) ->
  o = pick (removed (repeat false (length l)) (is_esc s) l) (decoded (is_esc s) l) /\
  is_esc s1 = lead_out (is_esc s) (map is_eq l) /\ (s1 = S_NONE \/ s1 = S_EQ).
Proof.
  induction l as [|c l IH]; intros s o s1 Hs Hr.
  - cbn [run_plain] in Hr. injection Hr as <- <-. auto.
  - cbn [run_plain] in Hr. destruct (step_plain s c) as [o1 s2] eqn:E1. destruct (run_plain s2 l) as [o2 s3] eqn:E2.
    injection Hr as <- <-.
    assert (H : (s2 = S_NONE \/ s2 = S_EQ) /\ is_esc s2 = is_eq c && negb (is_esc s) /\
      o1 = if special c && negb (is_esc s) then [] else [if is_esc s then unescape c else unshift c]).
    { revert E1. unfold step_plain, special, is_nl, is_eq.
      destruct Hs as [-> | ->]; cbn [is_esc negb]; rewrite ?andb_true_r, ?andb_false_r.
      - destruct (beq_spec c CR) as [->|H1]; [intros [= <- <-]; auto|].
        destruct (beq_spec c LF) as [->|H2]; [intros [= <- <-]; auto|].
        destruct (beq_spec c EQS) as [->|H3]; intros [= <- <-]; auto.
      - intros [= <- <-]. auto. }
    destruct H as (Hs2 & He & Ho1). destruct (IH _ _ _ Hs2 E2) as (Ho2 & He2 & Hs3).
    split; [|split; [|exact Hs3]].
    + unfold removed, decoded in *. cbn [map escs map2 repeat length]. rewrite orb_false_r.
      cbn [pick]. rewrite <- He, Ho1, Ho2. destruct (special c && negb (is_esc s)); reflexivity.
    + cbn [map]. rewrite lead_out_cons, <- He. exact He2.
Qed.
