(** The automata of DecSpec.v agree with the textual reference. *)
From Verif Require Import Base BaseLemmas EncSpec EncProofs EncShape PropsEncLemmas DecSpec DecProofs.

(** ** Composition *)

Lemma run_raw_app s a b :
  run_raw s (a ++ b) = prep (fst (run_raw s a)) (run_raw (snd (run_raw s a)) b).
Proof.
  revert s; induction a as [|c a IH]; intro s.
  - cbn [app run_raw fst snd]. rewrite prep_nil. reflexivity.
  - cbn [app]. rewrite !run_raw_cons, IH. cbn [prep fst snd]. rewrite <- prep_app. reflexivity.
Qed.

Lemma run_end_done s l o s' r : run_end s l = (o, s', E_NONE, r) -> r = [].
Proof.
  revert s o; induction l as [|c l IH]; intros s o H.
  - injection H as _ _ <-. reflexivity.
  - rewrite run_end_cons in H. destruct (step_end s c) as [o1 s1|s1 e] eqn:E.
    + destruct (run_end s1 l) as [[[o2 s2] e2] r2] eqn:E2. cbn [prep4] in H.
      injection H as _ -> -> ->. eauto.
    + injection H as _ _ -> _. destruct s; cbn [step_end] in E;
      repeat match type of E with (if ?x then _ else _) = _ => destruct x end; discriminate.
Qed.

Lemma run_end_app s a b :
  run_end s (a ++ b) =
    match run_end s a with
    | (o, s1, E_NONE, _) => prep4 o (run_end s1 b)
    | (o, s1, e, r) => (o, s1, e, r ++ b)
    end.
Proof.
  revert s; induction a as [|c a IH]; intro s.
  - cbn [app run_end]. rewrite prep4_nil. reflexivity.
  - cbn [app]. rewrite !run_end_cons. destruct (step_end s c) as [o1 s1|s1 e] eqn:E.
    + rewrite IH. destruct (run_end s1 a) as [[[o2 s2] e2] r2]. cbn [prep4].
      destruct e2; try reflexivity. rewrite prep4_app. reflexivity.
    + destruct e; try reflexivity.
      destruct s; cbn [step_end] in E;
      repeat match type of E with (if ?x then _ else _) = _ => destruct x end; discriminate.
Qed.

(** ** Plain decoding *)

Lemma run_plain_text s l : s <> S_EQ -> fst (run_plain s l) = decode_text l.
Proof.
  assert (G : forall n l s, (length l <= n)%nat -> s <> S_EQ -> fst (run_plain s l) = decode_text l).
  2:{ intros. eapply G; eauto. }
  clear. induction n as [|n IH]; intros [|c t] s Hn Hs; try reflexivity; cbn [length] in Hn; [lia|].
  rewrite run_plain_cons. cbn [decode_text].
  assert (E : step_plain s c = step_plain S_NONE c) by (destruct s; try congruence; reflexivity).
  rewrite E. cbn [step_plain]. destruct (beq c CR || beq c LF).
  - cbn [prep fst snd app]. apply IH; [lia|discriminate].
  - destruct (beq c EQS).
    + cbn [fst snd]. rewrite prep_nil. destruct t as [|d t]; [reflexivity|].
      rewrite run_plain_cons. cbn [step_plain prep fst snd app]. f_equal. cbn [length] in Hn.
      apply IH; [lia|discriminate].
    + cbn [prep fst snd app]. f_equal. apply IH; [lia|discriminate].
Qed.

(** ** Dot-unstuffing decoding *)

Lemma decode_text_cons_normal c t :
  beq c CR = false -> beq c LF = false -> beq c EQS = false ->
  decode_text (c :: t) = unshift c :: decode_text t.
Proof. intros H1 H2 H3. cbn [decode_text]. rewrite H1, H2, H3. reflexivity. Qed.

Lemma unstuff_normal c t : beq c CR = false -> unstuff false (c :: t) = c :: unstuff false t.
Proof. intro H. cbn [unstuff andb]. destruct t; [reflexivity|]. rewrite H. reflexivity. Qed.
Lemma unstuff_bol c t : beq c DOT = false -> unstuff true (c :: t) = unstuff false (c :: t).
Proof. intro H. cbn [unstuff andb]. rewrite H. reflexivity. Qed.

(** What is left to decode after a CR has been read. *)
Definition after_cr (l : list byte) : list byte :=
  match l with
  | d :: t => if beq d LF then LF :: unstuff true t else unstuff false l
  | [] => []
  end.
Lemma unstuff_cr t : unstuff false (CR :: t) = CR :: after_cr t.
Proof. destruct t as [|d t]; [reflexivity|]. cbn [unstuff andb after_cr]. rewrite beq_refl.
  cbn [andb]. destruct (beq d LF) eqn:E; [|reflexivity]. bools. reflexivity. Qed.

Lemma run_raw_text_gen : forall n l, (length l <= n)%nat ->
  fst (run_raw S_NONE l) = decode_text (unstuff false l) /\
  fst (run_raw S_CRLF l) = decode_text (unstuff true l) /\
  fst (run_raw S_CR l) = decode_text (after_cr l) /\
  fst (run_raw S_EQ l) = decode_text (EQS :: unstuff false l).
Proof.
  induction n as [|n IH]; intros [|c t] Hn; try (repeat split; reflexivity); cbn [length] in Hn; [lia|].
  destruct (IH t ltac:(lia)) as (I1 & I2 & I3 & I4).
  assert (N : fst (run_raw S_NONE (c :: t)) = decode_text (unstuff false (c :: t))).
  { rewrite run_raw_cons. cbn [step_raw]. unfold step_normal.
    destruct (beq c CR) eqn:E1; bools.
    { cbn [prep fst snd app]. rewrite I3, unstuff_cr. reflexivity. }
    rewrite unstuff_normal by auto.
    destruct (beq c LF) eqn:E2; bools.
    { cbn [prep fst snd app]. rewrite I1. reflexivity. }
    destruct (beq c EQS) eqn:E3; bools.
    { cbn [prep fst snd app]. rewrite I4. reflexivity. }
    cbn [prep fst snd app]. rewrite I1, decode_text_cons_normal by auto. reflexivity. }
  split; [exact N|]. split; [|split].
  - destruct (beq c DOT) eqn:E1; bools.
    + rewrite run_raw_cons. cbn [step_raw]. rewrite beq_refl. cbn [prep fst snd app].
      rewrite I1. reflexivity.
    + rewrite unstuff_bol by auto. rewrite <- N. rewrite !run_raw_cons. cbn [step_raw]. rewrite E1. reflexivity.
  - cbn [after_cr]. destruct (beq c LF) eqn:E1; bools.
    + rewrite run_raw_cons. cbn [step_raw]. rewrite beq_refl. cbn [prep fst snd app].
      rewrite I2. reflexivity.
    + rewrite <- N. rewrite !run_raw_cons. cbn [step_raw]. rewrite E1. reflexivity.
  - rewrite run_raw_cons. cbn [step_raw step_esc fst snd].
    destruct (beq c CR) eqn:E1; bools; cbn [prep fst app].
    + rewrite I3, unstuff_cr. reflexivity.
    + rewrite I1, unstuff_normal by auto. reflexivity.
Qed.

Lemma run_raw_text l : fst (run_raw S_CRLF l) = decode_text (unstuff true l).
Proof. apply (run_raw_text_gen (length l) l). lia. Qed.

(** ** End detection *)

(** [pre p r]: [p] is a prefix of [r]; used on reversed text. *)
Fixpoint pre (p r : list byte) : bool :=
  match p, r with
  | [], _ => true
  | x :: p, y :: r => beq y x && pre p r
  | _, [] => false
  end.

Lemma pre_spec p r : pre p r = true <-> exists t, r = p ++ t.
Proof.
  revert r; induction p as [|x p IH]; intros r; cbn [pre app].
  - split; eauto.
  - destruct r as [|y r].
    + split; [discriminate|intros [t H]; discriminate].
    + rewrite andb_true_iff, beq_true, IH. split.
      * intros [-> [t ->]]. eauto.
      * intros [t [= -> ->]]. eauto.
Qed.

Lemma pre_ends p t : pre (rev p) (rev t) = true <-> ends_with p t.
Proof.
  rewrite pre_spec. split.
  - intros [x H]. exists (rev x). rewrite <- (rev_involutive t), H, rev_app_distr, rev_involutive. reflexivity.
  - intros [x ->]. exists (rev x). apply rev_app_distr.
Qed.

Definition classes (r : list byte) : bool * bool * bool * bool * bool :=
  (pre [CR] r, pre [LF; CR] r, pre [DOT; LF; CR] r, pre [CR; DOT; LF; CR] r,
   pre [EQS; LF; CR] r || pre [EQS; DOT; LF; CR] r).

Definition tracks (s : dstate) (r : list byte) : Prop :=
  classes r =
    match s with
    | S_CRLF => (false, true, false, false, false)
    | S_CR => (true, false, false, false, false)
    | S_CRLFDT => (false, false, true, false, false)
    | S_CRLFDTCR => (true, false, false, true, false)
    | S_CRLFEQ => (false, false, false, false, true)
    | S_EQ | S_NONE => (false, false, false, false, false)
    end /\ (s = S_EQ -> pre [EQS] r = true).

Definition control (r : list byte) : bool :=
  pre [YY; EQS; LF; CR] r || pre [YY; EQS; DOT; LF; CR] r.
Definition article (r : list byte) : bool := pre [LF; CR; DOT; LF; CR] r.

Lemma classes_step c r :
  let '(a1, a2, a3, a4, a5) := classes r in
  classes (c :: r) = (beq c CR, beq c LF && a1, beq c DOT && a2, beq c CR && a3, beq c EQS && (a2 || a3)) /\
  control (c :: r) = beq c YY && a5 /\ article (c :: r) = beq c LF && a4.
Proof.
  unfold classes, control, article. cbn [pre]. rewrite andb_true_r.
  split; [|split]; auto; destruct (beq c EQS), (beq c YY); cbn; reflexivity.
Qed.

Lemma track_step s c r : tracks s r ->
  match step_end s c with
  | Go o s' => tracks s' (c :: r) /\ control (c :: r) = false /\ article (c :: r) = false
  | Stop s' e => match e with E_NONE => False | E_CONTROL => control (c :: r) = true
                 | E_ARTICLE => article (c :: r) = true end
  end.
Proof.
  unfold tracks. intros [H HE]. pose proof (classes_step c r) as K. rewrite H in K.
  destruct (beq c CR) eqn:C1; bools; [|destruct (beq c LF) eqn:C2; bools; [|destruct (beq c DOT) eqn:C3; bools;
    [|destruct (beq c EQS) eqn:C4; bools; [|destruct (beq c YY) eqn:C5; bools]]]];
  destruct s; cbn [step_end]; unfold go, step_normal, step_esc; known; cbn [fst snd];
  destruct K as (K1 & K2 & K3);
  rewrite ?K1, ?K2, ?K3; known; cbn [andb orb];
  repeat split; try reflexivity; try discriminate; intros _; cbn [pre]; rewrite beq_refl; reflexivity.
Qed.

Lemma tracks_start s : tracks s (rev (state_text s)).
Proof. destruct s; split; vm_compute; auto; discriminate. Qed.

Lemma no_marker_start s : control (rev (state_text s)) = false /\ article (rev (state_text s)) = false.
Proof. destruct s; vm_compute; auto. Qed.

Definition marked (e : dend) (r : list byte) : bool :=
  match e with E_NONE => false | E_CONTROL => control r | E_ARTICLE => article r end.

Lemma marked_spec e t : marked e (rev t) = true <-> ends_in_marker e t.
Proof.
  destruct e; cbn [marked ends_in_marker].
  - split; [discriminate|tauto].
  - unfold control. rewrite orb_true_iff.
    rewrite <- (pre_ends [CR; LF; EQS; YY]), <- (pre_ends [CR; LF; DOT; EQS; YY]). reflexivity.
  - rewrite <- (pre_ends [CR; LF; DOT; CR; LF]). reflexivity.
Qed.

Lemma run_end_tracks : forall l s r o s' e rst,
  tracks s r -> run_end s l = (o, s', e, rst) ->
  exists p, l = p ++ rst /\
    (e = E_NONE -> tracks s' (rev p ++ r)) /\
    (e <> E_NONE -> p <> [] /\ marked e (rev p ++ r) = true) /\
    (forall q p2 e', p = q ++ p2 -> q <> [] -> marked e' (rev q ++ r) = true -> p2 = [] /\ e <> E_NONE).
Proof.
  induction l as [|c l IH]; intros s r o s' e rst T H.
  - injection H as <- <- <- <-. exists []. split; [reflexivity|]. split; [auto|]. split; [congruence|].
    intros [|? ?] ? ?; [congruence|discriminate].
  - rewrite run_end_cons in H. pose proof (track_step s c r T) as K.
    destruct (step_end s c) as [o1 s1|s1 e1].
    + destruct (run_end s1 l) as [[[o2 s2] e2] r2] eqn:E2. cbn [prep4] in H.
      injection H as <- <- <- <-. destruct K as (T' & K1 & K2).
      destruct (IH _ _ _ _ _ _ T' E2) as (p & -> & P1 & P2 & P3).
      exists (c :: p). cbn [rev]. rewrite <- app_assoc. cbn [app].
      split; [reflexivity|]. split; [auto|]. split. { intro Hn. split; [discriminate|]. apply P2; auto. }
      intros [|x q] p2 e' Hq Hne Hm; [congruence|]. injection Hq as <- ->.
      cbn [rev] in Hm. rewrite <- app_assoc in Hm. cbn [app] in Hm.
      destruct q as [|y q].
      * cbn [rev app] in Hm. destruct e'; cbn [marked] in Hm; congruence.
      * eapply P3; eauto. discriminate.
    + injection H as <- <- <- <-. exists [c]. split; [reflexivity|].
      destruct e1; [contradiction| |]; (split; [congruence|]; split; [intros _; split; [discriminate|exact K]|];
      intros [|x q] p2 e' Hq Hne Hm; [congruence|]; injection Hq as _ Hq; symmetry in Hq; apply app_eq_nil in Hq; split; [tauto|discriminate]).
Qed.

(** The first marker in the stream, and nothing else, ends decoding. *)
Lemma run_end_marker s l o s' e rst : run_end s l = (o, s', e, rst) ->
  exists p, l = p ++ rst /\
    (e = E_NONE -> rst = [] /\ forall q p2 e', p = q ++ p2 -> ~ ends_in_marker e' (state_text s ++ q)) /\
    (e <> E_NONE -> ends_in_marker e (state_text s ++ p) /\
        forall q p2 e', p = q ++ p2 -> ends_in_marker e' (state_text s ++ q) -> p2 = []).
Proof.
  intro H. destruct (run_end_tracks _ _ _ _ _ _ _ (tracks_start s) H) as (p & E & P1 & P2 & P3).
  exists p. split; [exact E|].
  assert (M : forall e q, ends_in_marker e (state_text s ++ q) <-> marked e (rev q ++ rev (state_text s)) = true).
  { intros. rewrite <- marked_spec, rev_app_distr. reflexivity. }
  assert (M0 : forall e', marked e' (rev (state_text s)) = false).
  { intros []; cbn [marked]; try apply no_marker_start. reflexivity. }
  split.
  - intro He. split; [subst; eapply run_end_done; eauto|].
    intros q p2 e' Hq Hm. apply M in Hm.
    destruct q as [|x q]; [cbn [rev app] in Hm; rewrite M0 in Hm; discriminate|].
    destruct (P3 _ _ _ Hq ltac:(discriminate) Hm). congruence.
  - intro He. destruct (P2 He) as [Hp Hm]. split; [apply M; exact Hm|].
    intros q p2 e' Hq Hm'. apply M in Hm'.
    destruct q as [|x q]; [cbn [rev app] in Hm'; rewrite M0 in Hm'; discriminate|].
    eapply P3; eauto. discriminate.
Qed.

(** ** The returned state *)

Lemma state_text_pending s l o s' rst : run_end s l = (o, s', E_NONE, rst) ->
  ends_with (state_text s') (state_text s ++ l) \/
  s' = S_CRLFEQ /\ ends_with [CR; LF; DOT; EQS] (state_text s ++ l).
Proof.
  intro H. pose proof (run_end_done _ _ _ _ _ H). subst.
  destruct (run_end_tracks _ _ _ _ _ _ _ (tracks_start s) H) as (p & E & P1 & _).
  rewrite app_nil_r in E. subst p. specialize (P1 eq_refl). rewrite <- rev_app_distr in P1.
  destruct P1 as [C HE]. unfold classes in C.
  destruct s'; cbn [state_text]; rewrite <- ?pre_ends; cbn [rev app].
  - left. congruence.
  - left. auto.
  - left. congruence.
  - left. reflexivity.
  - left. congruence.
  - left. congruence.
  - assert (K : pre [EQS; LF; CR] (rev (state_text s ++ l)) || pre [EQS; DOT; LF; CR] (rev (state_text s ++ l)) = true) by congruence.
    apply orb_true_iff in K. destruct K as [K|K]; [left; exact K|right; split; [reflexivity|exact K]].
Qed.

Lemma state_text_run s : run_end S_NONE (state_text s) = ([], s, E_NONE, []).
Proof. destruct s; reflexivity. Qed.

(** ** Relation of the two automata *)

Definition as_raw (s : dstate) : dstate :=
  match s with S_CRLFDT => S_NONE | S_CRLFDTCR => S_CR | S_CRLFEQ => S_EQ | s => s end.

Lemma step_end_raw s c o s' : step_end s c = Go o s' -> step_raw (as_raw s) c = (o, as_raw s').
Proof.
  destruct s; cbn [step_end as_raw step_raw]; unfold go, step_normal, step_esc; intro H;
  repeat match type of H with
  | context [if beq ?a ?b then _ else _] => destruct (beq a b) eqn:?; bools; known
  end; cbn [fst snd] in H; try discriminate H; inversion H; subst; known; reflexivity.
Qed.

(** Output is that of the text before the final character of a marker. *)
Lemma run_end_raw s l o s' e rst : run_end s l = (o, s', e, rst) ->
  (e = E_NONE -> run_raw (as_raw s) l = (o, as_raw s')) /\
  (e <> E_NONE -> exists p c, l = p ++ c :: rst /\ fst (run_raw (as_raw s) p) = o).
Proof.
  revert s o; induction l as [|c l IH]; intros s o H.
  - injection H as <- <- <- <-. split; [reflexivity|congruence].
  - rewrite run_end_cons in H. destruct (step_end s c) as [o1 s1|s1 e1] eqn:E.
    + destruct (run_end s1 l) as [[[o2 s2] e2] r2] eqn:E2. cbn [prep4] in H.
      injection H as <- <- <- <-. destruct (IH _ _ E2) as [A1 A2].
      apply step_end_raw in E. split.
      * intro He. rewrite run_raw_cons, E. cbn [fst snd]. rewrite (A1 He). reflexivity.
      * intro He. destruct (A2 He) as (p & x & -> & F). exists (c :: p), x.
        split; [reflexivity|]. rewrite run_raw_cons, E. cbn [prep fst snd]. rewrite F. reflexivity.
    + injection H as <- <- <- <-. split.
      * intros ->. destruct s; cbn [step_end] in E;
        repeat match type of E with (if ?x then _ else _) = _ => destruct x end; discriminate.
      * intros _. exists [], c. split; reflexivity.
Qed.

(** Lengths: nothing is expanded. *)
Lemma run_raw_len s l : zlen (fst (run_raw s l)) <= zlen l.
Proof.
  revert s; induction l as [|c l IH]; intro s; [cbn; lia|].
  rewrite run_raw_cons, zlen_cons. cbn [prep fst snd]. rewrite zlen_app.
  specialize (IH (snd (step_raw s c))).
  assert (zlen (fst (step_raw s c)) <= 1); [|lia].
  destruct s; cbn [step_raw]; unfold step_normal, step_esc; repeat destruct (beq _ _); cbn; lia.
Qed.

(** ** Encoded text *)

Lemma unescape_escape c : unescape (u8 (bz (shifted c) + 64)) = c.
Proof. destruct c; vm_compute; reflexivity. Qed.
Lemma unshift_shifted c : unshift (shifted c) = c.
Proof. destruct c; vm_compute; reflexivity. Qed.

Lemma decode_enc_char f l c t : decode_text (enc_char f l c ++ t) = c :: decode_text t.
Proof.
  unfold enc_char. destruct (must_escape f l c) eqn:E; cbn [app].
  - change (decode_text (EQS :: u8 (bz (shifted c) + 64) :: t)) with
      (unescape (u8 (bz (shifted c) + 64)) :: decode_text t). rewrite unescape_escape. reflexivity.
  - unfold must_escape in E. cbv zeta in E. apply orb_false_iff in E. destruct E as [E _].
    apply orb_false_iff in E. destruct E as [E _]. unfold is_crit in E.
    apply orb_false_iff in E. destruct E as [E E3]. apply orb_false_iff in E. destruct E as [E E2].
    apply orb_false_iff in E. destruct E as [E E1].
    rewrite decode_text_cons_normal by auto. rewrite unshift_shifted. reflexivity.
Qed.

Lemma decode_yenc L fin col data : decode_text (yenc L fin col data) = data.
Proof.
  revert col; induction data as [|c t IH]; intro col; [reflexivity|].
  rewrite yenc_cons. cbv zeta. destruct (L <=? col).
  - change (decode_text (CR :: LF :: ?x)) with (decode_text x).
    cbn [decode_text]. change (beq CR CR || beq CR LF) with true. change (beq LF CR || beq LF LF) with true.
    cbv iota. rewrite decode_enc_char, IH. reflexivity.
  - rewrite decode_enc_char, IH. reflexivity.
Qed.

(** Text in which no line starts with a dot is left alone by unstuffing. *)
Lemma unstuff_id : forall n l b, (length l <= n)%nat ->
  (b = true -> ~ starts_with [DOT] l) ->
  (forall x y, l = x ++ CR :: LF :: y -> ~ starts_with [DOT] y) ->
  unstuff b l = l.
Proof.
  induction n as [|n IH]; intros [|c t] b Hn Hb Hl; try reflexivity; cbn [length] in Hn; [lia|].
  cbn [unstuff]. destruct (b && beq c DOT) eqn:E.
  { apply andb_true_iff in E. destruct E as [-> E]. bools. exfalso. apply Hb; auto. exists t. reflexivity. }
  destruct t as [|d t]; [reflexivity|]. destruct (beq c CR && beq d LF) eqn:E2; bools.
  - cbn [length] in Hn. rewrite IH; [reflexivity|lia| |].
    + intros _. apply (Hl []). reflexivity.
    + intros x y Hx. apply (Hl (CR :: LF :: x)). rewrite Hx. reflexivity.
  - rewrite (IH (d :: t) false); [reflexivity|lia|discriminate|].
    intros x y Hx. apply (Hl (c :: x)). rewrite Hx. reflexivity.
Qed.

Lemma yenc_no_dot L data : 1 <= L -> ~ starts_with [DOT] (yenc L true 0 data).
Proof.
  intros HL [t Ht]. cbn [app] in Ht.
  destruct (lines (yenc L true 0 data)) as [|l ls] eqn:E; [eapply lines_nonnil; eauto|].
  destruct (lines_ends data L HL l) as [H _]; [rewrite E; left; reflexivity|].
  apply H. destruct (hd_lines _ _ _ DOT t ltac:(discriminate) E Ht) as (t' & ->). exists t'. reflexivity.
Qed.

Lemma unstuff_yenc L data : 1 <= L -> unstuff true (yenc L true 0 data) = yenc L true 0 data.
Proof.
  intro HL. eapply unstuff_id; [reflexivity| |].
  - intros _. apply yenc_no_dot. exact HL.
  - intros x y H. eapply no_marker; [exact HL| |exact H]. lia.
Qed.

Lemma unstuff_stuff : forall n t b, (length t <= n)%nat -> unstuff b (stuff b t) = t.
Proof.
  induction n as [|n IH]; intros [|c t] b Hn; try reflexivity; cbn [length] in Hn; [lia|].
  assert (R : unstuff false (match t with
      | d :: t' => if beq c CR && beq d LF then CR :: LF :: stuff true t' else c :: stuff false t
      | [] => [c] end) = c :: t).
  { destruct t as [|d t]; [reflexivity|]. destruct (beq c CR && beq d LF) eqn:E; bools.
    - cbn [unstuff andb]. change (beq CR CR && beq LF LF) with true. cbv iota.
      rewrite IH; [reflexivity|cbn [length] in Hn; lia].
    - assert (S : exists s', stuff false (d :: t) = d :: s').
      { cbn [stuff andb]. destruct t as [|e t]; [eauto|].
        destruct (beq d CR && beq e LF) eqn:E2; bools; eauto. }
      destruct S as [s' S]. cbn [unstuff andb]. rewrite S. rewrite E. rewrite <- S.
      rewrite IH; [reflexivity|lia]. }
  cbn [stuff]. destruct (b && beq c DOT) eqn:E.
  - apply andb_true_iff in E. destruct E as [-> E]. bools.
    cbn [unstuff andb]. rewrite beq_refl. exact R.
  - destruct b; [|exact R]. cbn [andb] in E. rewrite <- R. clear R.
    destruct t as [|d t]; [cbn [unstuff andb]; rewrite E; reflexivity|].
    destruct (beq c CR && beq d LF) eqn:E2; bools; rewrite unstuff_bol; auto.
Qed.
