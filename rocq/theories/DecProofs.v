(** The scalar decoders compute the automata of DecSpec.v. *)
From Verif Require Import Base BaseLemmas DecSpec DecModel.

(** ** The automata *)

Definition prep (o : list byte) (x : list byte * dstate) := (o ++ fst x, snd x).
Definition prep4 (o : list byte) (x : list byte * dstate * dend * list byte) :=
  let '(o', s, e, r) := x in (o ++ o', s, e, r).

Lemma prep_nil x : prep [] x = x.
Proof. destruct x; reflexivity. Qed.
Lemma prep_app a b x : prep (a ++ b) x = prep a (prep b x).
Proof. unfold prep; simpl. rewrite app_assoc. reflexivity. Qed.
Lemma prep4_nil x : prep4 [] x = x.
Proof. destruct x as [[[? ?] ?] ?]; reflexivity. Qed.
Lemma prep4_app a b x : prep4 (a ++ b) x = prep4 a (prep4 b x).
Proof. destruct x as [[[? ?] ?] ?]; simpl. rewrite app_assoc. reflexivity. Qed.

Lemma run_raw_cons s c t :
  run_raw s (c :: t) = prep (fst (step_raw s c)) (run_raw (snd (step_raw s c)) t).
Proof.
  cbn [run_raw]. destruct (step_raw s c) as [o s1]. cbn [fst snd].
  destruct (run_raw s1 t). reflexivity.
Qed.
Lemma run_plain_cons s c t :
  run_plain s (c :: t) = prep (fst (step_plain s c)) (run_plain (snd (step_plain s c)) t).
Proof.
  cbn [run_plain]. destruct (step_plain s c) as [o s1]. cbn [fst snd].
  destruct (run_plain s1 t). reflexivity.
Qed.
Lemma run_end_cons s c t :
  run_end s (c :: t) =
    match step_end s c with
    | Go o s1 => prep4 o (run_end s1 t)
    | Stop s1 e => ([], s1, e, t)
    end.
Proof.
  cbn [run_end]. destruct (step_end s c) as [o s1|s1 e]; auto.
Qed.

(** Evaluate the automaton on a character about which enough is known. *)
Ltac bools :=
  repeat match goal with
  | H : negb _ = true |- _ => apply negb_true_iff in H
  | H : negb _ = false |- _ => apply negb_false_iff in H
  | H : _ && _ = true |- _ => apply andb_true_iff in H; destruct H
  | H : _ || _ = false |- _ => apply orb_false_iff in H; destruct H
  | H : beq _ _ = true |- _ => apply beq_true in H; subst
  end.
Ltac known :=
  repeat match goal with
  | H : beq ?a ?b = false |- context [beq ?a ?b] => rewrite H
  | |- context [beq ?a ?a] => rewrite (beq_refl a)
  | |- context [beq LF CR] => change (beq LF CR) with false
  | |- context [beq EQS CR] => change (beq EQS CR) with false
  | |- context [beq DOT CR] => change (beq DOT CR) with false
  | |- context [beq CR LF] => change (beq CR LF) with false
  | |- context [beq EQS LF] => change (beq EQS LF) with false
  | |- context [beq DOT LF] => change (beq DOT LF) with false
  | |- context [beq CR EQS] => change (beq CR EQS) with false
  | |- context [beq LF EQS] => change (beq LF EQS) with false
  | |- context [beq DOT EQS] => change (beq DOT EQS) with false
  | |- context [beq CR DOT] => change (beq CR DOT) with false
  | |- context [beq LF DOT] => change (beq LF DOT) with false
  | |- context [beq EQS DOT] => change (beq EQS DOT) with false
  | |- context [beq CR YY] => change (beq CR YY) with false
  | |- context [beq LF YY] => change (beq LF YY) with false
  | |- context [beq EQS YY] => change (beq EQS YY) with false
  | |- context [beq YY ?x] => change (beq YY x) with false
  end.
Ltac auto_step :=
  rewrite ?run_raw_cons, ?run_end_cons, ?run_plain_cons;
  cbn [step_raw step_end step_plain];
  unfold go, step_normal, step_esc; known;
  cbn [fst snd negb andb orb]; rewrite ?prep_nil, ?prep4_nil.

(** ** Decoder memory invariant *)

Section Run.
Variables (B : bufs) (src len dest : Z).
Notation es := (src + len).

Record dgeom : Prop := {
  g_rlo : rlo B <= src; g_rhi : src + len <= rhi B;
  g_wlo : wlo B <= dest; g_whi : dest + len <= whi B;
  g_alias : dest <= src \/ src + len <= dest;
}.

Record dinv (m : mem) (i p : Z) (o rest : list byte) : Prop := {
  d_rest : bytes_at m (es + i) rest;
  d_len : zlen rest = - i;
  d_out : bytes_at m dest o;
  d_p : p = dest + zlen o;
  d_no : zlen o <= len + i;
}.

Hypothesis G : dgeom.

Lemma load0 m i p o c r : dinv m i p o (c :: r) -> load B (es + i) m = Ok (c, m).
Proof.
  intros [H1 H2 H3 H4 H5]. destruct H1 as [<- _].
  pose proof (zlen_nonneg o). pose proof (zlen_nonneg r).
  rewrite zlen_cons in H2. destruct G. apply load_r. lia.
Qed.

Lemma d_skip m i p o c r : dinv m i p o (c :: r) -> dinv m (i + 1) p o r.
Proof.
  intros [H1 H2 H3 H4 H5]. rewrite zlen_cons in H2. destruct H1 as [_ H1].
  constructor; auto; try lia.
  replace (es + (i + 1)) with (es + i + 1) by lia. auto.
Qed.

Lemma load1 m i p o c d r : dinv m i p o (c :: d :: r) -> load B (es + (i + 1)) m = Ok (d, m).
Proof. intro H. eapply load0. eapply d_skip. eauto. Qed.
Lemma load2 m i p o c d e r : dinv m i p o (c :: d :: e :: r) -> load B (es + (i + 2)) m = Ok (e, m).
Proof. intro H. replace (i + 2) with (i + 1 + 1) by lia. eapply load1. eapply d_skip. eauto. Qed.

Lemma d_store m i p o c r b : dinv m i p o (c :: r) ->
  store B p b m = Ok (tt, upd m p b) /\ dinv (upd m p b) (i + 1) (p + 1) (o ++ [b]) r.
Proof.
  intros [H1 H2 H3 H4 H5].
  pose proof (zlen_nonneg o). pose proof (zlen_nonneg r).
  rewrite zlen_cons in H2. destruct H1 as [_ H1]. destruct G.
  split. { apply store_w. lia. }
  constructor; try lia.
  - apply bytes_at_upd. 2: replace (es + (i + 1)) with (es + i + 1) by lia; auto. lia.
  - apply bytes_at_snoc_upd; auto.
  - rewrite zlen_app. change (zlen [b]) with 1. lia.
  - rewrite zlen_app. change (zlen [b]) with 1. lia.
Qed.

Ltac ld := erewrite bind_ok by (eauto using load0, load1, load2); cbv beta iota zeta.
Ltac st H b :=
  let S := fresh "S" in let D := fresh "D" in
  destruct (d_store _ _ _ _ _ _ b H) as [S D];
  erewrite bind_ok by (exact S); cbv beta iota zeta.

Lemma rest_nil m i p o rest : dinv m i p o rest -> i = 0 -> rest = [].
Proof.
  intros [_ H _ _ _] ->. destruct rest as [|x r]; auto. rewrite zlen_cons in H.
  pose proof (zlen_nonneg r). lia.
Qed.
Lemma rest_nonnil m i p o rest : dinv m i p o rest -> i < 0 -> exists c r, rest = c :: r.
Proof.
  intros [_ H _ _ _] Hi. destruct rest as [|x r]; eauto.
  change (zlen (@nil byte)) with 0 in H. lia.
Qed.
Lemma rest_3 m i p o rest : dinv m i p o rest -> i < -2 ->
  exists c d e r, rest = c :: d :: e :: r.
Proof.
  intros [_ H _ _ _] Hi.
  destruct rest as [|x [|y [|z r]]]; eauto; unfold zlen in H; simpl length in H; lia.
Qed.

(** ** The raw loop *)

Lemma raw_loop_run fuel : forall m i p o rest,
  dinv m i p o rest -> - i < Z.of_nat fuel ->
  exists m' i' p' o' rest',
    raw_loop fuel B es i p m = Ok ((i', p'), m') /\
    dinv m' i' p' (o ++ o') rest' /\ -2 <= i' /\
    run_raw S_NONE rest = prep o' (run_raw S_NONE rest').
Proof.
  induction fuel as [|f IH]; intros m i p o rest H Hf.
  { pose proof (d_len _ _ _ _ _ H). pose proof (zlen_nonneg rest). lia. }
  cbn [raw_loop]. destruct (i <? -2) eqn:Hi.
  2:{ exists m, i, p, [], rest. rewrite app_nil_r, prep_nil. split; [reflexivity|].
      split; [auto|]. split; [lia|]. reflexivity. }
  destruct (rest_3 _ _ _ _ _ H) as (c & d & e & r & ->); [lia|].
  assert (step : forall m1 i1 p1 w rest1, dinv m1 i1 p1 (o ++ w) rest1 -> i < i1 ->
     run_raw S_NONE (c :: d :: e :: r) = prep w (run_raw S_NONE rest1) ->
     exists m' i' p' o' rest',
       raw_loop f B es i1 p1 m1 = Ok ((i', p'), m') /\
       dinv m' i' p' (o ++ o') rest' /\ -2 <= i' /\
       run_raw S_NONE (c :: d :: e :: r) = prep o' (run_raw S_NONE rest')).
  { intros m1 i1 p1 w rest1 H1 Hi1 E.
    destruct (IH m1 i1 p1 _ rest1 H1) as (m' & i' & p' & o' & rest' & R & D & L & Q); [lia|].
    exists m', i', p', (w ++ o'), rest'. rewrite app_assoc. split; [auto|]. split; [auto|].
    split; [auto|]. rewrite E, Q, prep_app. reflexivity. }
  assert (skip : forall i1 rest1, dinv m i1 p o rest1 -> i < i1 ->
     run_raw S_NONE (c :: d :: e :: r) = run_raw S_NONE rest1 ->
     exists m' i' p' o' rest',
       raw_loop f B es i1 p m = Ok ((i', p'), m') /\
       dinv m' i' p' (o ++ o') rest' /\ -2 <= i' /\
       run_raw S_NONE (c :: d :: e :: r) = prep o' (run_raw S_NONE rest')).
  { intros i1 rest1 H1 Hi1 E. apply step with (w := []) (rest1 := rest1); rewrite ?app_nil_r, ?prep_nil; auto. }
  ld. pose proof (d_skip _ _ _ _ _ _ H) as H1. pose proof (d_skip _ _ _ _ _ _ H1) as H2.
  pose proof (d_skip _ _ _ _ _ _ H2) as H3.
  destruct (beq c CR) eqn:EC; bools.
  - ld. destruct (beq d LF) eqn:ED; bools.
    + ld. destruct (beq e DOT) eqn:EE; bools.
      * replace (i + 2 + 1) with (i + 1 + 1 + 1) by lia.
        apply (skip _ _ H3); [lia|]. repeat auto_step. reflexivity.
      * apply (skip _ _ H1); [lia|]. repeat auto_step. reflexivity.
    + apply (skip _ _ H1); [lia|]. repeat auto_step. reflexivity.
  - destruct (beq c LF) eqn:EL; bools.
    + apply (skip _ _ H1); [lia|]. repeat auto_step. reflexivity.
    + destruct (beq c EQS) eqn:EE; bools.
      * ld. st H (u8 (bz d - 42 - 64)).
        destruct (beq d CR) eqn:ED; bools.
        -- replace (i + 0 + 1) with (i + 1) by lia.
           apply (step _ _ _ _ _ D); [lia|]. repeat auto_step. reflexivity.
        -- apply d_skip in D. apply (step _ _ _ _ _ D); [lia|]. repeat auto_step. reflexivity.
      * st H (u8 (bz c - 42)). apply (step _ _ _ _ _ D); [lia|]. repeat auto_step. reflexivity.
Qed.

(** ** The last two characters *)

Definition closes (s : option dstate) (s' : dstate) : option dstate :=
  match s with Some _ => Some s' | None => None end.

Definition epilogue (i p : Z) (state : option dstate) : M (Z * option dstate) :=
  x <- second_last B es i p state ;;
  match x with
  | inl p => ret (p, Some S_CRLF)
  | inr (i, p) => final_char B es i p state
  end.

Lemma final_run m i p o rest state :
  dinv m i p o rest -> -1 <= i <= 0 ->
  exists m' o',
    final_char B es i p (set_none state) m =
      Ok ((dest + zlen (o ++ o'), closes state (snd (run_raw S_NONE rest))), m') /\
    bytes_at m' dest (o ++ o') /\ o' = fst (run_raw S_NONE rest).
Proof.
  intros H Hi. unfold final_char. destruct (i =? -1) eqn:Ei.
  - destruct (rest_nonnil _ _ _ _ _ H) as (c & r & ->); [lia|].
    pose proof (d_skip _ _ _ _ _ _ H) as H1. apply rest_nil in H1; [|lia]. subst r.
    ld. destruct (beq c LF) eqn:E1; bools; [|destruct (beq c CR) eqn:E2; bools; [|destruct (beq c EQS) eqn:E3; bools]].
    1-3: exists m, []; repeat auto_step; cbn [run_raw fst snd]; known; cbn [negb andb];
      rewrite app_nil_r; rewrite (d_p _ _ _ _ _ H); (split; [destruct state; reflexivity|]);
      split; [apply (d_out _ _ _ _ _ H)|reflexivity].
    cbn [negb andb]. st H (u8 (bz c - 42)).
    exists (upd m p (u8 (bz c - 42))), [u8 (bz c - 42)].
    repeat auto_step. cbn [run_raw fst snd].
    rewrite (d_p _ _ _ _ _ D). split; [destruct state; reflexivity|].
    split; [apply (d_out _ _ _ _ _ D)|reflexivity].
  - assert (i = 0) by lia. subst i. pose proof (rest_nil _ _ _ _ _ H eq_refl). subst rest.
    exists m, []. cbn [run_raw fst snd]. rewrite app_nil_r, (d_p _ _ _ _ _ H).
    split; [destruct state; reflexivity|]. split; [apply (d_out _ _ _ _ _ H)|reflexivity].
Qed.

Lemma epilogue_run m i p o rest state :
  dinv m i p o rest -> -2 <= i <= 0 ->
  exists m' o',
    epilogue i p (set_none state) m =
      Ok ((dest + zlen (o ++ o'), closes state (snd (run_raw S_NONE rest))), m') /\
    bytes_at m' dest (o ++ o') /\ o' = fst (run_raw S_NONE rest).
Proof.
  intros H Hi. unfold epilogue, second_last. destruct (i =? -2) eqn:Ei.
  2:{ rewrite bind_ret. cbv beta iota. eapply final_run; eauto. lia. }
  destruct (rest_nonnil _ _ _ _ _ H) as (c & r & ->); [lia|].
  pose proof (d_skip _ _ _ _ _ _ H) as H1.
  destruct (rest_nonnil _ _ _ _ _ H1) as (d & r' & ->); [lia|].
  pose proof (d_skip _ _ _ _ _ _ H1) as H2.
  pose proof (rest_nil _ _ _ _ _ H2 ltac:(lia)). subst r'.
  rewrite bind_assoc. ld.
  assert (step : forall m1 i1 p1 w rest1, dinv m1 i1 p1 (o ++ w) rest1 -> -1 <= i1 <= 0 ->
     run_raw S_NONE [c; d] = prep w (run_raw S_NONE rest1) ->
     exists m' o',
       final_char B es i1 p1 (set_none state) m1 =
         Ok ((dest + zlen (o ++ o'), closes state (snd (run_raw S_NONE [c; d]))), m') /\
       bytes_at m' dest (o ++ o') /\ o' = fst (run_raw S_NONE [c; d])).
  { intros m1 i1 p1 w rest1 D1 Hi1 E.
    destruct (final_run _ _ _ _ _ state D1 Hi1) as (m' & o' & R & Q & F).
    exists m', (w ++ o'). rewrite app_assoc, R, E. cbn [prep fst snd]. subst o'. auto. }
  assert (skip : forall i1 rest1, dinv m i1 p o rest1 -> -1 <= i1 <= 0 ->
     run_raw S_NONE [c; d] = run_raw S_NONE rest1 ->
     exists m' o',
       final_char B es i1 p (set_none state) m =
         Ok ((dest + zlen (o ++ o'), closes state (snd (run_raw S_NONE [c; d]))), m') /\
       bytes_at m' dest (o ++ o') /\ o' = fst (run_raw S_NONE [c; d])).
  { intros i1 rest1 D1 Hi1 E. apply step with (w := []) (rest1 := rest1); rewrite ?app_nil_r, ?prep_nil; auto. }
  destruct (beq c CR) eqn:EC; bools.
  - destruct state as [s|]; cbn [set_none].
    + rewrite bind_assoc. ld. destruct (beq d LF) eqn:ED; bools.
      * rewrite bind_ret. cbv beta iota. exists m, [].
        repeat auto_step. cbn [run_raw fst snd closes]. rewrite app_nil_r, (d_p _ _ _ _ _ H).
        split; [reflexivity|]. split; [apply (d_out _ _ _ _ _ H)|reflexivity].
      * rewrite bind_ret. cbv beta iota. apply (skip _ _ H1); [lia|]. repeat auto_step. reflexivity.
    + rewrite bind_ret. cbv beta iota.
      destruct (beq d LF) eqn:ED; bools.
      * destruct (final_run _ _ _ _ _ None H1 ltac:(lia)) as (m' & o' & R & Q & F).
        exists m', o'. split; [exact R|]. split; auto.
      * apply (skip _ _ H1); [lia|]. repeat auto_step. reflexivity.
  - destruct (beq c LF) eqn:EL; bools.
    + rewrite bind_ret. cbv beta iota. apply (skip _ _ H1); [lia|]. repeat auto_step. reflexivity.
    + destruct (beq c EQS) eqn:EE; bools.
      * rewrite bind_assoc. ld. rewrite bind_assoc. st H (u8 (bz d - 42 - 64)).
        rewrite bind_ret. cbv beta iota.
        destruct (beq d CR) eqn:ED; bools.
        -- replace (i + 0 + 1) with (i + 1) by lia.
           apply (step _ _ _ _ _ D); [lia|]. repeat auto_step. reflexivity.
        -- apply d_skip in D. apply (step _ _ _ _ _ D); [lia|]. repeat auto_step. reflexivity.
      * rewrite bind_assoc. st H (u8 (bz c - 42)). rewrite bind_ret. cbv beta iota.
        apply (step _ _ _ _ _ D); [lia|]. repeat auto_step. reflexivity.
Qed.

(** ** do_decode_noend_scalar<true> *)

(** The input on which the implementation forgets to count a byte it wrote. *)
Definition lost (state : option dstate) (data : list byte) : bool :=
  match state, data with
  | Some S_EQ, [c] => beq c CR
  | Some S_EQ, [c; d] => beq c CR && beq d LF
  | _, _ => false
  end.

Definition start (state : option dstate) : dstate :=
  match state with Some s => s | None => S_CRLF end.

Lemma dinv_le0 m i p o rest : dinv m i p o rest -> i <= 0.
Proof. intros [_ H _ _ _]. pose proof (zlen_nonneg rest). lia. Qed.

Lemma prologue_run m i p o rest state :
  dinv m i p o rest -> rest <> [] ->
  exists m', 
   (exists st, raw_prologue B es i p state m = Ok (inl st, m') /\
      st = closes state (snd (run_raw (start state) rest)) /\
      bytes_at m' dest (o ++ fst (run_raw (start state) rest)) /\
      (lost state rest = true \/ fst (run_raw (start state) rest) = [])) \/
   (exists i' p' st o' rest',
      raw_prologue B es i p state m = Ok (inr (i', p', st), m') /\
      set_none st = set_none state /\ lost state rest = false /\
      dinv m' i' p' (o ++ o') rest' /\
      run_raw (start state) rest = prep o' (run_raw S_NONE rest')).
Proof.
  intros H Hne. destruct rest as [|c r]; [congruence|]. clear Hne.
  pose proof (d_skip _ _ _ _ _ _ H) as H1.
  assert (CRLF : forall m i p o c r state,
    dinv m i p o (c :: r) ->
    exists i' rest', raw_crlf B es i p state m = Ok (inr (i', p, state), m) /\
      dinv m i' p o rest' /\ run_raw S_CRLF (c :: r) = run_raw S_NONE rest').
  { clear - G. intros m i p o c r state H. unfold raw_crlf.
    pose proof (d_skip _ _ _ _ _ _ H) as H1. ld.
    destruct (beq c DOT) eqn:E; bools.
    - exists (i + 1), r. split; [reflexivity|]. split; auto. repeat auto_step. reflexivity.
    - exists i, (c :: r). split; [reflexivity|]. split; auto. repeat auto_step. reflexivity. }
  assert (CRP : forall m i p o c r state,
    dinv m i p o (c :: r) ->
    (raw_cr B es i p state m = Ok (inl (Some S_CRLF), m) /\ c = LF /\ r = []) \/
    exists i' rest' st, raw_cr B es i p state m = Ok (inr (i', p, st), m) /\ (c :: r) <> [LF] /\
      (st = state \/ st = Some S_CRLF) /\
      dinv m i' p o rest' /\ run_raw S_CR (c :: r) = run_raw S_NONE rest').
  { clear - G CRLF. intros m i p o c r state H. unfold raw_cr.
    pose proof (d_skip _ _ _ _ _ _ H) as H1. ld.
    destruct (beq c LF) eqn:E; bools; cbn [negb].
    - unfold ge0. destruct (0 <=? i + 1) eqn:E0.
      + left. split; [reflexivity|]. split; auto.
        pose proof (dinv_le0 _ _ _ _ _ H1). eapply rest_nil; eauto. lia.
      + right. destruct (rest_nonnil _ _ _ _ _ H1) as (d & r' & ->); [lia|].
        destruct (CRLF _ _ _ _ _ _ (Some S_CRLF) H1) as (i' & rest' & R & D & E).
        exists i', rest', (Some S_CRLF). split; [exact R|]. split; [discriminate|]. split; auto. split; auto.
        rewrite <- E. rewrite (run_raw_cons S_CR). auto_step. reflexivity.
    - right. exists i, (c :: r), state. split; [reflexivity|].
      split. { intros [= -> ->]. discriminate. }
      split; auto. split; auto. auto_step. reflexivity. }
  assert (none : forall s, step_raw s c = step_normal c ->
     run_raw s (c :: r) = run_raw S_NONE (c :: r)).
  { intros s E. rewrite !run_raw_cons, E. reflexivity. }
  assert (plain : forall s, step_raw s c = step_normal c -> s <> S_EQ ->
     raw_prologue B es i p (Some s) m = Ok (inr (i, p, Some s), m) ->
     exists i' p' st o' rest',
      raw_prologue B es i p (Some s) m = Ok (inr (i', p', st), m) /\
      set_none st = set_none (Some s) /\ lost (Some s) (c :: r) = false /\
      dinv m i' p' (o ++ o') rest' /\
      run_raw s (c :: r) = prep o' (run_raw S_NONE rest')).
  { intros s E Hs R. exists i, p, (Some s), [], (c :: r). rewrite app_nil_r, prep_nil.
    split; [auto|]. split; [auto|]. split; [destruct s; try reflexivity; congruence|]. split; auto. }
  destruct state as [s|]; [destruct s|]; cbn [start];
    try (exists m; right; apply plain; [reflexivity|discriminate|reflexivity]).
  - (* CRLF *)
    destruct (CRLF _ _ _ _ _ _ (Some S_CRLF) H) as (i' & rest' & R & D & E).
    exists m. right. exists i', p, (Some S_CRLF), [], rest'. rewrite app_nil_r, prep_nil.
    split; [exact R|]. repeat (split; auto).
  - (* EQ *)
    cbn [raw_prologue]. unfold raw_eq. ld. st H (u8 (bz c - 42 - 64)).
    destruct (beq c CR) eqn:EC; bools.
    + unfold ge0. destruct (0 <=? i + 1) eqn:E0.
      * pose proof (dinv_le0 _ _ _ _ _ D). pose proof (rest_nil _ _ _ _ _ D ltac:(lia)). subst r.
        eexists. left. eexists. split; [reflexivity|].
        auto_step. cbn [run_raw prep fst snd closes app]. split; [reflexivity|].
        split; [exact (d_out _ _ _ _ _ D)|]. left; reflexivity.
      * destruct (rest_nonnil _ _ _ _ _ D) as (d & r' & ->); [lia|].
        destruct (CRP _ _ _ _ _ _ (Some S_CR) D) as [(R & -> & ->)|(i' & rest' & st & R & Hne & Hst & D2 & E)].
        -- eexists. left. eexists. split; [exact R|].
           repeat auto_step. cbn [run_raw prep fst snd closes app]. split; [reflexivity|].
           split; [exact (d_out _ _ _ _ _ D)|]. left; reflexivity.
        -- eexists. right. exists i', (p + 1), st, [unescape CR], rest'.
           split; [exact R|]. split. { destruct Hst; subst; reflexivity. }
           split. { cbn [lost]. destruct r' as [|z r'']; [|reflexivity].
             rewrite beq_refl. cbn [andb]. apply beq_false. congruence. }
           split; [exact D2|]. rewrite run_raw_cons. cbn [step_raw step_esc fst snd]. known.
           rewrite E. reflexivity.
    + eexists. right. exists (i + 1), (p + 1), (Some S_NONE), [unescape c], r.
      split; [reflexivity|]. split; [reflexivity|].
      split. { cbn [lost]. rewrite EC. cbn [andb]. destruct r as [|? [|]]; reflexivity. }
      split; [exact D|]. auto_step. reflexivity.
  - (* CR *)
    cbn [raw_prologue].
    destruct (CRP _ _ _ _ _ _ (Some S_CR) H) as [(R & -> & ->)|(i' & rest' & st & R & Hne & Hst & D2 & E)].
    + exists m. left. exists (Some S_CRLF). split; [exact R|].
      repeat auto_step. cbn [run_raw prep fst snd closes app]. split; [reflexivity|].
      rewrite app_nil_r. split; [exact (d_out _ _ _ _ _ H)|]. right; reflexivity.
    + exists m. right. exists i', p, st, [], rest'. rewrite app_nil_r, prep_nil.
      split; [exact R|]. split. { destruct Hst; subst; reflexivity. }
      split; [reflexivity|]. split; auto.
  - (* NULL *)
    destruct (CRLF _ _ _ _ _ _ None H) as (i' & rest' & R & D & E).
    exists m. right. exists i', p, None, [], rest'. rewrite app_nil_r, prep_nil.
    split; [exact R|]. repeat (split; auto).
Qed.

Lemma dinv_start m data : bytes_at m src data -> zlen data = len -> dinv m (- len) dest [] data.
Proof.
  intros H1 H2. constructor; cbn [bytes_at]; auto; try lia.
  - replace (es + - len) with src by lia. auto.
  - change (zlen (@nil byte)) with 0. lia.
  - change (zlen (@nil byte)) with 0. lia.
Qed.

Lemma closes_id state : closes state (start state) = state.
Proof. destruct state; reflexivity. Qed.

Lemma noend_raw_run m data state : bytes_at m src data -> zlen data = len ->
  exists m',
    do_decode_noend_scalar true B src dest len state m =
      Ok ((if lost state data then 0 else zlen (fst (run_raw (start state) data)),
           closes state (snd (run_raw (start state) data))), m') /\
    bytes_at m' dest (fst (run_raw (start state) data)).
Proof.
  intros Hm Hl. unfold do_decode_noend_scalar. cbv zeta.
  destruct (len <? 1) eqn:E0.
  { destruct data as [|x r]. 2:{ rewrite zlen_cons in Hl. pose proof (zlen_nonneg r). lia. }
    exists m. cbn [run_raw fst snd]. rewrite closes_id.
    split; [destruct state as [[]|]; reflexivity|]. cbn [bytes_at]. auto. }
  pose proof (dinv_start _ _ Hm Hl) as H.
  assert (data <> []). { intros ->. change (zlen (@nil byte)) with 0 in Hl. lia. }
  destruct (prologue_run _ _ _ _ _ state H) as (m' & [(st & R & E & Q & L)|(i' & p' & st & o' & rest' & R & E & L & D & Q)]); auto.
  - erewrite bind_ok by exact R. cbv beta iota. exists m'. cbn [app] in Q.
    split; auto. unfold ret. rewrite E. destruct L as [L|L]; rewrite L; auto.
    destruct (lost state data); auto.
  - erewrite bind_ok by exact R. cbv beta iota.
    destruct (raw_loop_run (S (Z.to_nat len)) _ _ _ _ _ D) as (m2 & i2 & p2 & o2 & rest2 & R2 & D2 & I2 & Q2).
    { pose proof (d_no _ _ _ _ _ D). pose proof (zlen_nonneg ([] ++ o')). lia. }
    erewrite bind_ok by exact R2. cbv beta iota zeta.
    pose proof (dinv_le0 _ _ _ _ _ D2).
    destruct (epilogue_run _ _ _ _ _ state D2) as (m3 & o3 & R3 & Q3 & F3); [lia|].
    exists m3. rewrite E.
    assert (RR : fst (run_raw (start state) data) = (([] ++ o') ++ o2) ++ o3).
    { rewrite Q, Q2, F3. cbn [prep fst]. rewrite app_assoc. reflexivity. }
    rewrite RR. split; auto. rewrite L.
    replace (snd (run_raw (start state) data)) with (snd (run_raw S_NONE rest2)).
    2:{ rewrite Q, Q2. reflexivity. }
    unfold epilogue in R3. revert R3. unfold bind at 1 2.
    destruct (second_last B es i2 p2 (set_none state) m2) as [[[pp|[ii pp]] mm]| |]; try discriminate.
    + intros [= -> Es <-]. unfold ret. rewrite Es, Z.add_simpl_l. reflexivity.
    + intro R3. erewrite bind_ok by exact R3. unfold ret. rewrite Z.add_simpl_l. reflexivity.
Qed.

(** ** do_decode_noend_scalar<false> *)

Lemma unescape_alt c : u8 (bz (u8 (bz c - 64)) - 42) = unescape c.
Proof. unfold unescape. apply u8_eq. rewrite bz_u8. lia. Qed.

Lemma plain_loop_run fuel : forall m i p o rest,
  dinv m i p o rest -> - i < Z.of_nat fuel ->
  exists m' i' p' o' rest',
    plain_loop fuel B es i p m = Ok ((i', p'), m') /\
    dinv m' i' p' (o ++ o') rest' /\ -1 <= i' /\
    run_plain S_NONE rest = prep o' (run_plain S_NONE rest').
Proof.
  induction fuel as [|f IH]; intros m i p o rest H Hf.
  { pose proof (d_len _ _ _ _ _ H). pose proof (zlen_nonneg rest). lia. }
  cbn [plain_loop]. destruct (i <? -1) eqn:Hi.
  2:{ exists m, i, p, [], rest. rewrite app_nil_r, prep_nil. split; [reflexivity|].
      split; [auto|]. split; [lia|]. reflexivity. }
  destruct (rest_nonnil _ _ _ _ _ H) as (c & r0 & ->); [lia|].
  pose proof (d_skip _ _ _ _ _ _ H) as H1.
  destruct (rest_nonnil _ _ _ _ _ H1) as (d & r & ->); [lia|].
  assert (step : forall m1 i1 p1 w rest1, dinv m1 i1 p1 (o ++ w) rest1 -> i < i1 ->
     run_plain S_NONE (c :: d :: r) = prep w (run_plain S_NONE rest1) ->
     exists m' i' p' o' rest',
       plain_loop f B es i1 p1 m1 = Ok ((i', p'), m') /\
       dinv m' i' p' (o ++ o') rest' /\ -1 <= i' /\
       run_plain S_NONE (c :: d :: r) = prep o' (run_plain S_NONE rest')).
  { intros m1 i1 p1 w rest1 D1 Hi1 E.
    destruct (IH m1 i1 p1 _ rest1 D1) as (m' & i' & p' & o' & rest' & R & D & L & Q); [lia|].
    exists m', i', p', (w ++ o'), rest'. rewrite app_assoc. split; [auto|]. split; [auto|].
    split; [auto|]. rewrite E, Q, prep_app. reflexivity. }
  ld. destruct (beq c LF || beq c CR) eqn:EC.
  - rewrite <- (app_nil_r o) in H1. apply (step _ _ _ _ _ H1); [lia|].
    apply orb_true_iff in EC. destruct EC; bools; auto_step; reflexivity.
  - bools. destruct (beq c EQS) eqn:EE; bools.
    + ld. rewrite unescape_alt. st H (unescape d). apply d_skip in D.
      apply (step _ _ _ _ _ D); [lia|]. repeat auto_step. reflexivity.
    + st H (u8 (bz c - 42)). apply (step _ _ _ _ _ D); [lia|]. auto_step. reflexivity.
Qed.

Lemma plain_final m i p o rest state :
  dinv m i p o rest -> -1 <= i <= 0 ->
  exists m',
    (if i =? -1 then
      c <- load B (es + i) ;;
      if negb (beq c LF) && negb (beq c CR) && negb (beq c EQS) then
        store B p (u8 (bz c - 42)) ;;; ret (p + 1 - dest, set_none state)
      else
        match set_none state with
        | Some _ => ret (p - dest, Some (if beq c EQS then S_EQ else S_NONE))
        | None => ret (p - dest, set_none state)
        end
    else ret (p - dest, set_none state)) m =
      Ok ((zlen (o ++ fst (run_plain S_NONE rest)), closes state (snd (run_plain S_NONE rest))), m') /\
    bytes_at m' dest (o ++ fst (run_plain S_NONE rest)).
Proof.
  intros H Hi. destruct (i =? -1) eqn:Ei.
  - destruct (rest_nonnil _ _ _ _ _ H) as (c & r & ->); [lia|].
    pose proof (d_skip _ _ _ _ _ _ H) as H1. apply rest_nil in H1; [|lia]. subst r.
    ld. destruct (beq c LF) eqn:E1; bools; [|destruct (beq c CR) eqn:E2; bools; [|destruct (beq c EQS) eqn:E3; bools]].
    1-3: exists m; auto_step; cbn [run_plain fst snd]; known; cbn [negb andb];
      rewrite app_nil_r; rewrite (d_p _ _ _ _ _ H), Z.add_simpl_l; (split; [destruct state; reflexivity|]);
      apply (d_out _ _ _ _ _ H).
    cbn [negb andb]. st H (u8 (bz c - 42)).
    exists (upd m p (u8 (bz c - 42))).
    auto_step. cbn [run_plain prep fst snd app].
    rewrite (d_p _ _ _ _ _ D), Z.add_simpl_l. split; [destruct state; reflexivity|].
    apply (d_out _ _ _ _ _ D).
  - assert (i = 0) by lia. subst i. pose proof (rest_nil _ _ _ _ _ H eq_refl). subst rest.
    exists m. cbn [run_plain fst snd]. rewrite app_nil_r, (d_p _ _ _ _ _ H), Z.add_simpl_l.
    split; [destruct state; reflexivity|]. apply (d_out _ _ _ _ _ H).
Qed.

Lemma noend_plain_run m data state : bytes_at m src data -> zlen data = len ->
  exists m',
    do_decode_noend_scalar false B src dest len state m =
      Ok ((zlen (fst (run_plain (start state) data)),
           closes state (snd (run_plain (start state) data))), m') /\
    bytes_at m' dest (fst (run_plain (start state) data)).
Proof.
  intros Hm Hl. unfold do_decode_noend_scalar. cbv zeta.
  destruct (len <? 1) eqn:E0.
  { destruct data as [|x r]. 2:{ rewrite zlen_cons in Hl. pose proof (zlen_nonneg r). lia. }
    exists m. cbn [run_plain fst snd]. rewrite closes_id.
    split; [reflexivity|]. cbn [bytes_at]. auto. }
  pose proof (dinv_start _ _ Hm Hl) as H.
  destruct data as [|c r]. { change (zlen (@nil byte)) with 0 in Hl. lia. }
  assert (P : exists m' i' p' st o' rest',
    (match state with
      | Some S_EQ =>
        c <- load B (es + - len) ;;
        store B dest (u8 (bz c - 42 - 64)) ;;;
        ret (- len + 1, dest + 1, Some S_NONE)
      | _ => ret (- len, dest, state)
      end) m = Ok ((i', p', st), m') /\ set_none st = set_none state /\ dinv m' i' p' o' rest' /\
      run_plain (start state) (c :: r) = prep o' (run_plain S_NONE rest')).
  { assert (N : start state <> S_EQ -> run_plain (start state) (c :: r) = prep [] (run_plain S_NONE (c :: r))).
    { intro Hs. rewrite prep_nil, !run_plain_cons. destruct (start state); try congruence; reflexivity. }
    destruct state as [[]|]; try (eexists m, (- len), dest, _, [], (c :: r);
      split; [reflexivity|]; split; [reflexivity|]; split; [exact H|]; apply N; discriminate).
    ld. st H (u8 (bz c - 42 - 64)).
    eexists _, _, _, _, _, _. split; [reflexivity|]. split; [reflexivity|]. split; [exact D|].
    auto_step. reflexivity. }
  destruct P as (m' & i' & p' & st & o' & rest' & R & E & D & Q).
  erewrite bind_ok by exact R. cbv beta iota.
  destruct (plain_loop_run (S (Z.to_nat len)) _ _ _ _ _ D) as (m2 & i2 & p2 & o2 & rest2 & R2 & D2 & I2 & Q2).
  { pose proof (d_no _ _ _ _ _ D). pose proof (zlen_nonneg o'). lia. }
  erewrite bind_ok by exact R2. cbv beta iota zeta. rewrite E.
  pose proof (dinv_le0 _ _ _ _ _ D2).
  destruct (plain_final _ _ _ _ _ state D2) as (m3 & R3 & Q3); [lia|].
  exists m3. rewrite R3, Q, Q2. cbn [prep fst snd]. rewrite app_assoc. auto.
Qed.
End Run.
