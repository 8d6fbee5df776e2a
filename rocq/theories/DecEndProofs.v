(** do_decode_end_scalar<true> computes the automaton [run_end]. *)
From Verif Require Import Base BaseLemmas DecSpec DecModel DecProofs.

Section Run.
Variables (B : bufs) (src len dest : Z).
Notation es := (src + len).
Hypothesis G : dgeom B src len dest.
Notation dinv := (dinv src len dest).

Local Ltac ld := erewrite bind_ok by (eauto using load0, load1, load2); cbv beta iota zeta.
Local Ltac st H b :=
  let S := fresh "S" in let D := fresh "D" in
  destruct (d_store _ _ _ _ G _ _ _ _ _ _ b H) as [S D];
  erewrite bind_ok by (exact S); cbv beta iota zeta.

(** The call returned, with the result the automaton gives. *)
Definition returned (lab : dstate) (o rest : list byte) (r : eres) (m' : mem) : Prop :=
  exists e p' s' w rst, r = (e, es - zlen rst, p', Some s') /\
    bytes_at m' dest (o ++ w) /\ p' = dest + zlen (o ++ w) /\
    run_end lab rest = (w, s', e, rst).

(** Execution goes on, with the automaton in its neutral state. *)
Definition goes_on (lab : dstate) (o rest : list byte) (i' p' : Z) (m' : mem) : Prop :=
  exists w rest', dinv m' i' p' (o ++ w) rest' /\
    run_end lab rest = prep4 w (run_end S_NONE rest').

Definition post (lab : dstate) (o rest : list byte) (x : out ((eres + Z * Z) * mem)) : Prop :=
  exists m', (exists r, x = Ok (inl r, m') /\ returned lab o rest r m') \/
             (exists i' p', x = Ok (inr (i', p'), m') /\ goes_on lab o rest i' p' m').

Lemma returned_step lab lab' o w rest rest' r m' :
  returned lab' (o ++ w) rest' r m' -> run_end lab rest = prep4 w (run_end lab' rest') ->
  returned lab o rest r m'.
Proof.
  intros (e & p' & s' & w' & rst & -> & H1 & H2 & H3) E.
  exists e, p', s', (w ++ w'), rst. rewrite app_assoc. rewrite E, H3. auto.
Qed.
Lemma goes_on_step lab lab' o w rest rest' i p m' :
  goes_on lab' (o ++ w) rest' i p m' -> run_end lab rest = prep4 w (run_end lab' rest') ->
  goes_on lab o rest i p m'.
Proof.
  intros (w' & r' & H1 & H2) E. exists (w ++ w'), r'. rewrite app_assoc. split; auto.
  rewrite E, H2, prep4_app. reflexivity.
Qed.
Lemma post_step lab lab' o w rest rest' x :
  post lab' (o ++ w) rest' x -> run_end lab rest = prep4 w (run_end lab' rest') ->
  post lab o rest x.
Proof.
  intros (m' & [(r & H1 & H2)|(i & p & H1 & H2)]) E; exists m'; [left|right].
  - exists r. split; auto. eapply returned_step; eauto.
  - exists i, p. split; auto. eapply goes_on_step; eauto.
Qed.
Lemma post_skip lab lab' o rest rest' x :
  post lab' o rest' x -> run_end lab rest = run_end lab' rest' -> post lab o rest x.
Proof.
  intros H E. apply post_step with (lab' := lab') (w := []) (rest' := rest').
  - rewrite app_nil_r. auto.
  - rewrite prep4_nil. auto.
Qed.

(** Returning in the middle of the text. *)
Lemma returned_here lab m i p o rest e s rst :
  dinv m i p o rest -> zlen rst = - i ->
  forall l, run_end lab l = ([], s, e, rst) -> returned lab o l (e, es + i, p, Some s) m.
Proof.
  intros H Hr l E. exists e, p, s, [], rst. rewrite app_nil_r.
  split. { replace (es - zlen rst) with (es + i) by lia. reflexivity. }
  split; [apply (d_out _ _ _ _ _ _ _ _ H)|]. split; [apply (d_p _ _ _ _ _ _ _ _ H)|auto].
Qed.

Lemma end_switch_run s0 fuel : forall lab m i p o rest,
  dinv m i p o rest -> rest <> [] ->
  2 * (- i) + (match lab with S_CRLFEQ => 1 | _ => 0 end) < Z.of_nat fuel ->
  post lab o rest (end_switch fuel true B es (Some s0) lab i p m).
Proof.
  induction fuel as [|f IH]; intros lab m i p o rest H Hne Hf.
  { pose proof (dinv_le0 _ _ _ _ _ _ _ _ H). destruct lab; lia. }
  destruct rest as [|c r]; [congruence|]. clear Hne.
  pose proof (d_skip _ _ _ _ _ _ _ _ _ H) as H1.
  (* fall through to, or jump to, another label behind [c] *)
  assert (CG : forall m1 p1 o1 s, dinv m1 (i + 1) p1 o1 r ->
    2 * (- (i + 1)) + (match s with S_CRLFEQ => 1 | _ => 0 end) < Z.of_nat f ->
    post s o1 r ((r <- check_end es (i + 1) p1 (Some s0) s ;;
      match r with
      | Some r => ret (inl r)
      | None => end_switch f true B es (Some s0) s (i + 1) p1 end) m1)).
  { intros m1 p1 o1 s D Hs. unfold check_end. destruct (i + 1 =? 0) eqn:E0.
    - pose proof (rest_nil _ _ _ _ _ _ _ _ D ltac:(lia)). subst r.
      cbn [set_state]. rewrite bind_assoc, bind_ret, bind_ret. cbv beta iota.
      exists m1. left. eexists. split; [reflexivity|].
      replace es with (es + (i + 1)) by lia.
      eapply returned_here with (rst := []); [eassumption|cbn; lia|]; rewrite ?E; repeat auto_step; reflexivity.
    - rewrite bind_ret. cbv beta iota. apply IH; auto.
      intros ->. apply d_len in D. change (zlen (@nil byte)) with 0 in D. lia. }
  assert (BR : forall lab, run_end lab (c :: r) = run_end S_NONE (c :: r) ->
     post lab o (c :: r) (Ok (inr (i, p), m))).
  { intros l E. exists m. right. exists i, p. split; [reflexivity|].
    exists [], (c :: r). rewrite app_nil_r, prep4_nil. split; auto. }
  cbn [end_switch]. cbv zeta. destruct lab.
  - (* CRLF *)
    ld. rewrite andb_true_r. destruct (beq c DOT) eqn:E1; bools.
    + apply post_skip with (lab' := S_CRLFDT) (rest' := r); [apply CG; auto; lia|]. auto_step. reflexivity.
    + destruct (beq c EQS) eqn:E2; bools.
      * apply post_skip with (lab' := S_CRLFEQ) (rest' := r); [apply CG; auto; lia|]. auto_step. reflexivity.
      * apply BR. auto_step. reflexivity.
  - (* EQ *)
    ld. st H (u8 (bz c - 42 - 64)). destruct (beq c CR) eqn:E1; bools; cbn [negb].
    + eapply post_step with (lab' := S_CR) (rest' := r); [apply CG; eauto; lia|]. auto_step. reflexivity.
    + eexists. right. eexists _, _. split; [reflexivity|].
      exists [u8 (bz c - 42 - 64)], r. split; [exact D|]. auto_step. reflexivity.
  - (* CR *)
    ld. destruct (beq c LF) eqn:E1; bools; cbn [negb].
    + apply post_skip with (lab' := S_CRLF) (rest' := r); [apply CG; auto; lia|]. auto_step. reflexivity.
    + apply BR. auto_step. reflexivity.
  - (* NONE *)
    apply BR. reflexivity.
  - (* CRLFDT *)
    ld. cbn [andb]. destruct (beq c CR) eqn:E1; bools.
    + apply post_skip with (lab' := S_CRLFDTCR) (rest' := r); [apply CG; auto; lia|]. auto_step. reflexivity.
    + destruct (beq c EQS) eqn:E2; bools.
      * apply post_skip with (lab' := S_CRLFEQ) (rest' := r); [apply CG; auto; lia|]. auto_step. reflexivity.
      * apply BR. auto_step. reflexivity.
  - (* CRLFDTCR *)
    ld. destruct (beq c LF) eqn:E1; bools.
    + cbn [set_state]. rewrite bind_ret. exists m. left. eexists. split; [reflexivity|].
      replace (es + i + 1) with (es + (i + 1)) by lia.
      eapply returned_here; [exact H1|apply (d_len _ _ _ _ _ _ _ _ H1)|]; rewrite ?E; repeat auto_step; reflexivity.
    + apply BR. auto_step. reflexivity.
  - (* CRLFEQ *)
    ld. destruct (beq c YY) eqn:E1; bools.
    + cbn [set_state]. rewrite bind_ret. exists m. left. eexists. split; [reflexivity|].
      replace (es + i + 1) with (es + (i + 1)) by lia.
      eapply returned_here; [exact H1|apply (d_len _ _ _ _ _ _ _ _ H1)|]; rewrite ?E; repeat auto_step; reflexivity.
    + apply post_skip with (lab' := S_EQ) (rest' := c :: r).
      * apply IH; auto; [discriminate|lia].
      * auto_step. reflexivity.
Qed.

(** [i] is at the character after '='; the '=' itself is still in the invariant
    (nothing has been written for it yet). *)
Lemma end_ceq_run s0 lab m i p o rest full :
  dinv m (i - 1) p o (EQS :: rest) -> run_end lab full = run_end S_CRLFEQ rest ->
  exists m', (exists r, end_ceq B es i p (Some s0) m = Ok (inl r, m') /\ returned lab o full r m') \/
    (exists i' p', end_ceq B es i p (Some s0) m = Ok (inr (i', p'), m') /\ i - 1 <= i' /\
       goes_on lab o full (i' + 1) p' m').
Proof.
  intros H E. pose proof (d_skip _ _ _ _ _ _ _ _ _ H) as H1.
  replace (i - 1 + 1) with i in H1 by lia.
  unfold end_ceq, check_end. destruct (i =? 0) eqn:E0.
  - pose proof (rest_nil _ _ _ _ _ _ _ _ H1 ltac:(lia)). subst rest.
    cbn [set_state]. rewrite bind_assoc, bind_ret, bind_ret. cbv beta iota.
    exists m. left. eexists. split; [reflexivity|].
    replace es with (es + i) by lia.
    eapply returned_here with (rst := []); [eassumption|cbn; lia|]; rewrite ?E; repeat auto_step; reflexivity.
  - rewrite bind_ret. cbv beta iota.
    destruct (rest_nonnil _ _ _ _ _ _ _ _ H1) as (c & r & ->).
    { pose proof (dinv_le0 _ _ _ _ _ _ _ _ H1). lia. }
    pose proof (d_skip _ _ _ _ _ _ _ _ _ H1) as H2.
    ld. destruct (beq c YY) eqn:EY; bools.
    + cbn [set_state]. rewrite bind_ret. exists m. left. eexists. split; [reflexivity|].
      replace (es + i + 1) with (es + (i + 1)) by lia.
      eapply returned_here; [exact H2|apply (d_len _ _ _ _ _ _ _ _ H2)|]; rewrite ?E; repeat auto_step; reflexivity.
    + st H (u8 (bz c - 42 - 64)). replace (i - 1 + 1) with i in D by lia.
      eexists. right. eexists _, _. split; [reflexivity|].
      destruct (beq c CR) eqn:EC; bools.
      * split; [lia|]. eexists _, _. replace (i - 1 + 1) with i by lia.
        split; [exact D|]. rewrite E. repeat auto_step. reflexivity.
      * split; [lia|]. apply d_skip in D. eexists _, _. rewrite Z.sub_0_r.
        split; [exact D|]. rewrite E. repeat auto_step. reflexivity.
Qed.

Lemma end_crlf_run s0 m i p o d r :
  dinv m i p o (CR :: LF :: d :: r) ->
  exists m', (exists x, end_crlf true B es i p (Some s0) m = Ok (inl x, m') /\
                returned S_NONE o (CR :: LF :: d :: r) x m') \/
    (exists i' p', end_crlf true B es i p (Some s0) m = Ok (inr (i', p'), m') /\ i <= i' /\
       goes_on S_NONE o (CR :: LF :: d :: r) (i' + 1) p' m').
Proof.
  intro H. pose proof (d_skip _ _ _ _ _ _ _ _ _ H) as H1.
  pose proof (d_skip _ _ _ _ _ _ _ _ _ H1) as H2.
  pose proof (d_skip _ _ _ _ _ _ _ _ _ H2) as H3.
  replace (i + 1 + 1 + 1) with (i + 3) in H3 by lia.
  unfold end_crlf. ld. cbn [andb]. destruct (beq d DOT) eqn:E1; bools.
  - unfold check_end. destruct (i + 3 =? 0) eqn:E0.
    { pose proof (rest_nil _ _ _ _ _ _ _ _ H3 ltac:(lia)). subst r.
      cbn [set_state]. rewrite bind_assoc, bind_ret, bind_ret. cbv beta iota.
      exists m. left. eexists. split; [reflexivity|].
      replace es with (es + (i + 3)) by lia.
      eapply returned_here with (rst := []); [eassumption|cbn; lia|]; rewrite ?E; repeat auto_step; reflexivity. }
    rewrite bind_ret. cbv beta iota.
    destruct (rest_nonnil _ _ _ _ _ _ _ _ H3) as (c & r' & ->).
    { pose proof (dinv_le0 _ _ _ _ _ _ _ _ H3). lia. }
    pose proof (d_skip _ _ _ _ _ _ _ _ _ H3) as H4.
    ld. destruct (beq c CR) eqn:E2; bools.
    + destruct (i + 3 + 1 =? 0) eqn:E3.
      { pose proof (rest_nil _ _ _ _ _ _ _ _ H4 ltac:(lia)). subst r'.
        cbn [set_state]. rewrite bind_assoc, bind_ret, bind_ret. cbv beta iota.
        exists m. left. eexists. split; [reflexivity|].
        replace es with (es + (i + 3 + 1)) by lia.
        eapply returned_here with (rst := []); [eassumption|cbn; lia|]; rewrite ?E; repeat auto_step; reflexivity. }
      rewrite bind_ret. cbv beta iota.
      destruct (rest_nonnil _ _ _ _ _ _ _ _ H4) as (e & r & ->).
      { pose proof (dinv_le0 _ _ _ _ _ _ _ _ H4). lia. }
      pose proof (d_skip _ _ _ _ _ _ _ _ _ H4) as H5.
      ld. destruct (beq e LF) eqn:E4; bools.
      * cbn [set_state]. rewrite bind_ret. exists m. left. eexists. split; [reflexivity|].
        replace (es + (i + 3 + 1) + 1) with (es + (i + 3 + 1 + 1)) by lia.
        eapply returned_here; [exact H5|apply (d_len _ _ _ _ _ _ _ _ H5)|]; rewrite ?E; repeat auto_step; reflexivity.
      * exists m. right. eexists _, _. split; [reflexivity|]. split; [lia|].
        exists [], (e :: r). rewrite app_nil_r, prep4_nil.
        replace (i + 3 + 1 - 1 + 1) with (i + 3 + 1) by lia.
        split; [auto|]. repeat auto_step. reflexivity.
    + destruct (beq c EQS) eqn:E3; bools.
      * destruct (end_ceq_run s0 S_NONE m (i + 3 + 1) p o r' (CR :: LF :: DOT :: EQS :: r')) as (m' & [(x & R & Q)|(i' & p' & R & L & Q)]).
        { replace (i + 3 + 1 - 1) with (i + 3) by lia. auto. }
        { repeat auto_step. reflexivity. }
        -- exists m'. left. exists x. auto.
        -- exists m'. right. exists i', p'. split; [auto|]. split; [lia|auto].
      * exists m. right. eexists _, _. split; [reflexivity|]. split; [lia|].
        exists [], (c :: r'). rewrite app_nil_r, prep4_nil.
        replace (i + 3 - 1 + 1) with (i + 3) by lia.
        split; [auto|]. repeat auto_step. reflexivity.
  - destruct (beq d EQS) eqn:E2; bools.
    + destruct (end_ceq_run s0 S_NONE m (i + 3) p o r (CR :: LF :: EQS :: r)) as (m' & [(x & R & Q)|(i' & p' & R & L & Q)]).
      { replace (i + 3 - 1) with (i + 1 + 1) by lia. auto. }
      { repeat auto_step. reflexivity. }
      -- exists m'. left. exists x. auto.
      -- exists m'. right. exists i', p'. split; [auto|]. split; [lia|auto].
    + exists m. right. eexists _, _. split; [reflexivity|]. split; [lia|].
      exists [], (LF :: d :: r). rewrite app_nil_r, prep4_nil.
      split; [auto|]. repeat auto_step. reflexivity.
Qed.

Definition post2 (o rest : list byte) (x : out ((eres + Z * Z) * mem)) : Prop :=
  exists m', (exists r, x = Ok (inl r, m') /\ returned S_NONE o rest r m') \/
             (exists i' p', x = Ok (inr (i', p'), m') /\ -2 <= i' /\ goes_on S_NONE o rest i' p' m').

Lemma post2_step o w rest rest' x :
  post2 (o ++ w) rest' x -> run_end S_NONE rest = prep4 w (run_end S_NONE rest') ->
  post2 o rest x.
Proof.
  intros (m' & [(r & H1 & H2)|(i & p & H1 & H2 & H3)]) E; exists m'; [left|right].
  - exists r. split; auto. eapply returned_step; eauto.
  - exists i, p. split; auto. split; auto. eapply goes_on_step; eauto.
Qed.

Lemma end_loop_run s0 fuel : forall m i p o rest,
  dinv m i p o rest -> - i < Z.of_nat fuel ->
  post2 o rest (end_loop fuel true B es (Some s0) i p m).
Proof.
  induction fuel as [|f IH]; intros m i p o rest H Hf.
  { pose proof (dinv_le0 _ _ _ _ _ _ _ _ H). lia. }
  cbn [end_loop]. destruct (i <? -2) eqn:Hi.
  2:{ exists m. right. exists i, p. split; [reflexivity|]. split; [lia|].
      exists [], rest. rewrite app_nil_r, prep4_nil. split; auto. }
  destruct (rest_3 _ _ _ _ _ _ _ _ H) as (c & d & e & r & ->); [lia|].
  assert (step : forall m1 i1 p1 w rest1, dinv m1 i1 p1 (o ++ w) rest1 -> i < i1 ->
     run_end S_NONE (c :: d :: e :: r) = prep4 w (run_end S_NONE rest1) ->
     post2 o (c :: d :: e :: r) (end_loop f true B es (Some s0) i1 p1 m1)).
  { intros m1 i1 p1 w rest1 D Hi1 E. eapply post2_step; [|exact E]. apply IH; auto. lia. }
  assert (skip : forall i1 rest1, dinv m i1 p o rest1 -> i < i1 ->
     run_end S_NONE (c :: d :: e :: r) = run_end S_NONE rest1 ->
     post2 o (c :: d :: e :: r) (end_loop f true B es (Some s0) i1 p m)).
  { intros i1 rest1 D Hi1 E. apply step with (w := []) (rest1 := rest1); rewrite ?app_nil_r, ?prep4_nil; auto. }
  ld. pose proof (d_skip _ _ _ _ _ _ _ _ _ H) as H1.
  destruct (beq c CR) eqn:EC; bools.
  - ld. destruct (beq d LF) eqn:ED; bools.
    + destruct (end_crlf_run s0 _ _ _ _ _ _ H) as (m' & [(x & R & Q)|(i' & p' & R & L & (w & rest' & D & E))]).
      * erewrite bind_ok by exact R. cbv beta iota. exists m'. left. exists x. split; [reflexivity|exact Q].
      * erewrite bind_ok by exact R. cbv beta iota. eapply step; eauto. lia.
    + apply (skip _ _ H1); [lia|]. repeat auto_step. reflexivity.
  - destruct (beq c LF) eqn:EL; bools.
    + apply (skip _ _ H1); [lia|]. repeat auto_step. reflexivity.
    + destruct (beq c EQS) eqn:EE; bools.
      * ld. st H (u8 (bz d - 42 - 64)).
        destruct (beq d CR) eqn:ED; bools.
        -- replace (i + 0 + 1) with (i + 1) by lia.
           apply (step _ _ _ _ _ D); [lia|]. repeat auto_step. reflexivity.
        -- apply d_skip in D. apply (step _ _ _ _ _ D); [lia|]. repeat auto_step. reflexivity.
      * st H (u8 (bz c - 42)). apply (step _ _ _ _ _ D); [lia|]. repeat auto_step. reflexivity.
Qed.

(** On at most two characters, both automata agree. *)
Lemma short_same rest : (length rest <= 2)%nat ->
  run_end S_NONE rest = (fst (run_raw S_NONE rest), snd (run_raw S_NONE rest), E_NONE, []).
Proof.
  intro H. destruct rest as [|c [|d [|e r]]]; [reflexivity| | |simpl in H; lia].
  - cbn [run_end run_raw step_end step_raw]. unfold step_normal.
    destruct (beq c CR), (beq c LF), (beq c EQS); reflexivity.
  - cbn [run_end run_raw step_end step_raw]. unfold step_normal.
    destruct (beq c CR); [|destruct (beq c LF); [|destruct (beq c EQS)]]; cbn;
      unfold step_normal, step_esc;
      destruct (beq d CR), (beq d LF), (beq d EQS); reflexivity.
Qed.

Lemma end_run m data s : bytes_at m src data -> zlen data = len ->
  exists m' o s' e rst,
    run_end s data = (o, s', e, rst) /\
    do_decode_end_scalar true B src dest len (Some s) m =
      Ok ((e, es - zlen rst, dest + zlen o, Some s'), m') /\
    bytes_at m' dest o.
Proof.
  intros Hm Hl. unfold do_decode_end_scalar. cbv zeta.
  destruct (len <? 1) eqn:E0.
  { destruct data as [|x r]. 2:{ rewrite zlen_cons in Hl. pose proof (zlen_nonneg r). lia. }
    exists m, [], s, E_NONE, []. change (zlen (@nil byte)) with 0 in *. split; [reflexivity|].
    split; [|cbn; auto]. unfold ret. repeat f_equal; lia. }
  pose proof (dinv_start _ len dest _ _ Hm Hl) as H.
  assert (Hne : data <> []). { intros ->. change (zlen (@nil byte)) with 0 in Hl. lia. }
  destruct (end_switch_run s (S (S (2 * Z.to_nat len))) s _ _ _ _ _ H Hne) as
    (m1 & [(r & R & (e & p' & s' & w & rst & -> & Q1 & Q2 & Q3))|(i1 & p1 & R & (w1 & rest1 & D1 & E1))]).
  { destruct s; lia. }
  - erewrite bind_ok by exact R. cbv beta iota. exists m1, w, s', e, rst.
    subst p'. auto.
  - erewrite bind_ok by exact R. cbv beta iota.
    destruct (end_loop_run s (S (Z.to_nat len)) _ _ _ _ _ D1) as
      (m2 & [(r & R2 & Q)|(i2 & p2 & R2 & L2 & (w2 & rest2 & D2 & E2))]).
    { pose proof (d_no _ _ _ _ _ _ _ _ D1). pose proof (zlen_nonneg ([] ++ w1)). lia. }
    + erewrite bind_ok by exact R2. cbv beta iota.
      eapply returned_step in Q; [|exact E1].
      destruct Q as (e & p' & s' & w & rst & -> & Q1 & Q2 & Q3).
      exists m2, w, s', e, rst. subst p'. auto.
    + erewrite bind_ok by exact R2. cbv beta iota zeta.
      pose proof (dinv_le0 _ _ _ _ _ _ _ _ D2).
      destruct (epilogue_run _ _ _ _ G _ _ _ _ _ (Some s) D2) as (m3 & o3 & R3 & Q3 & F3); [lia|].
      assert (SH : (length rest2 <= 2)%nat).
      { pose proof (d_len _ _ _ _ _ _ _ _ D2) as D. unfold zlen in D. lia. }
      exists m3, ((w1 ++ w2) ++ o3), (snd (run_raw S_NONE rest2)), E_NONE, [].
      split. { rewrite E1, E2, (short_same _ SH), F3. cbn [prep4]. rewrite app_assoc. reflexivity. }
      cbn [app] in Q3, R3. split; auto.
      change (zlen (@nil byte)) with 0. rewrite Z.sub_0_r.
      unfold epilogue in R3. revert R3. unfold bind at 1 2.
      destruct (second_last B es i2 p2 (set_none (Some s)) m2) as [[[pp|[ii pp]] mm]| |]; try discriminate.
      * intros [= -> Es <-]. unfold ret. rewrite Es. reflexivity.
      * intro R3. erewrite bind_ok by exact R3. reflexivity.
Qed.
End Run.
