(** Shape of the text produced by the specification [yenc]. *)
From Verif Require Import Base BaseLemmas EncSpec EncProofs EncEnd.
From Coq Require Import ZifyBool ZifyNat ZifyN.
Ltac Zify.zify_post_hook ::= Z.div_mod_to_equations.

(** ** Line safety *)

Fixpoint safe (o : list byte) : bool :=
  match o with
  | [] => true
  | c :: t =>
    if beq c CR then match t with d :: t' => beq d LF && safe t' | [] => false end
    else if beq c EQS then
      match t with d :: t' => existsb (beq d) legal_escapes && safe t' | [] => false end
    else negb (beq c NUL) && negb (beq c LF) && safe t
  end.

(** Every character encodes to a plain character or to a legal escape pair. *)
Definition char_ok (e : list byte) : bool :=
  match e with
  | [x] => negb (beq x CR) && negb (beq x EQS) && negb (beq x NUL) && negb (beq x LF)
  | [x; y] => beq x EQS && existsb (beq y) legal_escapes
  | _ => false
  end.
Lemma enc_char_ok f l c : char_ok (enc_char f l c) = true.
Proof. destruct f, l, c; vm_compute; reflexivity. Qed.

Lemma safe_enc_char f l c o : safe o = true -> safe (enc_char f l c ++ o) = true.
Proof.
  intro H. pose proof (enc_char_ok f l c) as K.
  destruct (enc_char f l c) as [|x [|y [|z e]]]; try discriminate K; cbn [app safe].
  - apply andb_true_iff in K. destruct K as [K K3]. apply andb_true_iff in K. destruct K as [K K2].
    apply andb_true_iff in K. destruct K as [K0 K1].
    apply negb_true_iff in K0, K1. rewrite K0, K1, K2, K3, H. reflexivity.
  - apply andb_true_iff in K. destruct K as [K0 K1]. apply beq_true in K0. subst x.
    change (beq EQS CR) with false. change (beq EQS EQS) with true. cbv iota. rewrite K1, H. reflexivity.
Qed.

Lemma yenc_safe L fin col data : safe (yenc L fin col data) = true.
Proof.
  revert col; induction data as [|c t IH]; intro col; [reflexivity|].
  rewrite yenc_cons. cbv zeta. destruct (L <=? col).
  - change (safe (CR :: LF :: ?x)) with (safe x). cbn [safe].
    change (beq CR CR) with true. cbv iota. change (beq LF LF) with true. cbn [andb].
    apply safe_enc_char, IH.
  - apply safe_enc_char, IH.
Qed.

(** Characters other than '=', CR are never the second half of a pair: proving
    position statements from the grammar, by strong induction. *)
Lemma safe_ind (P : list byte -> Prop) :
  P [] ->
  (forall t, safe t = true -> P t -> P (CR :: LF :: t)) ->
  (forall d t, In d legal_escapes -> safe t = true -> P t -> P (EQS :: d :: t)) ->
  (forall c t, c <> CR -> c <> EQS -> c <> NUL -> c <> LF -> safe t = true -> P t -> P (c :: t)) ->
  forall o, safe o = true -> P o.
Proof.
  intros H0 H1 H2 H3.
  assert (G : forall n o, (length o <= n)%nat -> safe o = true -> P o).
  { induction n as [|n IH]; intros o Hn Hs.
    - destruct o; [exact H0|simpl in Hn; lia].
    - destruct o as [|c t]; [exact H0|]. cbn [length] in Hn. cbn [safe] in Hs.
      destruct (beq_spec c CR) as [->|N1].
      + destruct t as [|d t]; [discriminate|]. apply andb_true_iff in Hs. destruct Hs as [Hd Hs].
        apply beq_true in Hd. subst d. apply H1; auto. apply IH; auto. simpl in Hn; lia.
      + destruct (beq_spec c EQS) as [->|N2].
        * destruct t as [|d t]; [discriminate|]. apply andb_true_iff in Hs. destruct Hs as [Hd Hs].
          apply existsb_exists in Hd. destruct Hd as (x & Hx & Hb). apply beq_true in Hb. subst x.
          apply H2; auto. apply IH; auto. simpl in Hn; lia.
        * apply andb_true_iff in Hs. destruct Hs as [Hd Hs]. apply andb_true_iff in Hd.
          destruct Hd as [Hd1 Hd2]. apply negb_true_iff in Hd1, Hd2. apply beq_false in Hd1, Hd2.
          apply H3; auto. apply IH; auto. lia. }
  intros o. apply (G (length o)). lia.
Qed.

Lemma legal_not d : In d legal_escapes -> d <> CR /\ d <> LF /\ d <> NUL /\ d <> EQS /\ d <> YY /\ d <> DOT.
Proof.
  intro H. vm_compute in H. repeat (destruct H as [<-|H]; [vm_compute; repeat split; discriminate|]). destruct H.
Qed.

Lemma safe_line_safe o : safe o = true -> line_safe o.
Proof.
  intro H. unfold line_safe. revert o H.
  apply safe_ind.
  - split; [|split; [|split]]; intros [|? ?] ?; discriminate.
  - intros t _ (A1 & A2 & A3 & A4). split; [|split; [|split]].
    + intros [|? [|? a]] q E; inversion E; subst. eapply A1; eauto.
    + intros [|? [|? a]] q E; inversion E; subst; eauto.
    + intros [|? [|? a]] q E; inversion E; subst.
      * exists []. reflexivity.
      * destruct (A3 a q eq_refl) as [a' ->]. eexists (_ :: _ :: a'). reflexivity.
    + intros [|? [|? a]] q E; inversion E; subst; eauto.
  - intros d t Hd _ (A1 & A2 & A3 & A4). destruct (legal_not d Hd) as (N1 & N2 & N3 & N4 & _).
    split; [|split; [|split]].
    + intros [|? [|? a]] q E; inversion E; subst; solve [congruence | eapply A1; eauto].
    + intros [|? [|? a]] q E; inversion E; subst; try congruence; eauto.
    + intros [|? [|? a]] q E; inversion E; subst; try congruence.
      destruct (A3 a q eq_refl) as [a' ->]. eexists (_ :: _ :: a'). reflexivity.
    + intros [|? [|? a]] q E; inversion E; subst; try congruence; eauto.
  - intros c t N1 N2 N3 N4 _ (A1 & A2 & A3 & A4). split; [|split; [|split]].
    + intros [|? a] q E; inversion E; subst; solve [congruence | eapply A1; eauto].
    + intros [|? a] q E; inversion E; subst; try congruence; eauto.
    + intros [|? a] q E; inversion E; subst; try congruence.
      destruct (A3 a q eq_refl) as [a' ->]. eexists (_ :: a'). reflexivity.
    + intros [|? a] q E; inversion E; subst; try congruence; eauto.
Qed.

(** ** Lines *)

Lemma lines_nonnil o : lines o <> [].
Proof.
  destruct o as [|c t]; [discriminate|]. cbn [lines].
  destruct t as [|d t]; [discriminate|]. destruct (beq c CR && beq d LF); [discriminate|].
  destruct (lines (d :: t)); discriminate.
Qed.

Definition prepend (e : list byte) (ls : list (list byte)) : list (list byte) :=
  match ls with l :: r => (e ++ l) :: r | [] => [e] end.

Lemma lines_cons c o : c <> CR -> lines (c :: o) = prepend [c] (lines o).
Proof.
  intro H. cbn [lines]. destruct o as [|d o]; [reflexivity|].
  apply beq_false in H. rewrite H. cbn [andb].
  destruct (lines (d :: o)) eqn:E; [reflexivity|reflexivity].
Qed.

Lemma lines_crlf o : lines (CR :: LF :: o) = [] :: lines o.
Proof. reflexivity. Qed.

Lemma lines_enc f l c o : lines (enc_char f l c ++ o) = prepend (enc_char f l c) (lines o).
Proof.
  assert (H : Forall (fun x => x <> CR) (enc_char f l c)).
  { pose proof (enc_char_ok f l c) as K.
    destruct (enc_char f l c) as [|x [|y [|z e]]]; try discriminate K.
    - repeat constructor. intros ->. discriminate K.
    - cbn [char_ok] in K. apply andb_true_iff in K. destruct K as [K0 K1]. apply beq_true in K0. subst x.
      apply existsb_exists in K1. destruct K1 as (d & Hd & Hb). apply beq_true in Hb. subst d.
      constructor; [discriminate|]. constructor; [apply legal_not; exact Hd|constructor]. }
  revert H. generalize (enc_char f l c). intros e H.
  induction H as [|x e Hx He IH].
  - simpl. destruct (lines o) eqn:E; [exfalso; eapply lines_nonnil; eauto|reflexivity].
  - rewrite <- app_comm_cons, lines_cons, IH by auto.
    destruct (lines o); reflexivity.
Qed.

Lemma join_lines o : join_crlf (lines o) = o.
Proof.
  assert (G : forall n o, (length o <= n)%nat -> join_crlf (lines o) = o).
  { induction n as [|n IH]; intros [|c t] Hn; try reflexivity; cbn [length] in Hn; [lia|].
    cbn [lines]. destruct t as [|d t]; [reflexivity|].
    destruct (beq c CR && beq d LF) eqn:E.
    - apply andb_true_iff in E. destruct E as [E1 E2]. apply beq_true in E1, E2. subst.
      pose proof (lines_nonnil t). cbn [length] in Hn.
      specialize (IH t ltac:(lia)). cbn [join_crlf].
      destruct (lines t) eqn:E; [congruence|]. rewrite IH. reflexivity.
    - specialize (IH (d :: t) ltac:(simpl in *; lia)).
      destruct (lines (d :: t)) as [|l ls] eqn:E2; [exfalso; eapply lines_nonnil; eauto|].
      cbn [join_crlf] in *. destruct ls; rewrite <- IH; reflexivity. }
  apply (G (length o)). lia.
Qed.

(** What the lines look like from column [col] on. *)
Fixpoint good (L : Z) (fin : bool) (col : Z) (ls : list (list byte)) : Prop :=
  match ls with
  | [] => False
  | l :: rest =>
    (col = 0 -> forall c t, l = c :: t -> c <> DOT /\ c <> TAB /\ c <> SP /\
                            (c = EQS -> exists d t', t = d :: t' /\ d <> YY)) /\
    match rest with
    | [] => (l = [] \/ col + zlen l <= L + 1) /\
            (fin = true -> forall c t, l = t ++ [c] -> c <> TAB /\ c <> SP)
    | r :: _ =>
      r <> [] /\ ((l = [] /\ L <= col) \/ full_line (L - col) l) /\
      (forall c t, l = t ++ [c] -> c <> TAB /\ c <> SP) /\
      good L fin 0 rest
    end
  end.

Lemma snoc_app_inv {A} (e l t : list A) c :
  e ++ l = t ++ [c] -> (l = [] /\ e = t ++ [c]) \/ exists l', l = l' ++ [c].
Proof.
  intro H. destruct l as [|x l] using rev_ind.
  - left. rewrite app_nil_r in H. auto.
  - right. exists l. rewrite app_assoc in H. apply app_inj_tail in H. destruct H as [_ ->]. reflexivity.
Qed.

Lemma enc_first_good l c x t :
  enc_char true l c = x :: t -> x <> DOT /\ x <> TAB /\ x <> SP /\
   (x = EQS -> exists d, t = [d] /\ d <> YY).
Proof.
  assert (K : forall l c, match enc_char true l c with
      | [a] => negb (beq a DOT) && negb (beq a TAB) && negb (beq a SP) && negb (beq a EQS)
      | [a; b] => beq a EQS && negb (beq b YY) | _ => false end = true).
  { intros l0 c0. destruct l0, c0; vm_compute; reflexivity. }
  intro H. specialize (K l c). rewrite H in K. destruct t as [|y [|z t]]; try discriminate K.
  - apply andb_true_iff in K. destruct K as [K K3]. apply andb_true_iff in K. destruct K as [K K2].
    apply andb_true_iff in K. destruct K as [K0 K1].
    apply negb_true_iff in K0, K1, K2, K3. apply beq_false in K0, K1, K2, K3. tauto.
  - apply andb_true_iff in K. destruct K as [K0 K1]. apply beq_true in K0. subst x.
    apply negb_true_iff, beq_false in K1.
    repeat split; try discriminate. intros _. exists y. auto.
Qed.

Lemma enc_last_good f c x t :
  enc_char f true c = t ++ [x] -> x <> TAB /\ x <> SP.
Proof.
  assert (H : forall f c, is_ws (last (enc_char f true c) NUL) = false).
  { intros f0 c0; destruct f0, c0; reflexivity. }
  intro E. specialize (H f c). rewrite E, last_last in H.
  split; intros ->; discriminate H.
Qed.

Lemma enc_two f l c : zlen (enc_char f l c) = 2 -> exists d, enc_char f l c = [EQS; d].
Proof.
  unfold enc_char. destruct (must_escape f l c); [eauto|]. intro H. discriminate H.
Qed.

Lemma good_lines L fin col data :
  1 <= L -> 0 <= col -> good L fin col (lines (yenc L fin col data)).
Proof.
  intros HL. revert col; induction data as [|c t IH]; intros col Hc.
  { simpl. split; [intros; discriminate|]. split; [auto|]. intros _ c t H.
    destruct t; discriminate. }
  rewrite yenc_cons. cbv zeta. destruct (L <=? col) eqn:E.
  - rewrite lines_crlf. set (e := enc_char true false c).
    assert (He : 1 <= zlen e <= 2) by apply enc_char_len.
    cbn [good]. split; [intros; discriminate|].
    subst e. rewrite lines_enc. specialize (IH (zlen (enc_char true false c)) ltac:(lia)).
    set (o := yenc L fin (zlen (enc_char true false c)) t) in *.
    destruct (lines o) as [|l1 ls] eqn:El; [exfalso; eapply lines_nonnil; eauto|].
    cbn [prepend]. split.
    { pose proof (enc_char_nonnil true false c). destruct (enc_char true false c); [congruence|discriminate]. }
    split; [left; split; [auto|lia]|].
    split. { intros ? [|? ?] ?; discriminate. }
    (* the line just started *)
    assert (Hstart : forall x y, enc_char true false c ++ l1 = x :: y -> x <> DOT /\ x <> TAB /\ x <> SP /\
              (x = EQS -> exists d t', y = d :: t' /\ d <> YY)).
    { intros x y Hxy. pose proof (enc_char_nonnil true false c).
      destruct (enc_char true false c) as [|x0 e0] eqn:Ee; [congruence|].
      cbn in Hxy. injection Hxy as -> <-.
      destruct (enc_first_good _ _ _ _ Ee) as (A1 & A2 & A3 & A4).
      repeat split; auto. intro Hx. destruct (A4 Hx) as (d & -> & Hd). cbn. eauto. }
    cbn [good] in IH |- *. destruct IH as [_ IH]. split; [intros _; exact Hstart|].
    set (e := enc_char true false c) in *.
    assert (Eend : forall x y, e = y ++ [x] -> x <> TAB /\ x <> SP).
    { intros x y Hxy. assert (H : is_ws (last e NUL) = false) by (unfold e; destruct c; reflexivity).
      rewrite Hxy, last_last in H. split; intros ->; discriminate H. }
    destruct ls as [|l2 ls].
    + destruct IH as [IH1 IH2]. split.
      * right. destruct IH1 as [->|IH1]; rewrite zlen_app; [change (zlen (@nil byte)) with 0; lia|lia].
      * intros Hf x y Hxy. destruct (snoc_app_inv _ _ _ _ Hxy) as [[-> Hxy']|[l' ->]]; [eauto|eapply IH2; eauto].
    + destruct IH as (IH1 & IH2 & IH3 & IH4). split; [auto|]. split; [|split].
      * right. destruct IH2 as [[-> IH2]|IH2].
        -- rewrite app_nil_r.
           destruct (Z.eq_dec (zlen e) L) as [Hz|Hz]; [left; lia|].
           right. split; [lia|]. destruct (enc_two true false c) as [d Hd]; [fold e; lia|].
           fold e in Hd. rewrite Hd. exists [], d. reflexivity.
        -- unfold full_line in *. rewrite zlen_app. destruct IH2 as [IH2|[IH2 (l' & x & IH2')]]; [left; lia|].
           right. split; [lia|]. exists (e ++ l'), x. rewrite IH2', app_assoc. reflexivity.
      * intros x y Hxy. destruct (snoc_app_inv _ _ _ _ Hxy) as [[-> Hxy']|[l' ->]]; [eauto|eapply IH3; eauto].
      * exact IH4.
  - set (g := (col =? L - 1) || (fin && match t with [] => true | _ => false end)).
    set (e := enc_char (col =? 0) g c) in *.
    assert (He : 1 <= zlen e <= 2) by apply enc_char_len.
    subst e. rewrite lines_enc. specialize (IH (col + zlen (enc_char (col =? 0) g c)) ltac:(lia)).
    set (o := yenc L fin (col + zlen (enc_char (col =? 0) g c)) t) in *.
    destruct (lines o) as [|l1 ls] eqn:El; [exfalso; eapply lines_nonnil; eauto|].
    cbn [prepend]. cbn [good] in IH |- *. destruct IH as [_ IH].
    split.
    { intros H0 x y Hxy. subst col. change (0 =? 0) with true in *.
      pose proof (enc_char_nonnil true g c).
      destruct (enc_char true g c) as [|x0 e0] eqn:Ee; [congruence|].
      cbn in Hxy. injection Hxy as -> <-.
      destruct (enc_first_good _ _ _ _ Ee) as (A1 & A2 & A3 & A4).
      repeat split; auto. intro Hx. destruct (A4 Hx) as (d & -> & Hd). cbn. eauto. }
    set (e := enc_char (col =? 0) g c) in *.
    assert (Eend : g = true -> forall x y, e = y ++ [x] -> x <> TAB /\ x <> SP).
    { intros Hg x y Hxy. unfold e in Hxy. rewrite Hg in Hxy. eapply enc_last_good; eauto. }
    assert (Hls : l1 = [] -> ls <> [] -> L <= col + zlen e).
    { intros -> Hn. destruct ls as [|l2 ls]; [congruence|]. destruct IH as (_ & [[_ IH]|IH] & _); [lia|].
      unfold full_line in IH. change (zlen (@nil byte)) with 0 in IH.
      destruct IH as [IH|[IH (l' & x & IH2)]]; [lia|]. destruct l' as [|? [|? ?]]; discriminate. }
    (* an escape at the end of a full line that has not been escaped because of g *)
    assert (Eend2 : L <= col + zlen e -> forall x y, e = y ++ [x] -> x <> TAB /\ x <> SP).
    { intros Hf. destruct g eqn:Hg; [apply Eend; reflexivity|].
      destruct (Z.eq_dec (zlen e) 2) as [H2|H2]; [|exfalso; unfold g in Hg; lia].
      intros x y Hxy. unfold e in Hxy.
      assert (Hq : forall f g c, zlen (enc_char f g c) = 2 -> is_ws (last (enc_char f g c) NUL) = false).
      { intros f0 g0 c0. destruct f0, g0, c0; vm_compute; congruence. }
      specialize (Hq _ _ _ H2). rewrite Hxy, last_last in Hq. split; intros ->; discriminate Hq. }
    assert (Hleft : L <= col + zlen e -> full_line (L - col) e).
    { intro Hf. unfold full_line. destruct (Z.eq_dec (col + zlen e) L) as [Hz|Hz]; [left; lia|].
      right. split; [lia|]. destruct (enc_two (col =? 0) g c) as [d Hd]; [fold e; lia|].
      fold e in Hd. rewrite Hd. exists [], d. reflexivity. }
    destruct ls as [|l2 ls].
    + destruct IH as [IH1 IH2]. split.
      * right. destruct IH1 as [->|IH1]; rewrite zlen_app; [change (zlen (@nil byte)) with 0; lia|lia].
      * intros Hf x y Hxy. destruct (snoc_app_inv _ _ _ _ Hxy) as [[-> Hxy']|[l' ->]]; [|eapply IH2; eauto].
        (* l1 = [] and it is the last line: t must be empty *)
        destruct t as [|c2 t2].
        -- apply (Eend (ltac:(unfold g; rewrite Hf; cbn; apply orb_true_r)) x y Hxy').
        -- exfalso. assert (Hne : o <> []) by (unfold o; apply yenc_nonnil).
           apply Hne. rewrite <- (join_lines o), El. reflexivity.
    + destruct IH as (IH1 & IH2 & IH3 & IH4). split; [auto|]. split; [|split].
      * right. destruct IH2 as [[-> IH2]|IH2].
        -- rewrite app_nil_r. apply Hleft. lia.
        -- destruct l1 as [|x1 l1'].
           ++ rewrite app_nil_r. apply Hleft. apply Hls; [reflexivity|discriminate].
           ++ unfold full_line in *. rewrite zlen_app. destruct IH2 as [IH2|[IH2 (l' & x & IH2')]]; [left; lia|].
              right. split; [lia|]. exists (e ++ l'), x. rewrite IH2', app_assoc. reflexivity.
      * intros x y Hxy. destruct (snoc_app_inv _ _ _ _ Hxy) as [[-> Hxy']|[l' ->]]; [|eapply IH3; eauto].
        apply (Eend2 (Hls eq_refl ltac:(discriminate)) x y Hxy').
      * exact IH4.
Qed.
