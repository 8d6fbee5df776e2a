(** Texts without invalid escape sequences. *)
From Verif Require Import Base BaseLemmas EncSpec DecSpec DecModel DecProofs DecEndProofs DecNodeProofs PropsDecLemmas DecGrow DecMaskSpec DecMaskProofs
  DecSimdModel DecSimdSpec DecSimdProofs DecSimdMain DecVec DecKernelModel DecBlock DecKernel DecVecProofs DecBlockFacts DecSseModel DecCompact DecSseProofs DecSseMain.
From Coq Require Import ZifyBool ZifyNat ZifyN.
Ltac Zify.zify_post_hook ::= Z.div_mod_to_equations.

(** [valid_escapes] as a function; [p] tells whether the text follows a '='. *)
Fixpoint vb (p : bool) (l : list byte) : bool :=
  match l with
  | [] => true
  | c :: t => negb (p && special c) && vb (is_eq c) t
  end.

Lemma special_spec c : special c = false <-> c <> EQS /\ c <> CR /\ c <> LF.
Proof.
  unfold special, is_nl, is_eq. destruct (beq_spec c CR), (beq_spec c LF), (beq_spec c EQS); cbn [orb]; split; try tauto; try discriminate.
Qed.

Lemma vb_spec l : vb false l = true <-> valid_escapes l.
Proof.
  assert (G : forall l p, vb p l = true <-> (forall c b, p = true -> l = c :: b -> special c = false) /\ valid_escapes l).
  { clear. induction l as [|c l IH]; intro p; cbn [vb].
    - split; [|reflexivity]. intros _. split; [discriminate|]. intros [|? ?] ? ? E; discriminate E.
    - rewrite andb_true_iff, negb_true_iff, IH. split.
      + intros (H1 & H2 & H3). split.
        * intros c' b -> [= <- <-]. exact H1.
        * intros [|x a] c' b E; injection E as -> E.
          { subst l. apply special_spec, (H2 c' b); [reflexivity|reflexivity]. }
          { exact (H3 a c' b E). }
      + intros (H1 & H2). split; [|split].
        * destruct p; [|reflexivity]. apply (H1 c l); reflexivity.
        * intros c' b Hc ->. unfold is_eq in Hc. apply beq_true in Hc. subst c. apply special_spec, (H2 [] c' b). reflexivity.
        * intros a c' b ->. apply (H2 (c :: a) c' b). reflexivity. }
  rewrite G. split; [tauto|]. intro H. split; [discriminate|exact H].
Qed.

Lemma vb_weaken p l : vb p l = true -> vb false l = true.
Proof. destruct l as [|c l]; [reflexivity|]. cbn [vb andb negb]. rewrite andb_true_iff. tauto. Qed.

Lemma vb_app l : forall p k, vb p (l ++ k) = vb p l && vb (last (map is_eq l) p) k.
Proof.
  induction l as [|c l IH]; intros p k; [reflexivity|]. cbn [app vb map]. rewrite IH, andb_assoc, last_cons. reflexivity.
Qed.

(** The states in which the last character is a '=' that waits for the next. *)
Definition after_eq (s : dstate) : bool := match s with S_EQ | S_CRLFEQ => true | _ => false end.

Lemma vb_state s l : valid_escapes (state_text s ++ l) <-> vb (after_eq s) l = true.
Proof. rewrite <- vb_spec, vb_app. destruct s; reflexivity. Qed.

Definition valid_for (s : dstate) (l : list byte) : Prop := valid_escapes (state_text s ++ l).

Lemma valid_fst s l k : valid_for s (l ++ k) -> valid_for s l.
Proof. unfold valid_for. rewrite !vb_state, vb_app, andb_true_iff. tauto. Qed.

Lemma valid_next s l k s1 : valid_for s (l ++ k) -> (after_eq s1 = true -> last (map is_eq l) (after_eq s) = true) -> valid_for s1 k.
Proof.
  unfold valid_for. rewrite !vb_state, vb_app, andb_true_iff. intros [_ H] H1.
  destruct (after_eq s1); [rewrite H1 in H by reflexivity; exact H|]. eapply vb_weaken; exact H.
Qed.

Ltac eq_step := repeat match goal with
  | |- context [if beq ?c EQS then _ else _] => destruct (beq c EQS) eqn:?
  | |- context [if ?c then _ else _] => destruct c end; cbn; try discriminate; auto.

Lemma step_normal_eq c : after_eq (snd (step_normal c)) = true -> is_eq c = true.
Proof. unfold step_normal, is_eq. eq_step. Qed.
Lemma step_esc_eq c : after_eq (snd (step_esc c)) = true -> is_eq c = true.
Proof. unfold step_esc, is_eq. eq_step. Qed.
Lemma step_raw_eq s c : after_eq (snd (step_raw s c)) = true -> is_eq c = true.
Proof.
  unfold step_raw. destruct s; try apply step_normal_eq; try apply step_esc_eq;
    match goal with |- context [if ?b then _ else _] => destruct b end; try apply step_normal_eq; cbn; discriminate.
Qed.
Lemma step_plain_eq s c : after_eq (snd (step_plain s c)) = true -> is_eq c = true.
Proof. unfold step_plain, is_eq. destruct s; eq_step. Qed.
Lemma step_end_eq s c o s1 : step_end s c = Go o s1 -> after_eq s1 = true -> is_eq c = true.
Proof.
  assert (G : forall x, go x = Go o s1 -> snd x = s1) by (intros x [= _ <-]; reflexivity).
  unfold step_end. destruct s;
    repeat match goal with
    | |- context [if beq ?c EQS then _ else _] => destruct (beq c EQS) eqn:E
    | |- context [if ?b then _ else _] => destruct b end; intro H;
    try discriminate H; try (injection H as _ <-; cbn; discriminate);
    try (intros _; exact E); apply G in H; rewrite <- H; try apply step_normal_eq; apply step_esc_eq.
Qed.

Lemma run_raw_eq l : forall s, after_eq (snd (run_raw s l)) = true -> last (map is_eq l) (after_eq s) = true.
Proof.
  induction l as [|c l IH]; intro s; [auto|]. cbn [run_raw map]. rewrite last_cons.
  pose proof (step_raw_eq s c) as H1. destruct (step_raw s c) as [o s1]. specialize (IH s1).
  destruct (run_raw s1 l) as [o2 s2]. cbn [snd] in *. intro H. specialize (IH H).
  destruct l as [|d l]; [exact (H1 IH)|]. cbn [map] in *. rewrite last_cons in *. exact IH.
Qed.

Lemma run_plain_eq l : forall s, after_eq (snd (run_plain s l)) = true -> last (map is_eq l) (after_eq s) = true.
Proof.
  induction l as [|c l IH]; intro s; [auto|]. cbn [run_plain map]. rewrite last_cons.
  pose proof (step_plain_eq s c) as H1. destruct (step_plain s c) as [o s1]. specialize (IH s1).
  destruct (run_plain s1 l) as [o2 s2]. cbn [snd] in *. intro H. specialize (IH H).
  destruct l as [|d l]; [exact (H1 IH)|]. cbn [map] in *. rewrite last_cons in *. exact IH.
Qed.

Lemma run_end_eq l : forall s o s1 rst, run_end s l = (o, s1, E_NONE, rst) -> after_eq s1 = true -> last (map is_eq l) (after_eq s) = true.
Proof.
  induction l as [|c l IH]; intros s o s1 rst; cbn [run_end map].
  - intros [= _ <- _]. auto.
  - rewrite last_cons. destruct (step_end s c) as [o2 s2|s2 e] eqn:E.
    + destruct (run_end s2 l) as [[[o3 s3] e3] r3] eqn:E3. intros [= _ -> -> ->] H.
      specialize (IH _ _ _ _ E3 H). pose proof (step_end_eq _ _ _ _ E) as H1.
      destruct l as [|d l]; [exact (H1 IH)|]. cbn [map] in *. rewrite last_cons in *. exact IH.
    + intros [= _ -> -> _]. unfold step_end in E. destruct s;
        repeat match type of E with context [if ?b then _ else _] => destruct b end; discriminate E.
Qed.

Lemma valid_snd isRaw s l k o s1 : valid_for s (l ++ k) -> run_m isRaw s l = (o, s1) -> valid_for s1 k.
Proof.
  intros H Hr. eapply valid_next; [exact H|]. intro H1. destruct isRaw; cbn [run_m] in Hr.
  - apply run_raw_eq. rewrite Hr. exact H1.
  - apply run_plain_eq. rewrite Hr. exact H1.
Qed.

Lemma valid_mode r e s l k o s1 rst : valid_for s (l ++ k) -> run_mode r e s l = (o, s1, E_NONE, rst) -> valid_for s1 k.
Proof.
  intros H Hr. unfold run_mode in Hr. destruct e.
  - eapply valid_next; [exact H|]. eapply run_end_eq; exact Hr.
  - destruct (if r then run_raw s l else run_plain s l) as [o1 s2] eqn:E. injection Hr as -> -> _.
    exact (valid_snd r s l k o s1 H E).
Qed.

Lemma valid_enter r s l : valid_for s l -> valid_for (enter r s l) l.
Proof.
  unfold valid_for. rewrite !vb_state. intro H. destruct (enter_ok r s l) as (He & Hf & _).
  destruct (after_eq (enter r s l)) eqn:E; [|eapply vb_weaken; exact H].
  replace (after_eq s) with true in H; [exact H|].
  destruct He as [He|[He|[_ He]]]; rewrite ?He in *; try discriminate E.
  - destruct s; try reflexivity; discriminate Hf.
  - destruct (enter r s l); try discriminate E; [destruct s; try reflexivity; discriminate Hf|]. cbn in He. congruence.
Qed.

(** Neither a special character nor a stuffed dot is escaped. *)
Lemma valid_special l : forall p, vb p l = true -> existsb id (map2 andb (map special l) (firstn (length l) (p :: map is_eq l))) = false.
Proof.
  induction l as [|c l IH]; intros p H; [reflexivity|]. cbn [vb] in H. apply andb_true_iff in H as [H1 H2].
  cbn [map length]. rewrite firstn_cons. cbn [map2 existsb]. rewrite IH by exact H2. unfold id.
  rewrite andb_comm. destruct (p && special c); [discriminate H1|reflexivity].
Qed.

Lemma nldot_not_eq l : forall a b p, (p = true -> b <> LF) ->
  existsb id (map2 andb (flags nldot (length l) (a :: b :: l)) (firstn (length l) (p :: map is_eq l))) = false.
Proof.
  induction l as [|c l IH]; intros a b p Hp; [reflexivity|].
  cbn [map length flags tl]. rewrite firstn_cons. cbn [map2 existsb]. rewrite IH.
  - rewrite nldot3. unfold id. destruct p; [|rewrite andb_false_r; reflexivity].
    destruct (beq_spec b LF); [exfalso; apply Hp; auto|]. rewrite andb_false_r. reflexivity.
  - unfold is_eq. intros H ->. discriminate H.
Qed.

Lemma kills_not_eq isRaw s l : good_state isRaw s ->
  existsb id (map2 andb (kills_of isRaw s l) (firstn (length l) (is_esc s :: map is_eq l))) = false.
Proof.
  intro Hs. unfold kills_of. destruct isRaw.
  - destruct Hs as [->|[->|[->| ->]]]; cbn [pre app]; apply nldot_not_eq; cbn; discriminate.
  - generalize (is_esc s). induction l as [|c l IH]; intro p; [reflexivity|]. cbn [length repeat map]. rewrite firstn_cons. cbn [map2 existsb andb].
    rewrite IH. reflexivity.
Qed.
