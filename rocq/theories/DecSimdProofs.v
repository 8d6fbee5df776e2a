(** The SIMD front-end decodes like the scalar decoders. *)
From Verif Require Import Base BaseLemmas Frame EncSpec DecSpec DecModel DecProofs DecEndProofs DecText DecNode DecNodeProofs
  DecGrow DecSimdModel DecSimdSpec.
From Coq Require Import ZifyBool ZifyNat ZifyN.
Ltac Zify.zify_post_hook ::= Z.div_mod_to_equations.

(** ** States *)

Definition esc_of (s : dstate) : Z := match s with S_EQ | S_CRLFEQ => 1 | _ => 0 end.

(** The state a kernel starts in. *)
Definition enter (isRaw : bool) (s : dstate) (l : list byte) : dstate :=
  kernel_state (esc_of s) (if isRaw then dot_next s l else 0).

Definition simple (s : dstate) : Prop :=
  match s with S_CRLF | S_EQ | S_CR | S_NONE => True | _ => False end.

Lemma step_raw_simple s c : simple (snd (step_raw s c)).
Proof.
  unfold step_raw, step_normal, step_esc. destruct s;
  repeat match goal with |- context [if ?x then _ else _] => destruct x end; exact I.
Qed.
Lemma run_raw_simple s l : simple s -> simple (snd (run_raw s l)).
Proof.
  revert s; induction l as [|c l IH]; intros s Hs; [exact Hs|].
  rewrite run_raw_cons. cbn [prep snd]. apply IH, step_raw_simple.
Qed.

Lemma enter_ok r s l :
  entry_state r (enter r s l) l /\ esc_flag (enter r s l) = esc_of s /\
  dot_next (enter r s l) l = (if r then dot_next s l else 0).
Proof.
  unfold enter, entry_state. destruct r.
  - destruct s; cbn [esc_of]; try (destruct l as [|c [|d l]]; cbn; auto; fail).
    + destruct l as [|c l]; [cbn; auto|]. cbn [dot_next]. destruct (beq c DOT) eqn:E; cbn; rewrite ?E; auto.
      split; auto. right. right. split; auto. discriminate.
    + destruct l as [|c [|d l]]; [cbn; auto..|]. cbn [dot_next]. destruct (beq c LF && beq d DOT) eqn:E; cbn; rewrite ?E; auto.
      split; auto. right. right. split; auto. discriminate.
  - destruct s; cbn; auto.
Qed.

Lemma sw1 p c l : starts_with (p) l -> starts_with (c :: p) (c :: l).
Proof. intros [t ->]. exists t. reflexivity. Qed.
Lemma sw0 l : starts_with [] l.
Proof. exists l. reflexivity. Qed.

Ltac nomark H := exfalso; apply H; unfold marker_at; cbn [state_text app];
  first [left; repeat apply sw1; apply sw0
        |right; left; repeat apply sw1; apply sw0
        |right; right; repeat apply sw1; apply sw0].
Ltac ands := repeat match goal with
  | E : _ && _ = true |- _ => apply andb_true_iff in E; destruct E
  end.
Ltac chars := repeat match goal with
  | E : beq ?x _ = true |- _ => apply beq_true in E; revert E; intros ->
  end.

Lemma settle_end s l : 4 <= zlen l -> ~ marker_at (state_text s ++ l) ->
  run_end s l = run_end (enter true s l) l.
Proof.
  intros HL H. unfold enter.
  destruct l as [|c [|d [|e l]]]; try (exfalso; unfold zlen in HL; cbn in HL; lia). clear HL.
  destruct s; cbn [esc_of dot_next].
  - destruct (beq c DOT) eqn:E1; cbn [kernel_state negb Z.eqb]; [reflexivity|].
    change (kernel_state 0 0) with S_NONE. rewrite !run_end_cons. cbn [step_end]. rewrite E1.
    destruct (beq c EQS) eqn:E2; [|reflexivity]. chars. cbn [go step_normal fst snd].
    change (step_normal EQS) with ((@nil byte), S_EQ). cbn [go fst snd]. rewrite !run_end_cons. cbn [step_end].
    destruct (beq d YY) eqn:E3; [|reflexivity]. chars. nomark H.
  - reflexivity.
  - destruct (beq c LF && beq d DOT) eqn:E1; cbn [kernel_state negb Z.eqb]; [reflexivity|].
    change (kernel_state 0 0) with S_NONE. rewrite !run_end_cons. cbn [step_end].
    destruct (beq c LF) eqn:E2; [|reflexivity]. chars. cbn [andb] in E1.
    change (step_normal LF) with ((@nil byte), S_NONE). cbn [go fst snd]. rewrite !run_end_cons. cbn [step_end].
    rewrite E1. destruct (beq d EQS) eqn:E3; [|reflexivity]. chars.
    change (step_normal EQS) with ((@nil byte), S_EQ). cbn [go fst snd]. rewrite !run_end_cons. cbn [step_end].
    destruct (beq e YY) eqn:E4; [|reflexivity]. chars. nomark H.
  - reflexivity.
  - change (kernel_state 0 0) with S_NONE. rewrite !run_end_cons. cbn [step_end].
    destruct (beq c CR) eqn:E1; [|destruct (beq c EQS) eqn:E2; [|reflexivity]]; chars.
    + change (step_normal CR) with ((@nil byte), S_CR). cbn [go fst snd]. rewrite !run_end_cons. cbn [step_end].
      destruct (beq d LF) eqn:E3; [|reflexivity]. chars. nomark H.
    + change (step_normal EQS) with ((@nil byte), S_EQ). cbn [go fst snd]. rewrite !run_end_cons. cbn [step_end].
      destruct (beq d YY) eqn:E3; [|reflexivity]. chars. nomark H.
  - change (kernel_state 0 0) with S_NONE. rewrite !run_end_cons. cbn [step_end].
    destruct (beq c LF) eqn:E1; [|reflexivity]. chars. nomark H.
  - change (kernel_state 1 0) with S_EQ. rewrite !run_end_cons. cbn [step_end].
    destruct (beq c YY) eqn:E1; [|reflexivity]. chars. nomark H.
Qed.

Lemma settle_raw s l : simple s -> 2 <= zlen l -> run_raw s l = run_raw (enter true s l) l.
Proof.
  intros Hs HL. unfold enter. destruct l as [|c [|d l]]; try (exfalso; unfold zlen in HL; cbn in HL; lia).
  destruct s; try destruct Hs; cbn [esc_of dot_next]; try reflexivity.
  - destruct (beq c DOT) eqn:E; cbn [kernel_state negb Z.eqb]; [reflexivity|].
    change (kernel_state 0 0) with S_NONE. rewrite !run_raw_cons. cbn [step_raw]. rewrite E. reflexivity.
  - destruct (beq c LF && beq d DOT) eqn:E; cbn [kernel_state negb Z.eqb]; [reflexivity|].
    change (kernel_state 0 0) with S_NONE. rewrite !run_raw_cons. cbn [step_raw].
    destruct (beq c LF) eqn:E2; [|reflexivity]. cbn [andb] in E. chars.
    change (step_normal LF) with ((@nil byte), S_NONE). cbn [fst snd step_raw]. rewrite E. reflexivity.
Qed.

Lemma settle_plain s l : simple s -> l <> [] \/ s = S_EQ \/ s = S_NONE ->
  run_plain s l = run_plain (enter false s l) l.
Proof.
  intros Hs H. unfold enter. destruct l as [|c l].
  - destruct H as [H|[-> | ->]]; [congruence| |]; reflexivity.
  - destruct s; try destruct Hs; cbn [esc_of]; try reflexivity.
Qed.

Lemma run_plain_app s a b :
  run_plain s (a ++ b) = prep (fst (run_plain s a)) (run_plain (snd (run_plain s a)) b).
Proof.
  revert s; induction a as [|c a IH]; intro s.
  - cbn [app run_plain fst snd]. rewrite prep_nil. reflexivity.
  - cbn [app]. rewrite !run_plain_cons, IH. cbn [prep fst snd]. rewrite <- prep_app. reflexivity.
Qed.

Lemma run_plain_states s l : s = S_NONE \/ s = S_EQ -> snd (run_plain s l) = S_NONE \/ snd (run_plain s l) = S_EQ.
Proof.
  revert s; induction l as [|c l IH]; intros s Hs; [exact Hs|].
  rewrite run_plain_cons. cbn [prep snd]. apply IH.
  destruct Hs as [-> | ->]; cbn [step_plain snd]; auto.
  destruct (beq c CR || beq c LF); [auto|]. destruct (beq c EQS); auto.
Qed.

Lemma entry_simple r s l : entry_state r s l -> simple s.
Proof.
  intros [->|[->|[_ H]]]; try exact I. destruct s; try exact I; exfalso; apply H; reflexivity.
Qed.

(** ** One kernel call *)

Lemma prep_mode o x : prep4 o (let '(o', s') := x in (o', s', E_NONE, [])) = (let '(o', s') := prep o x in (o', s', E_NONE, [])).
Proof. destruct x. reflexivity. Qed.

(** A marker of kind [e] at the end of [t] starts somewhere in [t]. *)
Lemma ends_marker_at e t rest : ends_in_marker e t -> exists a b, t = a ++ b /\ marker_at (b ++ rest) /\ b <> [].
Proof.
  destruct e; cbn [ends_in_marker]; [tauto| |].
  - intros [[a ->]|[a ->]]; exists a; eexists; (split; [reflexivity|]); (split; [|discriminate]).
    + left. exists rest. reflexivity.
    + right. left. exists rest. reflexivity.
  - intros [a ->]; exists a; eexists; (split; [reflexivity|]); (split; [|discriminate]).
    right. right. exists rest. reflexivity.
Qed.

Lemma dot_next_nil s : dot_next s [] = 0.
Proof. destruct s; reflexivity. Qed.

Lemma kstep_end s0 d1 rest o s1 :
  simple s0 -> 4 <= zlen rest -> run_raw s0 d1 = (o, s1) ->
  no_marker_in (zlen (state_text s0 ++ d1)) (state_text s0 ++ d1 ++ rest) ->
  run_end s0 (d1 ++ rest) = prep4 o (run_end (kernel_state (esc_flag s1) (dot_next s1 rest)) rest).
Proof.
  intros Hs HL HR HM. rewrite run_end_app.
  destruct (run_end s0 d1) as [[[o' s'] e'] r'] eqn:E.
  destruct (run_end_marker _ _ _ _ _ _ E) as (p & Ep & K1 & K2).
  assert (e' = E_NONE) as ->.
  { assert (D : e' = E_NONE \/ e' <> E_NONE) by (destruct e'; auto; right; discriminate).
    destruct D as [D|D]; auto. exfalso. destruct (K2 D) as [Q _].
    destruct (ends_marker_at _ _ (r' ++ rest) Q) as (a & b & Hab & Hm & Hb).
    refine (HM a (b ++ r' ++ rest) _ _ Hm).
    - rewrite Ep. rewrite <- !app_assoc. rewrite app_assoc, Hab, <- app_assoc. reflexivity.
    - rewrite Ep, app_assoc, zlen_app, Hab, zlen_app. destruct b as [|x b]; [congruence|].
      rewrite zlen_cons. pose proof (zlen_nonneg b). pose proof (zlen_nonneg r'). lia. }
  clear K1 K2 p Ep. destruct (run_end_raw _ _ _ _ _ _ E) as [HR' _]. specialize (HR' eq_refl).
  assert (as_raw s0 = s0) as A0 by (destruct s0; try destruct Hs; reflexivity).
  rewrite A0, HR in HR'. injection HR' as <- ->. f_equal.
  (* the pending text of the state reached cannot become a marker *)
  assert (PM : forall a b, state_text s0 ++ d1 = a ++ b -> b <> [] -> ~ marker_at (b ++ rest)).
  { intros a b Hab Hb. apply (HM a).
    - rewrite app_assoc, Hab, <- app_assoc. reflexivity.
    - rewrite Hab, zlen_app. destruct b as [|x b]; [congruence|].
      rewrite zlen_cons. pose proof (zlen_nonneg b). lia. }
  assert (NN : s' = S_NONE \/ s' <> S_NONE) by (destruct s'; auto; right; discriminate).
  destruct NN as [->|NN]; [reflexivity|].
  assert (NP : ~ marker_at (state_text s' ++ rest)).
  { destruct (state_text_pending _ _ _ _ _ E) as [[a Ha]|[-> [a Ha]]].
    - apply (PM _ _ Ha). destruct s'; discriminate || congruence.
    - pose proof (PM _ _ Ha ltac:(discriminate)) as X. cbn [app state_text] in *.
      intros [[t Y]|[[t Y]|[t Y]]]; cbn [app] in Y; try discriminate Y.
      injection Y as Y. apply X. right. left. exists t. cbn [app]. rewrite Y. reflexivity. }
  rewrite (settle_end s' rest HL NP). f_equal. unfold enter.
  destruct s'; try reflexivity; cbn [as_raw esc_of esc_flag].
  destruct rest as [|c [|d rest]]; try reflexivity. cbn [dot_next].
  destruct (beq c LF) eqn:E1; [|reflexivity]. chars. nomark NP.
Qed.

Lemma kstep r e s0 d1 rest o s1 :
  (e = true -> r = true) -> entry_state r s0 (d1 ++ rest) -> lookahead r e <= zlen rest ->
  (if r then run_raw s0 d1 else run_plain s0 d1) = (o, s1) ->
  (e = true -> no_marker_in (zlen (state_text s0 ++ d1)) (state_text s0 ++ d1 ++ rest)) ->
  run_mode r e s0 (d1 ++ rest) =
    prep4 o (run_mode r e (kernel_state (esc_flag s1) (dot_next s1 rest)) rest).
Proof.
  intros Hre HS HL HR HM. unfold run_mode. pose proof (entry_simple _ _ _ HS) as Hs. destruct e.
  - rewrite (Hre eq_refl) in *. apply kstep_end; auto.
  - rewrite prep_mode. destruct r.
    + rewrite run_raw_app, HR. cbn [fst snd].
      assert (Hs1 : simple s1). { pose proof (run_raw_simple s0 d1 Hs) as X. rewrite HR in X. exact X. }
      rewrite (settle_raw s1 rest Hs1 HL). unfold enter.
      destruct s1; try destruct Hs1; reflexivity.
    + rewrite run_plain_app, HR. cbn [fst snd].
      assert (H1 : s1 = S_NONE \/ s1 = S_EQ).
      { pose proof (run_plain_states s0 d1) as X. rewrite HR in X. apply X.
        destruct HS as [X0|[X0|[X0 _]]]; [auto|auto|discriminate X0]. }
      destruct H1 as [-> | ->]; reflexivity.
Qed.

(** ** Alignment *)

Lemma land_pow2 n x : 0 <= n -> Z.land x (2 ^ n - 1) = x mod 2 ^ n.
Proof. intro. rewrite <- Z.land_ones by lia. rewrite Z.ones_equiv. reflexivity. Qed.

Lemma align_down_pow2 n x : 0 <= n -> align_down (2 ^ n) x = x - x mod 2 ^ n.
Proof.
  intro H. unfold align_down. change (Z.land x (Z.lnot (2 ^ n - 1))) with (Z.land x (Z.lnot (2 ^ n - 1))).
  rewrite <- Z.ldiff_land.
  replace (2 ^ n - 1) with (Z.ones n) by (rewrite Z.ones_equiv; lia).
  rewrite Z.ldiff_ones_r by lia. rewrite Z.shiftl_mul_pow2, Z.shiftr_div_pow2 by lia.
  pose proof (Z.div_mod x (2 ^ n) ltac:(apply Z.pow_nonzero; lia)). lia.
Qed.

(** ** The switch *)

Section Switch.
Variables (B : bufs) (src : Z) (m : mem).

Lemma is16_run a c d x y : rlo B <= a -> a + 2 <= rhi B -> m a = x -> m (a + 1) = y ->
  is16 B a c d m = Ok (beq x c && beq y d, m).
Proof.
  intros. unfold is16. erewrite bind_ok by (apply load_r; lia). erewrite bind_ok by (apply load_r; lia).
  subst. reflexivity.
Qed.
Lemma is24_run a c d e x y z : rlo B <= a -> a + 4 <= rhi B -> m a = x -> m (a + 1) = y -> m (a + 2) = z ->
  is24 B a c d e m = Ok (beq x c && beq y d && beq z e, m).
Proof.
  intros. unfold is24. do 4 erewrite bind_ok by (apply load_r; lia).
  subst. reflexivity.
Qed.
Lemma is8_run a c x : rlo B <= a < rhi B -> m a = x ->
  (z <- load B a ;; ret (beq z c)) m = Ok (beq x c, m).
Proof. intros. erewrite bind_ok by (apply load_r; lia). subst. reflexivity. Qed.
End Switch.

Lemma at4 m src c d e f l : bytes_at m src (c :: d :: e :: f :: l) ->
  m src = c /\ m (src + 1) = d /\ m (src + 2) = e /\ m (src + 3) = f.
Proof.
  cbn [bytes_at]. intros (? & ? & ? & ? & _). rewrite <- !Z.add_assoc in *. cbn in *. auto.
Qed.

Ltac adr := unfold ret; match goal with |- Ok (inl (_, ?a, _), _) = Ok (inl (_, ?b, _), _) =>
  replace b with a by lia; reflexivity end.
Ltac hmark := match goal with M0 : _ ?s = _, M1 : _ (?s + 1) = _, M2 : _ (?s + 2) = _, M3 : _ (?s + 3) = _, Hm : bytes_at _ _ _ |- _ =>
  clear M0 M1 M2 M3 Hm end; unfold marker_at; intros [[t Y]|[[t Y]|[t Y]]]; cbn [app state_text] in Y; inversion Y; subst; discriminate.

Lemma switch_end B src s l m :
  bytes_at m src l -> 4 <= zlen l -> rlo B <= src -> src + zlen l <= rhi B ->
  (exists e' s' rst, simd_switch true true B src s m = Ok (inl (e', src + zlen l - zlen rst, s'), m) /\
     e' <> E_NONE /\ run_end s l = ([], s', e', rst)) \/
  (simd_switch true true B src s m = Ok (inr (dot_next s l), m) /\ (s = S_NONE \/ s = S_EQ \/ ~ marker_at (state_text s ++ l))).
Proof.
  intros Hm HL H1 H2.
  destruct l as [|c [|d [|e [|f l]]]]; try (exfalso; unfold zlen in HL; cbn in HL; lia). clear HL.
  destruct (at4 _ _ _ _ _ _ _ Hm) as (M0 & M1 & M2 & M3). rewrite !zlen_cons in H2.
  pose proof (zlen_nonneg l). unfold simd_switch, andm.
  destruct s; cbn [andb].
  - erewrite bind_ok by (eapply is8_run; [lia|exact M0]). destruct (beq c DOT) eqn:E0.
    + chars. erewrite bind_ok by (eapply is16_run; [lia|lia|exact M1|rewrite <- Z.add_assoc; exact M2]).
      destruct (beq d CR && beq e LF) eqn:E1.
      * ands. chars. left. eexists E_ARTICLE, S_CRLF, (f :: l). rewrite !zlen_cons.
        split; [adr|]. split; [discriminate|reflexivity].
      * erewrite bind_ok by (eapply is16_run; [lia|lia|exact M1|rewrite <- Z.add_assoc; exact M2]).
        destruct (beq d EQS && beq e YY) eqn:E2.
        { ands. chars. left. eexists E_CONTROL, S_NONE, (f :: l). rewrite !zlen_cons.
          split; [adr|]. split; [discriminate|reflexivity]. }
        right. split; [reflexivity|]. right. right. hmark.
    + erewrite bind_ok by (eapply is16_run; [lia|lia|exact M0|exact M1]).
      destruct (beq c EQS && beq d YY) eqn:E1.
      * ands. chars. left. eexists E_CONTROL, S_NONE, (e :: f :: l). rewrite !zlen_cons.
        split; [adr|]. split; [discriminate|reflexivity].
      * right. split; [cbn [dot_next]; rewrite E0; reflexivity|]. right. right. hmark.
  - right. split; [reflexivity|auto].
  - erewrite bind_ok by (eapply is16_run; [lia|lia|exact M0|exact M1]). destruct (beq c LF && beq d DOT) eqn:E0.
    + ands. chars. erewrite bind_ok by (eapply is16_run; [lia|lia|exact M2|rewrite <- Z.add_assoc; exact M3]).
      destruct (beq e CR && beq f LF) eqn:E1.
      * ands. chars. left. eexists E_ARTICLE, S_CRLF, l. rewrite !zlen_cons.
        split; [adr|]. split; [discriminate|reflexivity].
      * erewrite bind_ok by (eapply is16_run; [lia|lia|exact M2|rewrite <- Z.add_assoc; exact M3]).
        destruct (beq e EQS && beq f YY) eqn:E2.
        { ands. chars. left. eexists E_CONTROL, S_NONE, l. rewrite !zlen_cons.
          split; [adr|]. split; [discriminate|reflexivity]. }
        right. split; [reflexivity|]. right. right. hmark.
    + erewrite bind_ok by (eapply is24_run; [lia|lia|exact M0|exact M1|exact M2]).
      destruct (beq c LF && beq d EQS && beq e YY) eqn:E1.
      * ands. chars. left. eexists E_CONTROL, S_NONE, (f :: l). rewrite !zlen_cons.
        split; [adr|]. split; [discriminate|reflexivity].
      * right. split; [cbn [dot_next]; rewrite E0; reflexivity|]. right. right. hmark.
  - right. split; [reflexivity|auto].
  - erewrite bind_ok by (eapply is16_run; [lia|lia|exact M0|exact M1]).
    destruct (beq c CR && beq d LF) eqn:E1.
    + ands. chars. left. eexists E_ARTICLE, S_CRLF, (e :: f :: l). rewrite !zlen_cons.
      split; [adr|]. split; [discriminate|reflexivity].
    + erewrite bind_ok by (eapply is16_run; [lia|lia|exact M0|exact M1]).
      destruct (beq c EQS && beq d YY) eqn:E2.
      { ands. chars. left. eexists E_CONTROL, S_NONE, (e :: f :: l). rewrite !zlen_cons.
        split; [adr|]. split; [discriminate|reflexivity]. }
      right. split; [reflexivity|]. right. right. hmark.
  - erewrite bind_ok by (eapply is8_run; [lia|exact M0]). destruct (beq c LF) eqn:E1.
    + chars. left. eexists E_ARTICLE, S_CRLF, (d :: e :: f :: l). rewrite !zlen_cons.
      split; [adr|]. split; [discriminate|reflexivity].
    + right. split; [reflexivity|]. right. right. hmark.
  - erewrite bind_ok by (eapply is8_run; [lia|exact M0]). destruct (beq c YY) eqn:E1.
    + chars. left. eexists E_CONTROL, S_NONE, (d :: e :: f :: l). rewrite !zlen_cons.
      split; [adr|]. split; [discriminate|reflexivity].
    + right. split; [reflexivity|]. right. right. hmark.
Qed.

Lemma switch_noend r B src s l m :
  bytes_at m src l -> 2 <= zlen l -> rlo B <= src -> src + zlen l <= rhi B ->
  simd_switch r false B src s m = Ok (inr (if r then dot_next s l else 0), m).
Proof.
  intros Hm HL H1 H2.
  destruct l as [|c [|d l]]; try (exfalso; unfold zlen in HL; cbn in HL; lia). clear HL.
  destruct Hm as (M0 & M1 & _). rewrite !zlen_cons in H2. pose proof (zlen_nonneg l).
  unfold simd_switch, andm. destruct s, r; cbn [andb]; try reflexivity.
  - erewrite bind_ok by (eapply is8_run; [lia|exact M0]). cbn [dot_next]. destruct (beq c DOT); reflexivity.
  - erewrite bind_ok by (eapply is16_run; [lia|lia|exact M0|exact M1]). cbn [dot_next].
    destruct (beq c LF && beq d DOT); reflexivity.
Qed.
