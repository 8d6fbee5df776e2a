(** A scalar decoder that succeeds with small buffers behaves the same with larger
    ones; hence it changes nothing outside the part of the destination as long as
    its source. *)
From Verif Require Import Base BaseLemmas Frame DecSpec DecModel DecProofs DecEndProofs DecText DecNode DecNodeProofs.
From Coq Require Import ZifyBool ZifyNat ZifyN.

Definition sub (B B' : bufs) : Prop :=
  (forall a, can_read B a = true -> can_read B' a = true) /\
  (forall a, can_write B a = true -> can_write B' a = true).

Definition grows {A} (x y : M A) : Prop := forall m r, x m = Ok r -> y m = Ok r.

Section Grow.
Variables B B' : bufs.
Hypothesis HB : sub B B'.

Lemma gr_refl {A} (x : M A) : grows x x.
Proof. intros m r H. exact H. Qed.
Lemma gr_bind {A C} (x y : M A) (f g : A -> M C) :
  grows x y -> (forall a, grows (f a) (g a)) -> grows (bind x f) (bind y g).
Proof.
  intros H K m r E. unfold bind in *. destruct (x m) as [[a m1]| |] eqn:X; try discriminate.
  rewrite (H _ _ X). apply K. exact E.
Qed.
Lemma gr_load a : grows (load B a) (load B' a).
Proof.
  intros m r E. unfold load in *. destruct (can_read B a) eqn:X; [|discriminate].
  rewrite (proj1 HB _ X). exact E.
Qed.
Lemma gr_store a b : grows (store B a b) (store B' a b).
Proof.
  intros m r E. unfold store in *. destruct (can_write B a) eqn:X; [|discriminate].
  rewrite (proj2 HB _ X). exact E.
Qed.

Ltac grow := repeat first
  [ apply gr_bind; [|intros]
  | apply gr_load | apply gr_store | apply gr_refl
  | match goal with |- grows (if ?x then _ else _) _ => destruct x end
  | match goal with |- grows (match ?x with _ => _ end) _ => destruct x end ].

Lemma gr_raw_loop fuel es i p : grows (raw_loop fuel B es i p) (raw_loop fuel B' es i p).
Proof. revert i p; induction fuel; intros; cbn [raw_loop]; cbv zeta; grow; apply IHfuel. Qed.
Lemma gr_plain_loop fuel es i p : grows (plain_loop fuel B es i p) (plain_loop fuel B' es i p).
Proof. revert i p; induction fuel; intros; cbn [plain_loop]; cbv zeta; grow; apply IHfuel. Qed.
Lemma gr_second es i p st : grows (second_last B es i p st) (second_last B' es i p st).
Proof. unfold second_last; cbv zeta; grow. Qed.
Lemma gr_final es i p st : grows (final_char B es i p st) (final_char B' es i p st).
Proof. unfold final_char; grow. Qed.
Lemma gr_raw_prologue es i p st : grows (raw_prologue B es i p st) (raw_prologue B' es i p st).
Proof. unfold raw_prologue, raw_eq, raw_cr, raw_crlf; cbv zeta; grow. Qed.
Lemma gr_noend r src dest len st :
  grows (do_decode_noend_scalar r B src dest len st) (do_decode_noend_scalar r B' src dest len st).
Proof.
  unfold do_decode_noend_scalar; cbv zeta; grow;
    try apply gr_raw_prologue; try apply gr_raw_loop; try apply gr_second; try apply gr_final; try apply gr_plain_loop.
Qed.
Lemma gr_switch fuel r es st lab i p :
  grows (end_switch fuel r B es st lab i p) (end_switch fuel r B' es st lab i p).
Proof. revert lab i p; induction fuel; intros; cbn [end_switch]; cbv zeta; grow; apply IHfuel. Qed.
Lemma gr_ceq es i p st : grows (end_ceq B es i p st) (end_ceq B' es i p st).
Proof. unfold end_ceq; grow. Qed.
Lemma gr_crlf r es i p st : grows (end_crlf r B es i p st) (end_crlf r B' es i p st).
Proof. unfold end_crlf; cbv zeta; grow; apply gr_ceq. Qed.
Lemma gr_end_loop fuel r es st i p : grows (end_loop fuel r B es st i p) (end_loop fuel r B' es st i p).
Proof. revert i p; induction fuel; intros; cbn [end_loop]; cbv zeta; grow; try apply gr_crlf; apply IHfuel. Qed.
Lemma gr_end r src dest len st :
  grows (do_decode_end_scalar r B src dest len st) (do_decode_end_scalar r B' src dest len st).
Proof.
  unfold do_decode_end_scalar; cbv zeta; grow;
    try apply gr_switch; try apply gr_end_loop; try apply gr_second; apply gr_final.
Qed.
Lemma gr_decode r e src dest len st :
  grows (do_decode_scalar r e B src dest len st) (do_decode_scalar r e B' src dest len st).
Proof. unfold do_decode_scalar; grow; try apply gr_end; apply gr_noend. Qed.
End Grow.

(** ** The three scalar decoders as one *)

Definition run_mode (isRaw searchEnd : bool) (s : dstate) (l : list byte) : list byte * dstate * dend * list byte :=
  if searchEnd then run_end s l
  else let '(o, s') := (if isRaw then run_raw s l else run_plain s l) in (o, s', E_NONE, []).

(** The bytes the raw scalar decoder writes but does not count. *)
Definition uncounted (isRaw searchEnd : bool) (state : option dstate) (l : list byte) : Z :=
  if isRaw && negb searchEnd && lost state l then 1 else 0.

Lemma lost_out state l : lost state l = true -> zlen (fst (run_raw (start state) l)) = 1.
Proof.
  unfold lost. destruct state as [[]|]; try discriminate. destruct l as [|a [|b [|c l]]]; try discriminate; intro H.
  - reflexivity.
  - apply andb_true_iff in H. destruct H as [H1 H2]. apply beq_true in H1, H2. subst. reflexivity.
Qed.

Lemma scalar_mode r e B src dest data m state :
  (e = true -> r = true /\ state <> None) ->
  dgeom B src (zlen data) dest -> bytes_at m src data ->
  exists m' o s' e' rst, run_mode r e (start state) data = (o, s', e', rst) /\
    do_decode_scalar r e B src dest (zlen data) state m =
      Ok ((e', src + zlen data - zlen rst, dest + zlen o - uncounted r e state data, closes state s'), m') /\
    bytes_at m' dest o /\ (forall q, ~ (dest <= q < dest + zlen data) -> m' q = m q).
Proof.
  intros Hre G Hm.
  set (B0 := {| rlo := src; rhi := src + zlen data; wlo := dest; whi := dest + zlen data |}).
  assert (G0 : dgeom B0 src (zlen data) dest).
  { destruct G. constructor; subst B0; cbn; lia. }
  assert (HS : sub B0 B).
  { destruct G. split; intro a; subst B0; unfold can_read, can_write; cbn; lia. }
  cut (exists m' o s' e' rst, run_mode r e (start state) data = (o, s', e', rst) /\
    do_decode_scalar r e B0 src dest (zlen data) state m =
      Ok ((e', src + zlen data - zlen rst, dest + zlen o - uncounted r e state data, closes state s'), m') /\
    bytes_at m' dest o).
  { intros (m' & o & s' & e' & rst & H1 & H2 & H3). exists m', o, s', e', rst.
    split; [exact H1|]. split; [exact (gr_decode _ _ HS _ _ _ _ _ _ _ _ H2)|]. split; [exact H3|].
    intros q Hq. apply (fr_decode _ _ _ _ _ _ _ _ _ _ H2). exact Hq. }
  clear HS G B. unfold run_mode, do_decode_scalar, uncounted. destruct e.
  - destruct (Hre eq_refl) as [-> Hst]. cbn [andb negb]. destruct state as [s|]; [|congruence]. cbn [start closes].
    destruct (end_run _ _ _ _ G0 m data s Hm eq_refl) as (m' & o & s' & e & rst & E & R & Q).
    exists m', o, s', e, rst. rewrite Z.sub_0_r. auto.
  - rewrite andb_true_r. destruct r.
    + cbn [andb]. destruct (noend_raw_run _ _ _ _ G0 m data state Hm eq_refl) as (m' & R & Q).
      pose proof (lost_out state data) as L. destruct (run_raw (start state) data) as [o s'] eqn:E. cbn [fst snd] in *.
      exists m', o, s', E_NONE, []. split; [reflexivity|]. split; [|exact Q].
      erewrite bind_ok by exact R. change (zlen (@nil byte)) with 0. unfold ret.
      destruct (lost state data).
      * rewrite (L eq_refl). rewrite Z.sub_0_r, Z.add_0_r. replace (dest + 1 - 1) with dest by lia. reflexivity.
      * rewrite !Z.sub_0_r. reflexivity.
    + cbn [andb]. destruct (noend_plain_run _ _ _ _ G0 m data state Hm eq_refl) as (m' & R & Q).
      destruct (run_plain (start state) data) as [o s'] eqn:E. cbn [fst snd] in *.
      exists m', o, s', E_NONE, []. split; [reflexivity|]. split; [|exact Q].
      erewrite bind_ok by exact R. change (zlen (@nil byte)) with 0. unfold ret.
      rewrite !Z.sub_0_r. reflexivity.
Qed.
