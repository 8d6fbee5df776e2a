(** Programs of the abstract machine change memory only inside the destination. *)
From Verif Require Import Base BaseLemmas EncModel.

Definition frames {A} (B : bufs) (x : M A) : Prop :=
  forall m a m', x m = Ok (a, m') -> forall q, ~ (wlo B <= q < whi B) -> m' q = m q.

Lemma fr_ret {A} B (a : A) : frames B (ret a).
Proof. intros m b m' H q _. inversion H; subst; reflexivity. Qed.
Lemma fr_ub {A} B : frames B (@ub A).
Proof. intros m b m' H. discriminate H. Qed.
Lemma fr_nofuel {A} B : frames B (@nofuel A).
Proof. intros m b m' H. discriminate H. Qed.
Lemma fr_bind {A C} B (x : M A) (f : A -> M C) :
  frames B x -> (forall a, frames B (f a)) -> frames B (bind x f).
Proof.
  intros Hx Hf m b m' H q Hq. unfold bind in H.
  destruct (x m) as [[a m1]| |] eqn:E; try discriminate.
  rewrite (Hf a m1 b m' H q Hq). eapply Hx; eauto.
Qed.
Lemma fr_load B a : frames B (load B a).
Proof.
  intros m b m' H q _. unfold load in H. destruct (can_read B a); inversion H; subst; reflexivity.
Qed.
Lemma fr_store B a b : frames B (store B a b).
Proof.
  intros m u m' H q Hq. unfold store in H. destruct (can_write B a) eqn:E; inversion H; subst.
  apply upd_other. unfold can_write in E. lia.
Qed.
Lemma fr_chk B z : frames B (chk_int z).
Proof.
  intros m u m' H q Hq. unfold chk_int in H. destruct (in_int z); inversion H; subst. reflexivity.
Qed.

Ltac frame :=
  repeat match goal with
  | |- frames _ (bind _ _) => apply fr_bind; [|intros]
  | |- frames _ (ret _) => apply fr_ret
  | |- frames _ ub => apply fr_ub
  | |- frames _ nofuel => apply fr_nofuel
  | |- frames _ (load _ _) => apply fr_load
  | |- frames _ (store _ _ _) => apply fr_store
  | |- frames _ (chk_int _) => apply fr_chk
  | |- frames _ (if ?b then _ else _) => destruct b
  | |- frames _ (match ?x with _ => _ end) => destruct x
  | |- frames _ (let _ := _ in _) => cbv zeta
  | |- forall _, _ => intro
  | _ => assumption
  end.

Lemma fr_store16 B p w : frames B (store16 B p w).
Proof. unfold store16; frame. Qed.
Lemma fr_store32 B p w : frames B (store32 B p w).
Proof. unfold store32; frame. Qed.
Lemma fr_first B es i p : frames B (enc_first B es i p).
Proof. unfold enc_first; frame; apply fr_store16. Qed.
Lemma fr_thing B es i n p : frames B (do_thing B es i n p).
Proof. unfold do_thing; frame; apply fr_store16. Qed.
Lemma fr_block8 B es i p : frames B (enc_block8 B es i p).
Proof. unfold enc_block8; frame; apply fr_thing. Qed.
Lemma fr_unrolled fuel B es L i p col sp : frames B (enc_unrolled fuel B es L i p col sp).
Proof. revert i p col sp; induction fuel; intros; cbn [enc_unrolled]; frame; [apply fr_block8|apply IHfuel]. Qed.
Lemma fr_rest fuel B es L i p col : frames B (enc_rest fuel B es L i p col).
Proof. revert i p col; induction fuel; intros; cbn [enc_rest]; frame; try apply fr_store16; apply IHfuel. Qed.
Lemma fr_last B es L i p col : frames B (enc_last B es L i p col).
Proof. unfold enc_last; frame; apply fr_store16. Qed.
Lemma fr_eol B c p : frames B (enc_eol B c p).
Proof. unfold enc_eol; frame; apply fr_store32. Qed.
Lemma fr_lines fuel B es L i p col : frames B (enc_lines fuel B es L i p col).
Proof.
  revert i p col; induction fuel; intros; cbn [enc_lines]; frame;
    try apply fr_unrolled; try apply fr_rest; try apply fr_last; try apply fr_eol; try apply IHfuel.
Qed.
Lemma fr_end B fin p col : frames B (enc_end B fin p col).
Proof. unfold enc_end; frame. Qed.
Lemma fr_generic B L col src dest len fin : frames B (do_encode_generic B L col src dest len fin).
Proof.
  unfold do_encode_generic; frame; try apply fr_first; try apply fr_lines; apply fr_end.
Qed.
