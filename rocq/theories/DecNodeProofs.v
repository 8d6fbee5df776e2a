(** The JavaScript-visible decoders compute the reference semantics. *)
From Verif Require Import Base BaseLemmas Frame EncSpec EncNode EncNodeSpec DecSpec DecModel DecProofs
  DecEndProofs DecText DecNode DecNodeSpec.
From Coq Require Import ZifyBool ZifyNat ZifyN.
Ltac Zify.zify_post_hook ::= Z.div_mod_to_equations.

(** ** Frames *)

Ltac dframe := repeat first
  [ progress frame
  | match goal with |- frames _ (match ?x with _ => _ end) => destruct x end
  | match goal with |- frames _ (if ?x then _ else _) => destruct x end ].

Lemma fr_raw_loop fuel B es i p : frames B (raw_loop fuel B es i p).
Proof. revert i p; induction fuel; intros; cbn [raw_loop]; cbv zeta; dframe; apply IHfuel. Qed.
Lemma fr_plain_loop fuel B es i p : frames B (plain_loop fuel B es i p).
Proof. revert i p; induction fuel; intros; cbn [plain_loop]; cbv zeta; dframe; apply IHfuel. Qed.
Lemma fr_second B es i p st : frames B (second_last B es i p st).
Proof. unfold second_last; cbv zeta; dframe. Qed.
Lemma fr_final B es i p st : frames B (final_char B es i p st).
Proof. unfold final_char; dframe. Qed.
Lemma fr_raw_crlf B es i p st : frames B (raw_crlf B es i p st).
Proof. unfold raw_crlf; dframe. Qed.
Lemma fr_raw_cr B es i p st : frames B (raw_cr B es i p st).
Proof. unfold raw_cr; cbv zeta; dframe; apply fr_raw_crlf. Qed.
Lemma fr_raw_eq B es i p st : frames B (raw_eq B es i p st).
Proof. unfold raw_eq; cbv zeta; dframe; apply fr_raw_cr. Qed.
Lemma fr_raw_prologue B es i p st : frames B (raw_prologue B es i p st).
Proof.
  unfold raw_prologue; dframe; try apply fr_raw_eq; try apply fr_raw_cr; apply fr_raw_crlf.
Qed.
Lemma fr_noend r B src dest len st : frames B (do_decode_noend_scalar r B src dest len st).
Proof.
  unfold do_decode_noend_scalar; cbv zeta; dframe;
    try apply fr_raw_prologue; try apply fr_raw_loop; try apply fr_second; try apply fr_final; try apply fr_plain_loop.
Qed.
Lemma fr_set B st s : frames B (set_state st s).
Proof. unfold set_state; dframe. Qed.
Lemma fr_check B es i p st s : frames B (check_end es i p st s).
Proof. unfold check_end; dframe; apply fr_set. Qed.
Lemma fr_switch fuel r B es st lab i p : frames B (end_switch fuel r B es st lab i p).
Proof.
  revert lab i p; induction fuel; intros; cbn [end_switch]; cbv zeta; dframe;
    try apply fr_check; try apply fr_set; try apply IHfuel.
Qed.
Lemma fr_ceq B es i p st : frames B (end_ceq B es i p st).
Proof. unfold end_ceq; dframe; try apply fr_check; apply fr_set. Qed.
Lemma fr_crlf r B es i p st : frames B (end_crlf r B es i p st).
Proof. unfold end_crlf; cbv zeta; dframe; try apply fr_check; try apply fr_set; apply fr_ceq. Qed.
Lemma fr_end_loop fuel r B es st i p : frames B (end_loop fuel r B es st i p).
Proof.
  revert i p; induction fuel; intros; cbn [end_loop]; cbv zeta; dframe; try apply fr_crlf; apply IHfuel.
Qed.
Lemma fr_end r B src dest len st : frames B (do_decode_end_scalar r B src dest len st).
Proof.
  unfold do_decode_end_scalar; cbv zeta; dframe;
    try apply fr_switch; try apply fr_end_loop; try apply fr_second; apply fr_final.
Qed.
Lemma fr_decode r s B src dest len st : frames B (do_decode_scalar r s B src dest len st).
Proof. unfold do_decode_scalar; dframe; try apply fr_end; apply fr_noend. Qed.

(** ** What a decoder implementation must do *)

Definition runs_none (d : decoder) (spec : list byte -> list byte) : Prop :=
  forall B src dest data m,
    dgeom B src (zlen data) dest -> bytes_at m src data ->
    exists m' src', d B src dest (zlen data) None m = Ok ((E_NONE, src', dest + zlen (spec data), None), m') /\
      bytes_at m' dest (spec data) /\ (forall q, ~ (wlo B <= q < whi B) -> m' q = m q).

Definition runs_end (d : decoder) : Prop :=
  forall B src dest data m s,
    dgeom B src (zlen data) dest -> bytes_at m src data ->
    exists m' o s' e rst, run_end s data = (o, s', e, rst) /\
      d B src dest (zlen data) (Some s) m =
        Ok ((e, src + zlen data - zlen rst, dest + zlen o, Some s'), m') /\
      bytes_at m' dest o /\ (forall q, ~ (wlo B <= q < whi B) -> m' q = m q).

Definition meets_dec (D : decoders) : Prop :=
  runs_none (dec_plain D) decode_text /\
  runs_none (dec_raw D) (fun l => decode_text (unstuff true l)) /\
  runs_end (dec_end D).

Lemma scalar_plain : runs_none (dec_plain scalar) decode_text.
Proof.
  intros B src dest data m G Hm. cbn [dec_plain scalar]. unfold do_decode_scalar.
  destruct (noend_plain_run _ _ _ _ G m data None Hm eq_refl) as (m' & R & Q).
  cbn [start closes] in *. rewrite run_plain_text in * by discriminate.
  exists m', (src + zlen data). split.
  { erewrite bind_ok by exact R. reflexivity. }
  split; [exact Q|]. intros q Hq. eapply fr_noend; eauto.
Qed.

Lemma scalar_raw : runs_none (dec_raw scalar) (fun l => decode_text (unstuff true l)).
Proof.
  intros B src dest data m G Hm. cbn [dec_raw scalar]. unfold do_decode_scalar.
  destruct (noend_raw_run _ _ _ _ G m data None Hm eq_refl) as (m' & R & Q).
  cbn [start closes lost] in *. rewrite run_raw_text in *.
  exists m', (src + zlen data). split.
  { erewrite bind_ok by exact R. reflexivity. }
  split; [exact Q|]. intros q Hq. eapply fr_noend; eauto.
Qed.

Lemma scalar_end : runs_end (dec_end scalar).
Proof.
  intros B src dest data m s G Hm. cbn [dec_end scalar]. unfold do_decode_scalar.
  destruct (end_run _ _ _ _ G m data s Hm eq_refl) as (m' & o & s' & e & rst & E & R & Q).
  exists m', o, s', e, rst. split; [exact E|]. split; [exact R|]. split; [exact Q|].
  intros q Hq. eapply fr_end; eauto.
Qed.

Lemma scalar_meets : meets_dec scalar.
Proof. split; [apply scalar_plain|split; [apply scalar_raw|apply scalar_end]]. Qed.

(** ** decode and decodeTo *)

Definition reference (isRaw : bool) (data : list byte) : list byte :=
  decode_text (if isRaw then unstuff true data else data).

Section Node.
Variable D : decoders.
Hypothesis HD : meets_dec D.

Lemma decode_ok isRaw B src dest data m :
  dgeom B src (zlen data) dest -> bytes_at m src data ->
  exists m', decode D isRaw B src dest (zlen data) None m = Ok (zlen (reference isRaw data), m') /\
    bytes_at m' dest (reference isRaw data) /\ (forall q, ~ (wlo B <= q < whi B) -> m' q = m q).
Proof.
  intros G Hm. destruct HD as (HP & HR & _). unfold decode, reference. destruct isRaw.
  - destruct (HR B src dest data m G Hm) as (m' & src' & R & Q & F).
    exists m'. split; [|auto]. erewrite bind_ok by exact R. unfold ret. rewrite Z.add_simpl_l. reflexivity.
  - destruct (HP B src dest data m G Hm) as (m' & src' & R & Q & F).
    exists m'. split; [|auto]. erewrite bind_ok by exact R. unfold ret. rewrite Z.add_simpl_l. reflexivity.
Qed.

Lemma zlen_pos (data : list byte) : data <> [] -> (zlen data =? 0) = false.
Proof. destruct data; [congruence|]. intros _. rewrite zlen_cons. pose proof (zlen_nonneg data). lia. Qed.

Lemma decode_spec data isRaw : decode_returns D data isRaw (reference isRaw data).
Proof.
  intros malloc src m Hm Hf. unfold node_decode. destruct (zlen data =? 0) eqn:E0.
  { destruct data as [|c t]; [destruct isRaw; reflexivity|]. rewrite zlen_cons in E0. pose proof (zlen_nonneg t). lia. }
  pose proof (zlen_nonneg data). specialize (Hf (zlen data) ltac:(lia)). unfold apart in Hf.
  cbv zeta. match goal with |- context [decode D isRaw ?B] =>
    destruct (decode_ok isRaw B src (malloc (zlen data)) data m) as (m' & R & Q & F); auto;
    [constructor; cbn [rlo rhi wlo whi]; lia|] end.
  rewrite R. f_equal. unfold zlen. rewrite Nat2Z.id. apply bytes_at_read. exact Q.
Qed.

Lemma decodeTo_spec data isRaw : decodeTo_returns D data isRaw (reference isRaw data).
Proof.
  intros src dest dcap m Hm Hc Hl. unfold node_decode_to. destruct (zlen data =? 0) eqn:E0.
  { destruct data as [|c t]; [|rewrite zlen_cons in E0; pose proof (zlen_nonneg t); lia].
    exists m. destruct isRaw; cbn; auto. }
  destruct (dcap <? zlen data) eqn:E1; [lia|]. cbv zeta. unfold dec_layout in Hl.
  match goal with |- context [decode D isRaw ?B] =>
    destruct (decode_ok isRaw B src dest data m) as (m' & R & Q & F); auto;
    [constructor; cbn [rlo rhi wlo whi]; lia|] end.
  exists m'. rewrite R. cbn [wlo whi] in F. auto.
Qed.

(** ** decodeChunk *)

Lemma slice_short n s : (length s <= n)%nat -> slice_last n s = s.
Proof. intro H. unfold slice_last. replace (length s - n)%nat with 0%nat by lia. reflexivity. Qed.

Lemma prev_state s : 
  str_eqb (slice_last 4 (state_text s)) [CR; LF; DOT; EQS] = false /\
  slice_last 4 (state_text s) = state_text s /\
  (exists i, chunk_state (state_text s) = Some i /\ state_of_index i = s) /\
  nth (index_of_state s) decodePrev [] = state_text s.
Proof.
  destruct s; (split; [reflexivity|]); (split; [reflexivity|]); (split; [|reflexivity]);
    eexists; split; reflexivity.
Qed.

Definition end_text (s : dstate) (e : dend) : list byte :=
  match e with
  | E_NONE => state_text s
  | E_CONTROL => [CR; LF; EQS; YY]
  | E_ARTICLE => [CR; LF; DOT; CR; LF]
  end.

(** The result decodeChunk gives for a run of the automaton. *)
Definition chunk_of (data : list byte) (x : list byte * dstate * dend * list byte) : chunk_result :=
  let '(o, s', e, rst) := x in
  {| c_read := to_int32 (zlen data - zlen rst); c_written := to_int32 (zlen o); c_output := o;
     c_ended := match e with E_NONE => false | _ => true end; c_state := end_text s' e |}.

Lemma incr_ok data s src result cap m B :
  B = {| rlo := src; rhi := src + zlen data; wlo := result; whi := result + cap |} ->
  bytes_at m src data -> zlen data <= cap -> dec_layout src (zlen data) result ->
  exists m' o s' e rst, run_end s data = (o, s', e, rst) /\
    dec_end D B src result (zlen data) (Some s) m =
        Ok ((e, src + zlen data - zlen rst, result + zlen o, Some s'), m') /\
    bytes_at m' result o /\ (forall q, ~ (result <= q < result + cap) -> m' q = m q).
Proof.
  intros -> Hm Hc Hl. destruct HD as (_ & _ & HE). unfold dec_layout in Hl.
  edestruct HE as (m' & o & s' & e & rst & E & R & Q & F); [|exact Hm|].
  2:{ exists m', o, s', e, rst. split; [exact E|]. split; [exact R|]. split; [exact Q|exact F]. }
  constructor; cbn [rlo rhi wlo whi]; lia.
Qed.

Lemma decodeChunk_spec data s : 
  decodeChunk_returns D data (state_text s) (chunk_of data (run_end s data)).
Proof.
  intros malloc src m Hm Hf. unfold js_decodeChunk, chunk_args.
  destruct (prev_state s) as (P1 & P2 & (i & P3 & P4) & P5). rewrite P1, P2.
  destruct (zlen data =? 0) eqn:E0.
  { destruct data as [|c t]; [|rewrite zlen_cons in E0; pose proof (zlen_nonneg t); lia].
    exists m. reflexivity. }
  rewrite P3, P4. unfold node_decode_incr.
  pose proof (zlen_nonneg data). specialize (Hf (zlen data) ltac:(lia)). unfold apart in Hf.
  match goal with |- context [dec_end D ?B] =>
    destruct (incr_ok data s src (malloc (zlen data)) (zlen data) m B) as (m' & o & s' & e & rst & E & R & Q & F);
    auto; [lia|unfold dec_layout; lia|] end.
  exists m'. rewrite R, E. cbn [chunk_of]. do 3 f_equal. cbn [ir_read ir_written ir_output ir_ended ir_state].
  destruct (prev_state s') as (_ & _ & _ & P6). rewrite P6.
  replace (src + zlen data - zlen rst - src) with (zlen data - zlen rst) by lia.
  rewrite Z.add_simpl_l. unfold end_text. f_equal.
  unfold zlen. rewrite Nat2Z.id. apply bytes_at_read. exact Q.
Qed.
End Node.
