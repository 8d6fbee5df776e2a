(** Kernels that work block by block. *)
From Verif Require Import Base BaseLemmas EncSpec DecSpec DecModel DecProofs DecMaskSpec DecMaskProofs
  DecSimdModel DecSimdSpec DecVec DecKernelModel DecBlock.
From Coq Require Import ZifyBool ZifyNat ZifyN.
Ltac Zify.zify_post_hook ::= Z.div_mod_to_equations.

Definition run_m (isRaw : bool) (s : dstate) (l : list byte) := if isRaw then run_raw s l else run_plain s l.

Definition good_state (isRaw : bool) (s : dstate) : Prop :=
  if isRaw then simple_state s else s = S_NONE \/ s = S_EQ.

(** What the body of the loop has to do on a block [l] followed by [look]; [R] ties
    the variables of the loop to p, escFirst and nextMask.  With [ex], it stops only at
    a marker. *)
Definition block_ok {T} (ex isRaw searchEnd : bool) (w : Z) (body : bufs -> Z -> Z -> T -> M (Z + T))
    (R : T -> Z -> bool -> Z -> Prop) : Prop :=
  forall B src i t p s l look m o s1,
    zlen l = w -> bytes_at m (src + i) (l ++ look) -> (src + i) mod w = 0 ->
    lookahead isRaw searchEnd <= zlen look ->
    rlo B <= src + i -> src + i + w + zlen look <= rhi B -> wlo B <= p -> p + w <= whi B ->
    good_state isRaw s -> R t p (is_esc s) (dot_next s (l ++ look)) ->
    run_m isRaw s l = (o, s1) ->
    (searchEnd = true /\ body B src i t m = Ok (inl (dot_next s (l ++ look)), m) /\ (ex = true -> marker_in w (l ++ look))) \/
    exists t' m', body B src i t m = Ok (inr t', m') /\
      R t' (p + zlen o) (is_esc s1) (dot_next s1 look) /\ bytes_at m' p o /\
      (forall q, ~ (p <= q < p + w) -> m' q = m q) /\
      (searchEnd = true -> no_marker_in w (l ++ look)).

(** The same where the text [l] met in state [s] satisfies [P]. *)
Definition block_ok_on {T} (P : dstate -> list byte -> Prop) (ex isRaw searchEnd : bool) (w : Z) (body : bufs -> Z -> Z -> T -> M (Z + T))
    (R : T -> Z -> bool -> Z -> Prop) : Prop :=
  forall B src i t p s l look m o s1, P s l ->
    zlen l = w -> bytes_at m (src + i) (l ++ look) -> (src + i) mod w = 0 ->
    lookahead isRaw searchEnd <= zlen look ->
    rlo B <= src + i -> src + i + w + zlen look <= rhi B -> wlo B <= p -> p + w <= whi B ->
    good_state isRaw s -> R t p (is_esc s) (dot_next s (l ++ look)) ->
    run_m isRaw s l = (o, s1) ->
    (searchEnd = true /\ body B src i t m = Ok (inl (dot_next s (l ++ look)), m) /\ (ex = true -> marker_in w (l ++ look))) \/
    exists t' m', body B src i t m = Ok (inr t', m') /\
      R t' (p + zlen o) (is_esc s1) (dot_next s1 look) /\ bytes_at m' p o /\
      (forall q, ~ (p <= q < p + w) -> m' q = m q) /\
      (searchEnd = true -> no_marker_in w (l ++ look)).

Lemma pick_le rm : forall v, zlen (pick rm v) <= zlen v.
Proof.
  induction rm as [|r rm IH]; intro v; [destruct v; cbn [pick]; autorewrite with zlen; [lia|pose proof (zlen_nonneg v); lia]|].
  destruct v as [|x v]; cbn [pick]; [lia|]. specialize (IH v). destruct r; autorewrite with zlen; lia.
Qed.

Lemma run_m_good r s l o s1 : good_state r s -> run_m r s l = (o, s1) -> good_state r s1 /\ zlen o <= zlen l.
Proof.
  destruct r; cbn [good_state run_m]; intros Hs Hr.
  - destruct (raw_block _ _ _ _ Hs Hr) as (-> & _ & u & v & Hc & _). split; [exact (ctx_simple _ _ _ Hc)|].
    eapply Z.le_trans; [apply pick_le|]. unfold zlen. rewrite decoded_len. lia.
  - destruct (plain_block _ _ _ _ Hs Hr) as (-> & _ & H). split; [exact H|].
    eapply Z.le_trans; [apply pick_le|]. unfold zlen. rewrite decoded_len. lia.
Qed.

Lemma run_m_app r l k s o s1 o2 s2 : run_m r s l = (o, s1) -> run_m r s1 k = (o2, s2) -> run_m r s (l ++ k) = (o ++ o2, s2).
Proof.
  destruct r; cbn [run_m]; revert s o; induction l as [|c l IH]; intros s o H1 H2; cbn [app run_raw run_plain] in *.
  - injection H1 as <- <-. exact H2.
  - destruct (step_raw s c) as [o1 s3]. destruct (run_raw s3 l) as [o3 s4] eqn:E. injection H1 as <- <-.
    rewrite (IH _ _ E H2), app_assoc. reflexivity.
  - injection H1 as <- <-. exact H2.
  - destruct (step_plain s c) as [o1 s3]. destruct (run_plain s3 l) as [o3 s4] eqn:E. injection H1 as <- <-.
    rewrite (IH _ _ E H2), app_assoc. reflexivity.
Qed.

Lemma no_marker_app l k n : no_marker_in (zlen l) (l ++ k) -> no_marker_in n k -> no_marker_in (zlen l + n) (l ++ k).
Proof.
  intros H1 H2 a b E Ha. destruct (Z.lt_ge_cases (zlen a) (zlen l)) as [H|H]; [exact (H1 a b E H)|].
  assert (E2 : a = l ++ skipn (length l) a).
  { rewrite <- (firstn_skipn (length l) a) at 1. f_equal.
    apply (f_equal (firstn (length l))) in E. rewrite firstn_app, Nat.sub_diag, firstn_all, firstn_O, app_nil_r in E.
    rewrite firstn_app in E. unfold zlen in H. replace (length l - length a)%nat with 0%nat in E by lia.
    rewrite firstn_O, app_nil_r in E. symmetry. exact E. }
  rewrite E2 in E, Ha. rewrite <- app_assoc in E. apply app_inv_head in E. apply (H2 _ _ E).
  autorewrite with zlen in Ha. lia.
Qed.

Section Loop.
Context {T : Type} (P : dstate -> list byte -> Prop) (ex isRaw searchEnd : bool) (w : Z) (body : bufs -> Z -> Z -> T -> M (Z + T)) (R : T -> Z -> bool -> Z -> Prop).
Hypothesis body_ok : block_ok_on P ex isRaw searchEnd w body R.
Hypothesis w_pos : 0 < w.
Hypothesis P_fst : forall s l k, P s (l ++ k) -> P s l.
Hypothesis P_snd : forall s l k o s1, P s (l ++ k) -> run_m isRaw s l = (o, s1) -> P s1 k.

Lemma block_loop_on : forall n fuel B src t p s d look m,
  zlen d = Z.of_nat n * w -> (n <= fuel)%nat -> src mod w = 0 ->
  bytes_at m (src - zlen d) (d ++ look) -> lookahead isRaw searchEnd <= zlen look ->
  rlo B <= src - zlen d -> src + zlen look <= rhi B -> wlo B <= p -> p + zlen d <= whi B ->
  p <= src - zlen d \/ src + zlen look <= p ->
  good_state isRaw s -> R t p (is_esc s) (dot_next s (d ++ look)) -> P s d ->
  exists d1 d2 o s1 m' t' stop,
    d = d1 ++ d2 /\ run_m isRaw s d1 = (o, s1) /\
    block_loop fuel w (body B src) (- zlen d) t m = Ok ((stop, t'), m') /\
    R t' (p + zlen o) (is_esc s1) (dot_next s1 (d2 ++ look)) /\
    ((d2 = [] /\ stop = None) \/ (searchEnd = true /\ stop = Some (- zlen d2, dot_next s1 (d2 ++ look)) /\ (ex = true -> marker_in w (d2 ++ look)))) /\
    (searchEnd = true -> no_marker_in (zlen d1) (d ++ look)) /\
    bytes_at m' p o /\ (forall q, ~ (p <= q < p + zlen d1) -> m' q = m q).
Proof.
  induction n as [|n IH]; intros fuel B src t p s d look m Hd Hf Hal Hb Hl Hr1 Hr2 Hw1 Hw2 Hap Hs HR HP.
  - assert (d = []) as -> by (destruct d; [reflexivity|autorewrite with zlen in Hd; pose proof (zlen_nonneg d); lia]).
    exists [], [], [], s, m, t, None.
    assert (E : block_loop fuel w (body B src) (- zlen (@nil byte)) t m = Ok ((None, t), m)) by (destruct fuel; reflexivity).
    rewrite E. autorewrite with zlen. rewrite Z.add_0_r. split; [reflexivity|]. split; [destruct isRaw; reflexivity|].
    split; [reflexivity|]. split; [exact HR|]. split; [auto|]. split; [|split; [exact I|auto]].
    intros _ a b _ Ha. pose proof (zlen_nonneg a). lia.
  - destruct (list_split_len d w) as (l & d' & -> & Hlw). { rewrite Hd. nia. }
    rewrite zlen_app in Hd. assert (Hd' : zlen d' = Z.of_nat n * w) by lia.
    destruct fuel as [|fuel]; [lia|].
    destruct (run_m isRaw s l) as [o1 s2] eqn:Er1.
    destruct (run_m_good _ _ _ _ _ Hs Er1) as [Hs2 Ho1].
    pose proof (zlen_nonneg d'). pose proof (zlen_nonneg o1). pose proof (zlen_nonneg look).
    rewrite <- app_assoc in HR, Hb.
    rewrite zlen_app in Hb, Hr1, Hw2, Hap.
    replace (src - (zlen l + zlen d')) with (src + - (zlen l + zlen d')) in Hb, Hr1, Hap by lia.
    assert (Hi : - (zlen l + zlen d') <> 0) by lia.
    assert (Halb : (src + - (zlen l + zlen d')) mod w = 0).
    { rewrite Hlw, Hd'. replace (src + - (w + Z.of_nat n * w)) with (src + - (1 + Z.of_nat n) * w) by lia.
      rewrite Z_mod_plus_full. exact Hal. }
    destruct (body_ok B src (- (zlen l + zlen d')) t p s l (d' ++ look) m o1 s2) as [(Hse & Eb & Hmk)|(t2 & m2 & Eb & HR2 & Hb2 & Hfr & Hnm)];
      try assumption; try (rewrite ?zlen_app; lia); [exact (P_fst _ _ _ HP)| |].
    + exists [], (l ++ d'), [], s, m, t, (Some (- (zlen l + zlen d'), dot_next s (l ++ d' ++ look))).
      rewrite zlen_app. cbn [block_loop]. destruct (- (zlen l + zlen d') =? 0) eqn:E0; [lia|].
      erewrite bind_ok by exact Eb. cbv iota beta.
      autorewrite with zlen. rewrite Z.add_0_r, <- app_assoc.
      split; [reflexivity|]. split; [destruct isRaw; reflexivity|]. split; [reflexivity|]. split; [exact HR|].
      split; [auto|]. split; [|split; [exact I|auto]]. intros _ a b _ Ha. pose proof (zlen_nonneg a). lia.
    + destruct (IH fuel B src t2 (p + zlen o1) s2 d' look m2) as (d1 & d2 & o & s1 & m' & t' & stop & E1 & E2 & E3 & E4 & E5 & E6 & E7 & E8);
        try assumption; try lia; [|exact (P_snd _ _ _ _ _ HP Er1)|].
      { apply bytes_at_app in Hb as [_ Hb]. replace (src + - (zlen l + zlen d') + zlen l) with (src - zlen d') in Hb by lia.
        eapply bytes_at_ext; [|exact Hb]. intros q Hq. autorewrite with zlen in Hq. apply Hfr. lia. }
      exists (l ++ d1), d2, (o1 ++ o), s1, m', t', stop.
      rewrite zlen_app. cbn [block_loop]. destruct (- (zlen l + zlen d') =? 0) eqn:E0; [lia|].
      erewrite bind_ok by exact Eb. cbv iota beta.
      replace (- (zlen l + zlen d') + w) with (- zlen d') by lia. rewrite E3.
      split; [rewrite <- app_assoc, E1; reflexivity|]. split; [eapply run_m_app; eassumption|].
      split; [reflexivity|]. split; [autorewrite with zlen; rewrite Z.add_assoc; exact E4|].
      split; [exact E5|]. autorewrite with zlen. split; [|split].
      * intro Hse. rewrite <- app_assoc. apply no_marker_app; [rewrite Hlw; auto|auto].
      * apply bytes_at_app. split; [|exact E7]. eapply bytes_at_ext; [|exact Hb2].
        intros q Hq. apply E8. lia.
      * intros q Hq. pose proof (zlen_nonneg d1). rewrite E8 by lia. apply Hfr. lia.
Qed.
End Loop.

Lemma block_loop_ok {T} (ex isRaw searchEnd : bool) (w : Z) (body : bufs -> Z -> Z -> T -> M (Z + T)) (R : T -> Z -> bool -> Z -> Prop) :
  block_ok ex isRaw searchEnd w body R -> 0 < w ->
  forall n fuel B src t p s d look m,
  zlen d = Z.of_nat n * w -> (n <= fuel)%nat -> src mod w = 0 ->
  bytes_at m (src - zlen d) (d ++ look) -> lookahead isRaw searchEnd <= zlen look ->
  rlo B <= src - zlen d -> src + zlen look <= rhi B -> wlo B <= p -> p + zlen d <= whi B ->
  p <= src - zlen d \/ src + zlen look <= p ->
  good_state isRaw s -> R t p (is_esc s) (dot_next s (d ++ look)) ->
  exists d1 d2 o s1 m' t' stop,
    d = d1 ++ d2 /\ run_m isRaw s d1 = (o, s1) /\
    block_loop fuel w (body B src) (- zlen d) t m = Ok ((stop, t'), m') /\
    R t' (p + zlen o) (is_esc s1) (dot_next s1 (d2 ++ look)) /\
    ((d2 = [] /\ stop = None) \/ (searchEnd = true /\ stop = Some (- zlen d2, dot_next s1 (d2 ++ look)) /\ (ex = true -> marker_in w (d2 ++ look)))) /\
    (searchEnd = true -> no_marker_in (zlen d1) (d ++ look)) /\
    bytes_at m' p o /\ (forall q, ~ (p <= q < p + zlen d1) -> m' q = m q).
Proof.
  intros Hb Hw n fuel B src t p s d look m H1 H2 H3 H4 H5 H6 H7 H8 H9 H10 H11 H12.
  apply (block_loop_on (fun _ _ => True)) with (n := n); auto.
  intros B' src' i' t' p' s' l' look' m' o' s1' _. apply Hb.
Qed.

Lemma loads_r B a c m : rlo B <= a < rhi B -> loads_eq B a c m = Ok (beq (m a) c, m).
Proof. intro H. unfold loads_eq. erewrite bind_ok by (apply load_r; exact H). reflexivity. Qed.

Lemma andm_r b B a c m : rlo B <= a < rhi B -> andm b (loads_eq B a c) m = Ok (b && beq (m a) c, m).
Proof. intro H. destruct b; cbn [andm andb]; [apply loads_r; exact H|reflexivity]. Qed.

(** [decoder_set_nextMask] at the end of the data. *)
Lemma nextMask_back_ok isRaw B src d look m s o s1 nm :
  bytes_at m (src - zlen d) (d ++ look) -> 2 <= zlen d -> lookahead isRaw false <= zlen look ->
  rlo B <= src - zlen d -> src + zlen look <= rhi B ->
  good_state isRaw s -> run_m isRaw s d = (o, s1) ->
  nextMask_back isRaw B src (zlen d) nm m = Ok (dot_next s1 look, m).
Proof.
  intros Hb Hd Hl Hr1 Hr2 Hs Hr. unfold nextMask_back. destruct isRaw; cbn [lookahead good_state run_m] in *.
  - destruct (zlen d =? 0) eqn:E0; [lia|]. cbn [negb].
    destruct (raw_block _ _ _ _ Hs Hr) as (_ & _ & u & v & Hc & x & Hx).
    assert (Hdd : exists y, d = y ++ [u; v]).
    { exists (skipn 2 x). destruct (pre_ctx s Hs) as (a & b & Hp & _). rewrite Hp in Hx.
      destruct x as [|x0 [|x1 x]]; cbn [app] in Hx.
      - injection Hx as _ _ Hx. subst d. cbn in Hd. lia.
      - injection Hx as _ _ Hx. subst d. cbn in Hd. lia.
      - injection Hx as _ _ Hx. exact Hx. }
    destruct Hdd as [y ->]. rewrite <- app_assoc in Hb. autorewrite with zlen in *.
    apply bytes_at_app in Hb as [_ Hb]. replace (src - (zlen y + (0 + 1 + 1)) + zlen y) with (src - 2) in Hb by lia.
    destruct look as [|c [|e look]]; autorewrite with zlen in Hl; try lia. cbn [app bytes_at] in Hb.
    destruct Hb as (Hu & Hv & Hcc & He & _).
    replace (src - 2 + 1) with (src - 1) in * by lia.
    replace (src - 1 + 1) with src in * by lia. rewrite (dot_next_ctx _ _ _ _ Hc).
    autorewrite with zlen in Hr2. pose proof (zlen_nonneg look). pose proof (zlen_nonneg y).
    unfold nldot, at_. cbn [nth_error].
    erewrite bind_ok by (apply loads_r; lia). erewrite bind_ok by (apply andm_r; lia).
    erewrite bind_ok by (apply andm_r; lia). rewrite Hu, Hv, Hcc.
    destruct (beq u CR && beq v LF && beq c DOT); [reflexivity|].
    erewrite bind_ok by (apply loads_r; lia). erewrite bind_ok by (apply andm_r; lia).
    erewrite bind_ok by (apply andm_r; lia). rewrite Hv, Hcc, He.
    destruct (beq v CR && beq c LF && beq e DOT); reflexivity.
  - destruct (plain_block _ _ _ _ Hs Hr) as (_ & _ & [-> | ->]); reflexivity.
Qed.

(** [kernel_ok] and [stops_at_marker] together. *)
Definition kernel_ok_x (ex isRaw searchEnd : bool) (width : Z) (K : kernel) : Prop :=
  forall B src dest d look s m,
    bytes_at m src (d ++ look) ->
    0 < zlen d -> zlen d mod width = 0 -> src mod width = 0 ->
    lookahead isRaw searchEnd <= zlen look ->
    rlo B <= src -> src + zlen d + zlen look <= rhi B ->
    wlo B <= dest -> dest + zlen d <= whi B ->
    dest <= src \/ src + zlen d + zlen look <= dest ->
    entry_state isRaw s (d ++ look) ->
    exists d1 d2 o s1 m',
      (d = d1 ++ d2 /\ (searchEnd = false -> d2 = []) /\
       (if isRaw then run_raw s d1 else run_plain s d1) = (o, s1) /\
       (searchEnd = true -> no_marker_in (zlen d1) (d ++ look)) /\
       K B (src + zlen d) (zlen d) dest (esc_flag s) (dot_next s (d ++ look)) m =
         Ok ((zlen d1, dest + zlen o, esc_flag s1, dot_next s1 (d2 ++ look)), m') /\
       bytes_at m' dest o /\
       (forall q, ~ (dest <= q < dest + zlen d1) -> m' q = m q)) /\
      (ex = true -> d2 = [] \/ marker_in width (d2 ++ look)).

(** The same where [P] holds of the entry state and the text. *)
Definition kernel_ok_on_x (P : dstate -> list byte -> Prop) (ex isRaw searchEnd : bool) (width : Z) (K : kernel) : Prop :=
  forall B src dest d look s m, P s d ->
    bytes_at m src (d ++ look) ->
    0 < zlen d -> zlen d mod width = 0 -> src mod width = 0 ->
    lookahead isRaw searchEnd <= zlen look ->
    rlo B <= src -> src + zlen d + zlen look <= rhi B ->
    wlo B <= dest -> dest + zlen d <= whi B ->
    dest <= src \/ src + zlen d + zlen look <= dest ->
    entry_state isRaw s (d ++ look) ->
    exists d1 d2 o s1 m',
      (d = d1 ++ d2 /\ (searchEnd = false -> d2 = []) /\
       (if isRaw then run_raw s d1 else run_plain s d1) = (o, s1) /\
       (searchEnd = true -> no_marker_in (zlen d1) (d ++ look)) /\
       K B (src + zlen d) (zlen d) dest (esc_flag s) (dot_next s (d ++ look)) m =
         Ok ((zlen d1, dest + zlen o, esc_flag s1, dot_next s1 (d2 ++ look)), m') /\
       bytes_at m' dest o /\
       (forall q, ~ (dest <= q < dest + zlen d1) -> m' q = m q)) /\
      (ex = true -> d2 = [] \/ marker_in width (d2 ++ look)).

Lemma kernel_x_ok ex r e w K : kernel_ok_x ex r e w K -> kernel_ok r e w K.
Proof.
  intros H B src dest d look s m H1 H2 H3 H4 H5 H6 H7 H8 H9 H10 H11.
  destruct (H B src dest d look s m H1 H2 H3 H4 H5 H6 H7 H8 H9 H10 H11) as (d1 & d2 & o & s1 & m' & H' & _).
  exists d1, d2, o, s1, m'. exact H'.
Qed.

Lemma kernel_x_stops r e w K : kernel_ok_x true r e w K -> stops_at_marker r e w K.
Proof.
  intros H B src dest d look s m H1 H2 H3 H4 H5 H6 H7 H8 H9 H10 H11.
  destruct (H B src dest d look s m H1 H2 H3 H4 H5 H6 H7 H8 H9 H10 H11) as (d1 & d2 & o & s1 & m' & (E & _ & _ & _ & EK & _ & _) & Hx).
  do 5 eexists. split; [exact EK|]. destruct (Hx eq_refl) as [->|Hm].
  - left. rewrite E, app_nil_r. reflexivity.
  - right. rewrite E, <- app_assoc. replace (Z.to_nat (zlen d1)) with (length d1) by (unfold zlen; lia).
    rewrite skipn_app, skipn_all, Nat.sub_diag. exact Hm.
Qed.

Lemma kernel_on_x_ok P ex r e w K : kernel_ok_on_x P ex r e w K -> kernel_ok_on P r e w K.
Proof.
  intros H B src dest d look s m H0 H1 H2 H3 H4 H5 H6 H7 H8 H9 H10 H11.
  destruct (H B src dest d look s m H0 H1 H2 H3 H4 H5 H6 H7 H8 H9 H10 H11) as (d1 & d2 & o & s1 & m' & H' & _).
  exists d1, d2, o, s1, m'. exact H'.
Qed.
