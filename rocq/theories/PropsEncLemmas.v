(** Glue between the proofs about the encoder and the property statements. *)
From Verif Require Import Base BaseLemmas EncModel EncSpec EncProofs EncEnd EncShape EncNode
  EncNodeSpec EncSize EncNodeProofs Frame.
From Coq Require Import ZifyBool ZifyNat ZifyN.
Ltac Zify.zify_post_hook ::= Z.div_mod_to_equations.

Lemma enc_ok data args L col :
  data <> [] -> args_give args L col -> in_range L col data ->
  encode_returns do_encode_generic data args (yenc L true col data).
Proof. apply encode_spec, generic_meets. Qed.

Lemma line_safe_yenc L fin col data : line_safe (yenc L fin col data).
Proof. apply safe_line_safe, yenc_safe. Qed.

Lemma good_cases L fin col ls :
  1 <= L -> 0 <= col < L -> good L fin col ls ->
  exists front lst, ls = front ++ [lst] /\
    (lst = [] -> front = []) /\ (lst <> [] -> zlen lst <= L + 1) /\
    (forall l, In l (tl front) -> full_line L l) /\
    (forall l, hd_error front = Some l -> full_line (L - col) l) /\
    (forall l, In l (tl ls) -> forall c t, l = c :: t -> c <> DOT /\ c <> TAB /\ c <> SP /\
        (c = EQS -> exists d t', t = d :: t' /\ d <> YY)) /\
    (forall l, In l (tl ls) -> l <> []) /\
    (forall l, In l front \/ (fin = true /\ l = lst) -> forall c t, l = t ++ [c] -> c <> TAB /\ c <> SP) /\
    (col = 0 -> forall l, hd_error ls = Some l -> forall c t, l = c :: t ->
        c <> DOT /\ c <> TAB /\ c <> SP /\ (c = EQS -> exists d t', t = d :: t' /\ d <> YY)).
Proof.
  intros HL. revert col; induction ls as [|l ls IH]; intros col Hc G; [destruct G|].
  cbn [good] in G. destruct G as [G1 G]. destruct ls as [|r rs].
  - destruct G as [G2 G3]. exists [], l. split; [reflexivity|].
    split; [reflexivity|]. split. { intro Hn. destruct G2 as [->|G2]; [congruence|lia]. }
    split; [intros ? []|]. split; [discriminate|]. split; [intros ? []|]. split; [intros ? []|].
    split. { intros l0 [[]|[Hf ->]]. apply G3. exact Hf. }
    intros H0 l0 E. injection E as <-. apply G1. exact H0.
  - destruct G as (G2 & G3 & G4 & G5).
    destruct (IH 0 ltac:(lia) G5) as (front & lst & E & A1 & A2 & A3 & A4 & A5 & A6 & A7 & A8).
    exists (l :: front), lst. split; [rewrite E; reflexivity|].
    assert (Hlst : lst <> []).
    { intro Hl. specialize (A1 Hl). subst front lst. cbn in E. injection E as -> ->. congruence. }
    split; [congruence|]. split; [exact A2|].
    split. { cbn [tl]. intros x Hx. destruct front as [|f1 fr]; [destruct Hx|].
             destruct Hx as [<-|Hx]; [|apply A3; exact Hx].
             specialize (A4 f1 eq_refl). replace (L - 0) with L in A4 by lia. exact A4. }
    split. { intros x Hx. cbn in Hx. injection Hx as <-. destruct G3 as [[_ G3]|G3]; [lia|exact G3]. }
    split. { cbn [tl]. intros x Hx. destruct Hx as [<-|Hx].
             - apply (A8 eq_refl r eq_refl).
             - apply A5. exact Hx. }
    split. { cbn [tl]. intros x Hx. destruct Hx as [<-|Hx]; [exact G2|]. apply A6. exact Hx. }
    split. { intros x [[<-|Hx]|Hx]; [exact G4|apply A7; auto|apply A7; auto]. }
    intros H0 x Hx. cbn in Hx. injection Hx as <-. apply G1. exact H0.
Qed.

Lemma nonempty_last (data : list byte) L fin col front lst :
  data <> [] -> lines (yenc L fin col data) = front ++ [lst] -> (lst = [] -> front = []) -> lst <> [].
Proof.
  intros Hd E A H. specialize (A H). subst. cbn in E.
  assert (J := join_lines (yenc L fin col data)). rewrite E in J. cbn in J.
  destruct data; [congruence|]. symmetry in J. apply yenc_nonnil in J. exact J.
Qed.

(** C04 *)
Lemma lines_lengths data L col :
  data <> [] -> 1 <= L -> 0 <= col < L ->
  exists front lst, lines (yenc L true col data) = front ++ [lst] /\
    1 <= zlen lst <= L + 1 /\
    (forall l, hd_error front = Some l -> full_line (L - col) l) /\
    (forall l, In l (tl front) -> full_line L l).
Proof.
  intros Hd HL Hc.
  destruct (good_cases L true col _ HL Hc (good_lines L true col data HL ltac:(lia)))
    as (front & lst & E & A1 & A2 & A3 & A4 & _).
  exists front, lst. pose proof (nonempty_last data L true col front lst Hd E A1) as Hn.
  split; [exact E|]. split; [|split; assumption].
  split; [|auto]. destruct lst; [congruence|]. rewrite zlen_cons. pose proof (zlen_nonneg lst). lia.
Qed.

(** C05 *)
Lemma lines_ends data L :
  1 <= L ->
  forall l, In l (lines (yenc L true 0 data)) ->
    ~ starts_with [DOT] l /\ ~ starts_with [TAB] l /\ ~ starts_with [SP] l /\
    ~ ends_with [TAB] l /\ ~ ends_with [SP] l.
Proof.
  intros HL l Hl.
  destruct (good_cases L true 0 _ HL ltac:(lia) (good_lines L true 0 data HL ltac:(lia)))
    as (front & lst & E & A1 & A2 & A3 & A4 & A5 & A6 & A7 & A8).
  assert (Hs : forall c t, l = c :: t -> c <> DOT /\ c <> TAB /\ c <> SP).
  { intros c t Hct. destruct (lines (yenc L true 0 data)) as [|l0 ls] eqn:El; [destruct Hl|].
    destruct Hl as [<-|Hl].
    - destruct (A8 eq_refl l0 eq_refl c t Hct) as (? & ? & ? & _). auto.
    - destruct (A5 l Hl c t Hct) as (? & ? & ? & _). auto. }
  assert (He : forall c t, l = t ++ [c] -> c <> TAB /\ c <> SP).
  { rewrite E in Hl. apply in_app_iff in Hl. destruct Hl as [Hl|[<-|[]]].
    - apply A7. auto.
    - apply A7. auto. }
  repeat split; intros [t Ht].
  - cbn in Ht. destruct (Hs _ _ Ht) as (H & _ & _). congruence.
  - cbn in Ht. destruct (Hs _ _ Ht) as (_ & H & _). congruence.
  - cbn in Ht. destruct (Hs _ _ Ht) as (_ & _ & H). congruence.
  - destruct (He _ _ Ht) as [H _]. congruence.
  - destruct (He _ _ Ht) as [_ H]. congruence.
Qed.

(** C06, first half: occurrences of CRLF in the text. *)
Lemma lines_app_crlf a b :
  exists pre l rest, lines b = l :: rest /\ (pre <> [] /\ lines (a ++ CR :: LF :: b) = pre ++ l :: rest).
Proof.
  destruct (lines b) as [|l rest] eqn:E; [exfalso; eapply lines_nonnil; eauto|].
  assert (G : forall n a, (length a <= n)%nat -> exists pre, pre <> [] /\ lines (a ++ CR :: LF :: b) = pre ++ l :: rest).
  { induction n as [|n IH]; intros [|c t] Hn; cbn [length] in Hn; try lia.
    - exists [[]]. cbn [app]. rewrite lines_crlf, E. split; [discriminate|reflexivity].
    - exists [[]]. cbn [app]. rewrite lines_crlf, E. split; [discriminate|reflexivity].
    - destruct (IH t ltac:(lia)) as (pre & Hp & Hl).
      destruct t as [|d t].
      + cbn [app] in *. cbn [lines] in *. destruct (beq c CR && beq CR LF) eqn:E1.
        { apply andb_true_iff in E1. destruct E1 as [_ E1]. discriminate. }
        change (beq CR CR && beq LF LF) with true in *. cbv iota in *. rewrite E.
        exists [[c]]. split; [discriminate|reflexivity].
      + destruct (IH t ltac:(cbn [length] in Hn; lia)) as (pre2 & Hp2 & Hl2).
        rewrite <- !app_comm_cons in *. 
        destruct (beq c CR && beq d LF) eqn:E1.
        * apply andb_true_iff in E1. destruct E1 as [E2 E3]. apply beq_true in E2, E3. subst c d.
          rewrite lines_crlf, Hl2. exists ([] :: pre2). split; [discriminate|reflexivity].
        * change (lines (c :: d :: t ++ CR :: LF :: b)) with
            (if beq c CR && beq d LF then [] :: lines (t ++ CR :: LF :: b)
             else match lines (d :: t ++ CR :: LF :: b) with l :: ls => (c :: l) :: ls | [] => [[c]] end).
          rewrite E1, Hl. destruct pre as [|p0 pre]; [congruence|]. cbn [app].
          exists ((c :: p0) :: pre). split; [discriminate|reflexivity]. }
  destruct (G (length a) a ltac:(lia)) as (pre & Hp & Hl). exists pre, l, rest. auto.
Qed.

Lemma hd_lines b l rest c t : c <> CR -> lines b = l :: rest -> b = c :: t -> exists t', l = c :: t'.
Proof.
  intros Hc E ->. rewrite lines_cons in E by auto. destruct (lines t) as [|l2 r2] eqn:E2.
  - cbn in E. injection E as <- <-. eauto.
  - cbn in E. injection E as <- <-. cbn. eauto.
Qed.

Lemma no_marker L fin col data a b :
  1 <= L -> 0 <= col < L -> yenc L fin col data = a ++ CR :: LF :: b ->
  ~ starts_with [DOT] b /\ ~ starts_with [EQS; YY] b.
Proof.
  intros HL Hc E.
  destruct (lines_app_crlf a b) as (pre & l & rest & E1 & Hp & E2).
  rewrite <- E in E2.
  destruct (good_cases L fin col _ HL Hc (good_lines L fin col data HL ltac:(lia)))
    as (_ & _ & _ & _ & _ & _ & _ & A5 & _).
  assert (Hin : In l (tl (lines (yenc L fin col data)))).
  { rewrite E2. destruct pre as [|p0 pre]; [congruence|]. cbn [app tl]. apply in_app_iff. right. left. reflexivity. }
  split; intros [t Ht].
  - destruct (hd_lines b l rest DOT t ltac:(discriminate) E1 Ht) as [t' Hl].
    destruct (A5 l Hin _ _ Hl) as (H & _). congruence.
  - cbn in Ht. destruct (hd_lines b l rest EQS (YY :: t) ltac:(discriminate) E1 Ht) as [t' Hl].
    destruct (A5 l Hin _ _ Hl) as (_ & _ & _ & H). destruct (H eq_refl) as (d & t2 & Hd & Hy).
    (* the second character is YY *)
    subst b. rewrite !lines_cons in E1 by discriminate.
    destruct (lines t) as [|l2 r2]; cbn in E1; injection E1 as <- <-; congruence.
Qed.

(** C09 *)
Lemma encode_to_frame (data : list byte) args L col src dest dcap m n m' :
  node_encode_to do_encode_generic src (zlen data) dest dcap args m = Returns (Ok (n, m')) ->
  args_give args L col ->
  forall q, ~ (dest <= q < dest + dcap) -> m' q = m q.
Proof.
  intros H Ha q Hq. unfold node_encode_to, node_encode_to_in in H.
  destruct (zlen data =? 0); [inversion H; subst; reflexivity|].
  rewrite Ha in H. destruct (dcap <? _); [discriminate|]. cbv zeta in H.
  match type of H with context [do_encode_generic ?B] => pose proof (fr_generic B L col src dest (zlen data) true) as F end.
  destruct (do_encode_generic _ _ _ _ _ _ _ m) as [[[n0 c0] m0]| |] eqn:E; try discriminate.
  injection H as <- <-. apply (F _ _ _ E). exact Hq.
Qed.

(** C10 *)
Lemma maxSize_eq len L :
  0 < len < 2 ^ 52 -> 1 <= L <= INT_MAX -> js_maxSize len L = YENC_MAX_SIZE len L.
Proof.
  intros Hl HL. rewrite YENC_MAX_SIZE_eq by lia. unfold js_maxSize.
  destruct (len =? 0) eqn:E; [lia|]. destruct (L =? 0) eqn:E2; [lia|].
  rewrite (Z.mul_comm len 2). lia.
Qed.

(** C07, C08 *)
Lemma maxSize_bound L fin col data :
  1 <= L -> 0 <= col < L -> zlen data < 2 ^ 53 -> data <> [] ->
  zlen (yenc L fin col data) + 64 <= js_maxSize (zlen data) L.
Proof.
  intros HL Hc Hn Hd. pose proof (yenc_max L fin col data HL Hc Hn) as H.
  pose proof (zlen_nonneg data). rewrite YENC_MAX_SIZE_eq in H by lia.
  unfold js_maxSize. rewrite data_zlen0 by auto. destruct (L =? 0) eqn:E2; [lia|].
  rewrite (Z.mul_comm (zlen data) 2). lia.
Qed.

Lemma minSize_bound L fin data :
  1 <= L -> data <> [] -> zlen data mod L <> 0 ->
  js_minSize (zlen data) L <= zlen (yenc L fin 0 data).
Proof.
  intros HL Hd Hm. pose proof (yenc_min L fin 0 data HL ltac:(lia) Hd) as H.
  unfold js_minSize. rewrite data_zlen0 by auto. destruct (L =? 0) eqn:E2; [lia|].
  replace ((0 + zlen data - 1) / L) with (zlen data / L) in H; [lia|].
  pose proof (Z.div_mod (zlen data) L ltac:(lia)) as D. pose proof (Z.mod_pos_bound (zlen data) L ltac:(lia)) as P.
  revert Hm D P. generalize (zlen data mod L) (zlen data / L). intros r q Hm D P.
  apply (Z.div_unique_pos _ _ _ (r - 1)); lia.
Qed.

Lemma encodeTo_safe data args L col src dest dcap m :
  data <> [] -> args_give args L col -> in_range L col data ->
  bytes_at m src data -> apart src (zlen data) dest dcap ->
  js_maxSize (zlen data) L <= dcap ->
  exists n m', node_encode_to do_encode_generic src (zlen data) dest dcap args m = Returns (Ok (n, m')) /\
    forall q, ~ (dest <= q < dest + dcap) -> m' q = m q.
Proof.
  intros Hd Ha Hr Hm Hap Hcap. destruct (enc_args_range _ _ _ Ha) as [HL Hc].
  assert (Hmax : YENC_MAX_SIZE (zlen data) L <= dcap).
  { pose proof (zlen_nonneg data). destruct Hr. rewrite YENC_MAX_SIZE_eq by lia.
    unfold js_maxSize in Hcap. rewrite data_zlen0 in Hcap by auto. destruct (L =? 0) eqn:E2; [lia|].
    rewrite (Z.mul_comm (zlen data) 2) in Hcap. lia. }
  destruct (encodeTo_spec _ generic_meets data args L col dcap Hd Ha Hr Hmax src dest m Hm Hap) as (m' & E1 & _).
  eexists _, m'. split; [exact E1|]. eapply encode_to_frame; eauto.
Qed.

Lemma encodeTo_max data args L col dcap :
  data <> [] -> zlen data < 2 ^ 52 -> args_give args L col -> in_range L col data ->
  (js_maxSize (zlen data) L <= dcap ->
   exists o, encodeTo_returns do_encode_generic data dcap args o) /\
  (dcap < js_maxSize (zlen data) L -> forall src dest m,
   node_encode_to do_encode_generic src (zlen data) dest dcap args m = Throws).
Proof.
  intros Hd Hn Ha Hr. destruct (enc_args_range _ _ _ Ha) as [HL Hc].
  assert (0 < zlen data). { destruct data; [congruence|]. rewrite zlen_cons. pose proof (zlen_nonneg data). lia. }
  rewrite maxSize_eq by lia. split.
  - intro Hcap. eexists. eapply encodeTo_spec; eauto. apply generic_meets.
  - intros Hcap src dest m. unfold node_encode_to, node_encode_to_in. rewrite data_zlen0 by auto. rewrite Ha.
    destruct (dcap <? YENC_MAX_SIZE (zlen data) L) eqn:E; [reflexivity|lia].
Qed.

(** C12 *)
Lemma incr_ok L chunks :
  1 <= L <= INT_MAX - 6 -> zlen (concat chunks) < 2 ^ 53 -> concat chunks <> [] ->
  (forall a b, chunks = a ++ b -> b <> [] -> yenc_col L false 0 (concat a) < L) ->
  exists o col,
    encodeIncr_returns do_encode_generic (concat chunks) [L; 0] o col /\
    incr_chain do_encode_generic L 0 chunks o.
Proof.
  intros HL Hn Hd Hb. do 2 eexists. split.
  - apply (encodeIncr_spec _ generic_meets _ _ L 0); auto.
    + unfold args_give, enc_args. cbv zeta. unfold INT_MAX in *.
      rewrite !to_int32_id by (unfold INT_MIN, INT_MAX; lia).
      destruct (L =? 0) eqn:F1; [lia|]. destruct (L <? 0) eqn:F2; [lia|].
      destruct ((L <? 0) || (0 <? 0)) eqn:F3; [lia|]. destruct (0 =? L) eqn:F4; [lia|]. reflexivity.
    + split; [exact Hn|left; lia].
  - apply (incr_chain_spec _ generic_meets); auto; try lia. split; [lia|exact Hn].
Qed.

Lemma incr_counterexample : exists L chunks o,
  incr_chain do_encode_generic L 0 chunks o /\
  encodeIncr_returns do_encode_generic (concat chunks) [L; 0] (yenc L false 0 (concat chunks))
     (ret_col L false 0 (concat chunks)) /\
  o <> yenc L false 0 (concat chunks).
Proof.
  assert (R : forall L col (data : list byte), 1 <= L <= INT_MAX - 6 -> zlen data < 2 ^ 53 -> in_range L col data)
    by (intros; split; [assumption|left; lia]).
  exists 4, [[x00; x01; x02; x03]; [x04]], (yenc 4 false 0 [x00; x01; x02; x03] ++ yenc 4 false 3 [x04] ++ []).
  split; [|split].
  - eapply chain_cons.
    + apply (encodeIncr_spec _ generic_meets _ _ 4 0); [discriminate|reflexivity|].
      apply R; vm_compute; [split; discriminate|reflexivity].
    + eapply chain_cons; [|constructor].
      apply (encodeIncr_spec _ generic_meets _ _ 4 3); [discriminate|reflexivity|].
      apply R; vm_compute; [split; discriminate|reflexivity].
  - apply (encodeIncr_spec _ generic_meets _ _ 4 0); [discriminate|reflexivity|].
    apply R; vm_compute; [split; discriminate|reflexivity].
  - vm_compute. discriminate.
Qed.

(** C13, C14 *)
Lemma encode_throws e malloc src len args m :
  0 < len ->
  node_encode e malloc src len args m = Throws <->
  exists a rest, args = a :: rest /\
    let L := if to_int32 a =? 0 then 128 else to_int32 a in
    (L < 0 \/ exists b rest', rest = b :: rest' /\ (to_int32 b < 0 \/ L < to_int32 b)).
Proof.
  intro Hl. rewrite <- enc_args_throw. unfold node_encode, node_encode_in. destruct (len =? 0) eqn:E; [lia|].
  destruct (enc_args args) as [[L col]|]; split; congruence.
Qed.

Lemma incr_dest data args L col src dest dcap malloc m :
  data <> [] -> args_give args L col -> in_range L col data ->
  128 <= L -> bytes_at m src data -> apart src (zlen data) dest dcap ->
  node_encode_incr do_encode_generic malloc src (zlen data) (Some (dest, dcap)) args m = Throws \/
  exists n o c, node_encode_incr do_encode_generic malloc src (zlen data) (Some (dest, dcap)) args m
    = Returns (Ok (n, o, c)).
Proof.
  intros Hd Ha Hr HL Hm Hap.
  destruct (Z.ltb_spec dcap (YENC_MAX_SIZE (zlen data) 128)) as [H|H].
  - left. unfold node_encode_incr, node_encode_incr_in. destruct (dcap <? YENC_MAX_SIZE (zlen data) 128) eqn:E; [reflexivity|lia].
  - right. do 3 eexists. eapply incr_dest_ok; eauto. apply generic_meets.
Qed.

(** C11 *)
Lemma simd_same k B L col src dest data fin m :
  rlo B = src -> rhi B = src + zlen data -> wlo B = dest ->
  (rhi B <= wlo B \/ whi B <= rlo B) ->
  data <> [] -> bytes_at m src data ->
  1 <= L <= INT_MAX -> 0 <= col < L -> in_range L col data ->
  dest + zlen (yenc L fin col data) + 32 <= whi B ->
  (12 <= L -> kernel_run B k L col src dest data m) ->
  exists n c m1 m2,
    do_encode_generic B L col src dest (zlen data) fin m = Ok ((n, c), m1) /\
    do_encode_simd k B L col src dest (zlen data) fin m = Ok ((n, c), m2) /\
    read_n m1 dest (Z.to_nat n) = read_n m2 dest (Z.to_nat n).
Proof.
  intros H1 H2 H3 H4 H5 H6 H7 H8 H9 H10 H11.
  destruct (generic_meets B L fin col src dest data m) as (m1 & E1 & E2); auto.
  destruct (simd_run B k L fin col src dest data m) as (m2 & E3 & E4); auto; try lia.
  do 4 eexists. split; [exact E1|]. split; [exact E3|].
  unfold zlen. rewrite Nat2Z.id. rewrite !bytes_at_read; auto.
Qed.
