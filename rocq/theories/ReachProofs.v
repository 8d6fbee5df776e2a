(** How far encoders and decoders write, and that what they do depends on their buffers only: consequences
    of [EncLocal.v] and [DecLocal.v]. *)
From Verif Require Import Base BaseLemmas EncSpec EncNode EncNodeSpec EncNodeProofs EncPad EncLocal DecSpec DecModel DecProofs DecNode
  DecNodeSpec DecNodeProofs PropsDecLemmas JsEncoder DecNeonModel JsBuilds DecLocal HeapModel HeapSpec HeapProofs.
From Coq Require Import ZifyBool.
Open Scope Z_scope.

Lemma reach_enc e B L fin col src dest data m : an_encoder e ->
  rlo B = src -> rhi B = src + zlen data -> wlo B = dest -> (rhi B <= wlo B \/ whi B <= rlo B) -> data <> [] -> bytes_at m src data ->
  1 <= L <= INT_MAX -> 0 <= col < L -> in_range L col data -> dest + zlen (yenc L fin col data) + 32 <= whi B ->
  exists m', e B L col src dest (zlen data) fin m = Ok ((zlen (yenc L fin col data), ret_col L fin col data), m') /\
    bytes_at m' dest (yenc L fin col data) /\
    (forall q, ~ (dest <= q < dest + zlen (yenc L fin col data) + 32) -> m' q = m q).
Proof.
  intros He H1 H2 H3 H4 Hd Hm HL Hc Hr Hw.
  set (T := {| rlo := rlo B; rhi := rhi B; wlo := wlo B; whi := dest + zlen (yenc L fin col data) + 32 |}).
  assert (W : within T B) by (unfold within, T; cbn; lia).
  destruct (an_encoder_meets e He T L fin col src dest data m) as (m1 & R & Q); auto; cbn; try lia.
  pose proof (an_encoder_local T B W e L col src dest (zlen data) fin He m m (fun _ _ => eq_refl)) as K. rewrite R in K.
  destruct K as (m2 & R2 & A2 & F2). exists m2. split; [exact R2|]. split.
  - apply (bytes_at_ext m1); [|exact Q]. intros x Hx. symmetry. apply A2. unfold can_read, T. cbn. lia.
  - intros q Hq. apply F2. unfold can_write, T. cbn. lia.
Qed.

Lemma reach_encodeTo no256 e data args L col src dest dcap m : an_encoder e -> data <> [] -> args_give args L col -> in_range L col data ->
  bytes_at m src data -> apart src (zlen data) dest dcap -> max_size no256 (zlen data) L <= dcap ->
  exists m', node_encode_to_in no256 e src (zlen data) dest dcap args m = Returns (Ok (to_int32 (zlen (yenc L true col data)), m')) /\
    bytes_at m' dest (yenc L true col data) /\
    (forall q, ~ (dest <= q < dest + zlen (yenc L true col data) + 32) -> m' q = m q).
Proof.
  intros He Hd Ha Hr Hm Hp Hc. destruct (enc_args_range _ _ _ Ha) as [HL Hcl]. unfold apart in Hp.
  pose proof (max_size_room no256 L true col data ltac:(lia) Hcl (proj1 Hr)) as HR.
  unfold node_encode_to_in. rewrite data_zlen0 by auto. unfold args_give in Ha. rewrite Ha.
  destruct (dcap <? max_size no256 (zlen data) L) eqn:E; [lia|]. cbv zeta.
  match goal with |- context [e ?B] => destruct (reach_enc e B L true col src dest data m) as (m1 & R & Q & F); auto; cbn; try lia end.
  rewrite R. exists m1. auto.
Qed.

Lemma reach_encodeIncr A no256 e data args L col src dest dcap h m : an_encoder e -> data <> [] -> args_give args L col -> in_range L col data ->
  bytes_at m src data -> apart src (zlen data) dest dcap -> max_size no256 (zlen data) L <= dcap -> max_size no256 (zlen data) 128 <= dcap ->
  exists m', h_encode_incr A no256 e src (zlen data) (Some (dest, dcap)) args h m =
      HReturns (Ok ((to_int32 (zlen (yenc L false col data)), None, ret_col L false col data), h, m')) /\
    bytes_at m' dest (yenc L false col data) /\
    (forall q, ~ (dest <= q < dest + zlen (yenc L false col data) + 32) -> m' q = m q).
Proof.
  intros He Hd Ha Hr Hm Hp Hc Hc2. destruct (enc_args_range _ _ _ Ha) as [HL Hcl]. unfold apart in Hp.
  pose proof (max_size_room no256 L false col data ltac:(lia) Hcl (proj1 Hr)) as HR.
  unfold h_encode_incr. destruct (dcap <? max_size no256 (zlen data) 128) eqn:E; [lia|]. rewrite data_zlen0 by auto.
  unfold args_give in Ha. rewrite Ha. cbv zeta. cbn [over addr].
  match goal with |- context [e ?B] => destruct (reach_enc e B L false col src dest data m) as (m1 & R & Q & F); auto; cbn; try lia end.
  rewrite R. exists m1. auto.
Qed.

(** The destination of a decoder, cut to the length of the source. *)
Definition tight (B : bufs) (dest len : Z) : bufs := {| rlo := rlo B; rhi := rhi B; wlo := wlo B; whi := dest + len |}.

Lemma reach_decodeTo D data isRaw src dest dcap m : a_decoder D -> bytes_at m src data -> data <> [] -> zlen data <= dcap -> dec_layout src (zlen data) dest ->
  exists m' o, node_decode_to D src (zlen data) dest dcap isRaw m = Returns (Ok (to_int32 (zlen o), m')) /\ bytes_at m' dest o /\
    (if isRaw then cut data o else o = decode_text data) /\
    (forall q, ~ (dest <= q < dest + zlen data) -> m' q = m q).
Proof.
  intros HD Hm Hd Hc Hl. unfold node_decode_to. rewrite data_zlen0 by auto. destruct (dcap <? zlen data) eqn:E; [lia|]. cbv zeta.
  match goal with |- context [decode D isRaw ?b] => set (B := b) end. set (T := tight B dest (zlen data)).
  assert (W : within T B) by (unfold within, T, tight, B; cbn; lia).
  assert (G : dgeom T src (zlen data) dest) by (unfold dec_layout in Hl; constructor; cbn; lia).
  assert (K : exists m1 m2 s1 o, (if isRaw then dec_raw D else dec_plain D) B src dest (zlen data) None m = Ok ((E_NONE, s1, dest + zlen o, None), m2) /\
    bytes_at m1 dest o /\ zlen o <= zlen data /\ agree T m1 m2 /\ (forall z, can_write T z = false -> m2 z = m z) /\
    (if isRaw then cut data o else o = decode_text data)).
  { destruct (a_decoder_local (fun _ => False) T B W D src dest (zlen data) None HD) as (L1 & L2). apply relx_rel in L1, L2. destruct isRaw.
    - destruct (dec_runs_raw D T src dest data m HD G Hm) as (m1 & s1 & o & R & Q & _ & C). specialize (L2 m m (fun _ _ => eq_refl)). rewrite R in L2.
      destruct L2 as (m2 & R2 & A2 & F2). exists m1, m2, s1, o. split; [exact R2|]. split; [exact Q|]. split; [|auto].
      pose proof (raw_text_len data). destruct C as [->|(_ & c & Ec)]; [lia|]. rewrite Ec, zlen_app in *. change (zlen [c]) with 1 in *. lia.
    - destruct (dec_runs_plain D HD T src dest data m G Hm) as (m1 & s1 & R & Q & _). specialize (L1 m m (fun _ _ => eq_refl)). rewrite R in L1.
      destruct L1 as (m2 & R2 & A2 & F2). exists m1, m2, s1, (decode_text data). split; [exact R2|]. split; [exact Q|].
      split; [apply decode_text_len|auto]. }
  destruct K as (m1 & m2 & s1 & o & R & Q & Ho & A2 & F2 & C). exists m2, o. unfold decode. erewrite bind_ok by exact R. cbn [ret].
  replace (dest + zlen o - dest) with (zlen o) by lia. split; [reflexivity|]. split; [|split; [exact C|]].
  - apply (bytes_at_ext m1); [|exact Q]. intros x Hx. symmetry. apply A2. unfold can_read, T, tight, B. cbn. lia.
  - intros q Hq. apply F2. unfold can_write, T, tight, B. cbn. lia.
Qed.

Lemma reach_decodeIncr A D data s src dest dcap h m o s' e rst : a_decoder D -> (forall ne, D = neon_decoders ne -> n_line ne = true) -> bytes_at m src data ->
  zlen data <= dcap -> dec_layout src (zlen data) dest -> run_end s data = (o, s', e, rst) ->
  exists m', h_decode_incr A D src (zlen data) s (Some (dest, dcap)) h m =
      HReturns (Ok ((to_int32 (zlen data - zlen rst), to_int32 (zlen o), None, e, s'), h, m')) /\ bytes_at m' dest o /\
    (forall q, ~ (dest <= q < dest + zlen data) -> m' q = m q).
Proof.
  intros HD HN Hm Hc Hl HR. unfold h_decode_incr. destruct (dcap <? zlen data) eqn:E; [lia|]. cbn [over addr].
  match goal with |- context [dec_end D ?b] => set (B := b) end. set (T := tight B dest (zlen data)).
  assert (W : within T B) by (unfold within, T, tight, B; cbn; lia).
  assert (G : dgeom T src (zlen data) dest) by (unfold dec_layout in Hl; constructor; cbn; lia).
  pose proof (a_decoder_local_end (fun q => rhi T <= q < rhi T + 15) T B W D src dest (zlen data) (Some s) HD ltac:(auto)) as L3.
  destruct (dec_runs_end D HD HN T src dest data m s G Hm) as (m1 & o1 & s1 & e1 & r1 & HR1 & R & Q & _).
  rewrite HR1 in HR. injection HR as -> -> -> ->. specialize (L3 m m (fun _ _ => eq_refl)). rewrite R in L3.
  destruct L3 as (m2 & R2 & A2 & F2). exists m2. rewrite R2. cbv zeta. replace (dest + zlen o - dest) with (zlen o) by lia.
  replace (src + zlen data - zlen rst - src) with (zlen data - zlen rst) by lia. split; [reflexivity|].
  pose proof (run_end_len _ _ _ _ _ _ HR1). pose proof (rst_len _ _ _ _ _ _ HR1). split.
  - apply (bytes_at_ext m1); [|exact Q]. intros x Hx. symmetry. apply A2. left. unfold can_read, T, tight, B. cbn. lia.
  - intros q Hq. apply F2. unfold can_write, T, tight, B. cbn. lia.
Qed.

(** ** Nothing else is looked at *)

Lemma within_refl B : within B B.
Proof. unfold within. lia. Qed.

Lemma rel_self {X} B (x : M X) m m' a m1 : rel B x x -> (forall q, rlo B <= q < rhi B \/ wlo B <= q < whi B -> m q = m' q) -> x m = Ok (a, m1) ->
  exists m1', x m' = Ok (a, m1') /\ (forall q, wlo B <= q < whi B -> m1 q = m1' q) /\ (forall q, ~ (wlo B <= q < whi B) -> m1' q = m' q).
Proof.
  intros R H E. specialize (R m m'). rewrite E in R. destruct R as (m1' & E' & G & F).
  { intros q Hq. apply H. unfold can_read in Hq. lia. }
  exists m1'. split; [exact E'|]. split; [intros q Hq; apply G; unfold can_read; lia|intros q Hq; apply F; unfold can_write; lia].
Qed.

Lemma only_encodeTo no256 e src len dest dcap args m m' n m1 : an_encoder e ->
  (forall q, src <= q < src + len \/ dest <= q < dest + dcap -> m q = m' q) ->
  node_encode_to_in no256 e src len dest dcap args m = Returns (Ok (n, m1)) ->
  exists m1', node_encode_to_in no256 e src len dest dcap args m' = Returns (Ok (n, m1')) /\
    (forall q, dest <= q < dest + dcap -> m1 q = m1' q) /\ (forall q, ~ (dest <= q < dest + dcap) -> m1' q = m' q).
Proof.
  intros He H. unfold node_encode_to_in. destruct (len =? 0); [intro E; injection E as <- <-; exists m'; auto|].
  destruct (enc_args args) as [[L c]|]; [|discriminate]. destruct (dcap <? _); [discriminate|]. cbv zeta.
  match goal with |- context [e ?b] => set (B := b) end. intro E.
  destruct (e B L c src dest len true m) as [[[k c'] m2]| |] eqn:R; try discriminate. injection E as <- <-.
  destruct (rel_self B _ m m' _ _ (an_encoder_local B B (within_refl B) e L c src dest len true He) H R) as (m3 & R3 & A3 & F3).
  rewrite R3. exists m3. auto.
Qed.

Lemma only_decodeTo D isRaw src len dest dcap m m' n m1 : a_decoder D ->
  (forall q, src <= q < src + len \/ dest <= q < dest + dcap -> m q = m' q) ->
  node_decode_to D src len dest dcap isRaw m = Returns (Ok (n, m1)) ->
  exists m1', node_decode_to D src len dest dcap isRaw m' = Returns (Ok (n, m1')) /\
    (forall q, dest <= q < dest + dcap -> m1 q = m1' q) /\ (forall q, ~ (dest <= q < dest + dcap) -> m1' q = m' q).
Proof.
  intros HD H. unfold node_decode_to. destruct (len =? 0); [intro E; injection E as <- <-; exists m'; auto|].
  destruct (dcap <? len); [intro E; injection E as <- <-; exists m'; auto|]. cbv zeta.
  match goal with |- context [decode D isRaw ?b] => set (B := b) end. intro E.
  destruct (decode D isRaw B src dest len None m) as [[k m2]| |] eqn:R; try discriminate. injection E as <- <-.
  assert (L : rel B (decode D isRaw B src dest len None) (decode D isRaw B src dest len None)).
  { unfold decode. destruct (a_decoder_local (fun _ => False) B B (within_refl B) D src dest len None HD) as (L1 & L2). apply relx_rel in L1, L2.
    apply EncLocal.rel_bind; [destruct isRaw; assumption|]. intros [[[? ?] ?] ?]. apply EncLocal.rel_ret. }
  destruct (rel_self B _ m m' _ _ L H R) as (m3 & R3 & A3 & F3). rewrite R3. exists m3. auto.
Qed.

Lemma only_decodeIncr A D src len s dest dcap h m m' r h1 m1 : a_decoder D ->
  (forall q, src <= q < src + len \/ dest <= q < dest + dcap -> m q = m' q) ->
  (forall ne, D = neon_decoders ne -> forall q, src + len <= q < src + len + 15 -> m q = m' q) ->
  h_decode_incr A D src len s (Some (dest, dcap)) h m = HReturns (Ok (r, h1, m1)) ->
  exists m1', h_decode_incr A D src len s (Some (dest, dcap)) h m' = HReturns (Ok (r, h1, m1')) /\
    (forall q, dest <= q < dest + dcap -> m1 q = m1' q) /\ (forall q, ~ (dest <= q < dest + dcap) -> m1' q = m' q).
Proof.
  intros HD H HN. unfold h_decode_incr. destruct (dcap <? len); [discriminate|]. cbn [over addr].
  match goal with |- context [dec_end D ?b] => set (B := b) end.
  pose proof (a_decoder_local_end (fun q => (exists ne, D = neon_decoders ne) /\ rhi B <= q < rhi B + 15) B B (within_refl B) D src dest len (Some s) HD
    (fun ne E q Hq => conj (ex_intro _ ne E) Hq)) as L.
  specialize (L m m'). destruct (dec_end D B src dest len (Some s) m) as [[[[[e1 sp] dp] [st|]] m2]| |] eqn:R; try discriminate.
  intro E. injection E as <- <- <-. destruct L as (m3 & R3 & A3 & F3).
  { intros q [K|((ne & K) & K2)]; [apply H; unfold can_read, B in K; cbn in K; lia|]. apply (HN ne K). exact K2. }
  rewrite R3. exists m3. split; [reflexivity|]. split; [intros q Hq; apply A3; left; unfold can_read, B; cbn; lia|].
  intros q Hq. apply F3. unfold can_write, B. cbn. lia.
Qed.

Lemma only_encodeIncr A no256 e src len dest dcap args h m m' r h1 m1 : an_encoder e ->
  (forall q, src <= q < src + len \/ dest <= q < dest + dcap -> m q = m' q) ->
  h_encode_incr A no256 e src len (Some (dest, dcap)) args h m = HReturns (Ok (r, h1, m1)) ->
  exists m1', h_encode_incr A no256 e src len (Some (dest, dcap)) args h m' = HReturns (Ok (r, h1, m1')) /\
    (forall q, dest <= q < dest + dcap -> m1 q = m1' q) /\ (forall q, ~ (dest <= q < dest + dcap) -> m1' q = m' q).
Proof.
  intros He H. unfold h_encode_incr. destruct (dcap <? _); [discriminate|]. destruct (enc_args args) as [[L c]|]; [|discriminate].
  destruct (len =? 0); [intro E; injection E as <- <- <-; exists m'; auto|]. cbv zeta. cbn [over addr].
  match goal with |- context [e ?b] => set (B := b) end. intro E.
  destruct (e B L c src dest len false m) as [[[k c'] m2]| |] eqn:R; try discriminate. injection E as <- <- <-.
  destruct (rel_self B _ m m' _ _ (an_encoder_local B B (within_refl B) e L c src dest len false He) H R) as (m3 & R3 & A3 & F3).
  rewrite R3. exists m3. auto.
Qed.
