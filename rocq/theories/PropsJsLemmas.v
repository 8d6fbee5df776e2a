(** A concrete native module for the examples, and the last steps of the proofs of
    the properties of /repo/index.js. *)
From Verif Require Import Base BaseLemmas EncModel EncSpec EncNode EncNodeSpec EncNodeProofs DecSpec DecNode CrcSpec CrcModel CrcNodeSpec
  JsBase JsModel JsSpec JsStrings JsEncoder JsParse JsFromPost JsRound JsRobust JsBuilds EncAvxModel DecAvxModel Clmul256Model ClmulModel.
From Coq Require Import ZifyBool ZifyNat ZifyN.
From Coq Require Strings.String.
Import String.StringSyntax.
Open Scope Z_scope.
Ltac Zify.zify_post_hook ::= Z.div_mod_to_equations.

Definition Y0 : native := {| y_enc := do_encode_generic; y_dec := scalar;
  y_crc := do_crc32_incremental_generic generate_crc32_slice_table; y_shift := crc32_shift_generic;
  y_addr := fun _ => 0; y_malloc := fun d _ => zlen d; y_mem := mem_of 0 |}.

Lemma Y0_placed : placed Y0.
Proof.
  intro data. cbn [Y0 y_mem y_addr y_malloc]. split; [apply bytes_at_mem_of|].
  intros n Hn. unfold apart. lia.
Qed.
Lemma Y0_works : works Y0.
Proof. apply native_works; [exact Y0_placed|constructor..]. Qed.

Definition Y1 : native := {| y_enc := do_encode_simd (do_encode_avx2 enc_vbmi2); y_dec := avx_decoders isa_vbmi2;
  y_crc := do_crc32_incremental_clmul256 true false 64; y_shift := crc32_shift_clmul true true;
  y_addr := fun _ => 0; y_malloc := fun d _ => zlen d; y_mem := mem_of 0 |}.
Lemma Y1_placed : placed Y1.
Proof. exact Y0_placed. Qed.

Lemma int_numbers_ok : numbers_ok int_numbers.
Proof.
  split; cbn [int_numbers of_str of_int nlt neq nsub nadd]; intros; try reflexivity.
  - rewrite H. reflexivity.
  - destruct x; reflexivity.
Qed.

Lemma forall_part_ok line_size ds : Forall (fun d => line_ok (eff line_size) d /\ zlen d < 2 ^ 63) ds -> Forall (part_ok line_size) ds.
Proof. intro H. eapply Forall_impl; [|exact H]. intros d Hd. exact Hd. Qed.

(** The common part: what a sequence of successful calls looks like. *)
Lemma feeds_shape Y filename size parts line_size ds os E : works Y -> 0 <= size -> 1 < parts ->
  Forall (fun d => line_ok (eff line_size) d /\ zlen d < 2 ^ 63) ds ->
  feeds Y (multi_post filename size parts line_size) ds os E ->
  zlen ds <= parts /\ zlen (concat ds) <= size /\ (zlen ds = parts -> zlen (concat ds) = size) /\
  E = after filename size parts line_size ds /\ length os = length ds /\
  (forall k d o, nth_error ds k = Some d -> nth_error os k = Some o ->
     o = part_article (header_name filename) (eff line_size) size parts (Z.of_nat k + 1) (zlen (concat (firstn k ds))) d
           (if Z.of_nat k + 1 =? parts then Some (be32 (crc32_spec 0 (concat ds))) else None)).
Proof.
  intros W Hs Hp HF H. rewrite (after_nil filename size parts line_size Hp) in H.
  assert (F0 : fits size parts []) by (unfold fits; change (zlen (@nil (list byte))) with 0; change (total_len []) with 0; lia).
  destruct (feeds_after Y W filename size parts line_size ds [] os E F0 (forall_part_ok _ _ HF) H) as ((F1 & F2 & F3) & Eo & EE).
  cbn [app] in *. unfold total_len in *. subst os. rewrite articles_len.
  repeat apply conj; try assumption; try reflexivity.
  intros k d o H1 H2. rewrite (nth_articles filename size parts line_size ds [] k d o H1 H2).
  change (zlen (@nil (list byte))) with 0. change (total_len []) with 0. rewrite !Z.add_0_l. f_equal. unfold full_crc. cbn [app].
  assert (Hk : (k < length ds)%nat) by (apply nth_error_Some; congruence).
  assert (LK : zlen (firstn k ds) = Z.of_nat k) by (unfold zlen; rewrite firstn_length; lia). rewrite LK.
  destruct (Z.eqb_spec (Z.of_nat k + 1) parts) as [E1|E1]; [|reflexivity]. unfold crc_of. do 4 f_equal.
  assert (firstn k ds ++ [d] = ds) as ->; [|reflexivity].
  rewrite <- (firstn_skipn k ds) at 2. f_equal. pose proof (nth_error_split ds k H1) as (l1 & l2 & -> & Hl).
  rewrite <- Hl. rewrite skipn_app, skipn_all, Nat.sub_diag. cbn [skipn app]. f_equal.
  unfold zlen in F1. rewrite app_length in F1. cbn [length] in F1. destruct l2; [reflexivity|cbn [length] in F1; lia].
Qed.

Lemma parts_tile : forall Y filename size parts line_size ds os E,
  works Y -> 0 <= size -> 1 < parts ->
  let L := if line_size =? 0 then 128 else line_size in
  Forall (fun d => line_ok L d /\ zlen d < 2 ^ 63) ds ->
  feeds Y (multi_post filename size parts line_size) ds os E ->
  exists nm,
    (no_crlf filename -> nm = utf8_enc (firstn 256 filename)) /\
    length os = length ds /\
    (forall k d o, nth_error ds k = Some d -> nth_error os k = Some o ->
       exists full, o = part_article nm L size parts (Z.of_nat k + 1) (zlen (concat (firstn k ds))) d full) /\
    zlen ds <= parts /\ zlen (concat ds) <= size /\ (zlen ds = parts -> zlen (concat ds) = size).
Proof.
  intros Y filename size parts line_size ds os E W Hs Hp L HF H.
  destruct (feeds_shape Y filename size parts line_size ds os E W Hs Hp HF H) as (F1 & F2 & F3 & _ & F4 & F5).
  exists (header_name filename). split; [apply header_name_clean|]. split; [exact F4|]. split; [|auto].
  intros k d o H1 H2. eexists. exact (F5 k d o H1 H2).
Qed.
Lemma parts_accepted : forall Y filename size parts line_size ds,
  works Y -> 0 <= size -> 1 < parts ->
  let L := if line_size =? 0 then 128 else line_size in
  Forall (fun d => line_ok L d /\ zlen d < 2 ^ 63) ds ->
  zlen ds <= parts -> zlen (concat ds) <= size -> (zlen ds = parts -> zlen (concat ds) = size) ->
  exists os E, feeds Y (multi_post filename size parts line_size) ds os E.
Proof.
  intros Y filename size parts line_size ds W Hs Hp L HF H1 H2 H3. rewrite (after_nil filename size parts line_size Hp).
  eexists _, _. apply (feeds_exist Y W filename size parts line_size ds []); [apply forall_part_ok, HF|]. cbn [app]. unfold fits, total_len. auto.
Qed.
Lemma running_crc : forall Y filename size parts line_size ds os E,
  works Y -> 0 <= size -> 1 < parts ->
  let L := if line_size =? 0 then 128 else line_size in
  Forall (fun d => line_ok L d /\ zlen d < 2 ^ 63) ds ->
  feeds Y (multi_post filename size parts line_size) ds os E ->
  ye_crc E = be32 (crc32_spec 0 (concat ds)) /\
  exists nm, forall k d o, nth_error ds k = Some d -> nth_error os k = Some o ->
    o = part_article nm L size parts (Z.of_nat k + 1) (zlen (concat (firstn k ds))) d
          (if Z.of_nat k + 1 =? parts then Some (be32 (crc32_spec 0 (concat ds))) else None).
Proof.
  intros Y filename size parts line_size ds os E W Hs Hp L HF H.
  destruct (feeds_shape Y filename size parts line_size ds os E W Hs Hp HF H) as (F1 & F2 & F3 & -> & F4 & F5).
  split; [reflexivity|]. exists (header_name filename). exact F5.
Qed.

Lemma failed_call : forall Y E d e E',
  call_encode Y E d = (Err e, E') -> e <> NativeError -> e <> TypeError ->
  ye_pos E' = ye_pos E /\ ye_size E' = ye_size E /\ ye_parts E' = ye_parts E /\ ye_line_size E' = ye_line_size E /\
  ye_encode E' = ye_encode E /\ ye_info E' = ye_info E /\
  (e <> SizeMismatch -> ye_crc E' = ye_crc E) /\
  (ye_encode E <> M_multi -> E' = E).
Proof.
  intros Y E d e E' H N1 N2. unfold call_encode in H.
  assert (NC : forall x, y_crc32 Y d = Err x -> x = NativeError).
  { unfold y_crc32, of_jsres. intro x. destruct (node_crc32 _ _ _ _ _); congruence. }
  assert (NB : forall a b n x, y_crc32_combine Y a b n = Err x -> x = NativeError).
  { unfold y_crc32_combine, of_jsres. intros a b n x. destruct (node_crc32_combine _ _ _ _); congruence. }
  assert (NE : forall l x, y_encode Y d l = Err x -> x = NativeError).
  { unfold y_encode. intros l x. destruct (node_encode _ _ _ _ _ _) as [|[]]; congruence. }
  assert (NI : forall i x, need_info i = Err x -> x = TypeError) by (intros [] x X; [discriminate|injection X as <-; reflexivity]).
  destruct (ye_encode E) eqn:EM.
  - unfold encode_multi in H. cbn [with_part ye_parts ye_part ye_pos ye_size ye_info ye_crc] in H.
    destruct (ye_parts E <? ye_part E + 1); [injection H as <- <-; cbn; repeat split; auto; congruence|].
    destruct (ye_size E <? ye_pos E + zlen d); [injection H as <- <-; cbn; repeat split; auto; congruence|].
    unfold step in H. destruct (y_crc32 Y d) as [c|x|] eqn:E1; [|injection H as Hx _; elim N1; rewrite <- Hx; exact (NC x eq_refl)|discriminate].
    destruct (y_crc32_combine Y (ye_crc E) c (zlen d)) as [c2|x|] eqn:E2; [|injection H as Hx _; elim N1; rewrite <- Hx; exact (NB _ _ _ x E2)|discriminate].
    cbn [with_crc with_part ye_part ye_parts ye_pos ye_size] in H.
    destruct ((ye_part E + 1 =? ye_parts E) && negb (ye_pos E + zlen d =? ye_size E)).
    { injection H as <- <-. cbn. repeat split; auto; congruence. }
    exfalso. cbn [with_part ye_part ye_parts] in H. destruct (ye_part E + 1 =? ye_parts E).
    + destruct (y_encode Y d _) as [t|x|] eqn:E3; [|injection H as Hx _; elim N1; rewrite <- Hx; exact (NE _ x E3)|discriminate].
      destruct (need_info _) as [t'|x|] eqn:E4; [discriminate|injection H as Hx _; elim N2; rewrite <- Hx; exact (NI _ x E4)|discriminate].
    + destruct (y_encode Y d _) as [t|x|] eqn:E3; [|injection H as Hx _; elim N1; rewrite <- Hx; exact (NE _ x E3)|discriminate].
      destruct (need_info _) as [t'|x|] eqn:E4; [discriminate|injection H as Hx _; elim N2; rewrite <- Hx; exact (NI _ x E4)|discriminate].
  - unfold encode_single in H. destruct (negb (ye_size E =? zlen d)); [injection H as <- <-; repeat split; auto|]. exfalso.
    unfold step in H. destruct (y_crc32 Y d) as [c|x|] eqn:E1; [|injection H as Hx _; elim N1; rewrite <- Hx; exact (NC x eq_refl)|discriminate].
    destruct (y_encode Y d _) as [t|x|] eqn:E3; [|injection H as Hx _; elim N1; rewrite <- Hx; exact (NE _ x E3)|discriminate].
    destruct (need_info _) as [t'|x|] eqn:E4; [discriminate|injection H as Hx _; elim N2; rewrite <- Hx; exact (NI _ x E4)|discriminate].
  - injection H as <- <-. repeat split; auto.
Qed.

Lemma prop_is_own p tag key o v : own (y_own (p_props p)) tag = Some o -> own o key = Some v -> prop_is p tag key v.
Proof. intros H1 H2. exists o. auto. Qed.

Lemma single_roundtrip : forall Y A filename line_size data isRaw pre fin o E,
  works Y -> numbers_ok A -> is_string filename -> no_crlf filename ->
  let L := if line_size =? 0 then 128 else line_size in
  line_ok L data -> zlen data < 2 ^ 53 ->
  call_encode Y (multi_post filename (zlen data) 1 line_size) data = (Val o, E) ->
  front_ok pre -> tail_ok fin ->
  exists p, from_post Y A (pre ++ o ++ fin) isRaw = Val (inr p) /\
    p_data p = Some data /\ p_crc32 p = Some (be32 (crc32_spec 0 data)) /\
    p_warnings p = (match fin with [] => [J "missing_yend_newline"] | _ => [] end) /\
    p_yencStart p = zlen pre /\ p_yencEnd p = zlen (pre ++ o) + (match fin with [] => 0 | _ => 2 end) /\
    (exists ds de, p_dataStart p = Some ds /\ p_dataEnd p = Some de /\
       slice (pre ++ o ++ fin) ds de = yenc L true 0 data) /\
    prop_is p (J "begin") (J "line") (js_dec L) /\ prop_is p (J "begin") (J "size") (js_dec (zlen data)) /\
    prop_is p (J "end") (J "size") (js_dec (zlen data)) /\
    prop_is p (J "end") (J "crc32") (js_hex (be32 (crc32_spec 0 data))) /\
    (good_name filename -> prop_is p (J "begin") (J "name") filename).
Proof.
  intros Y A filename line_size data isRaw pre fin o E W HA HS HN L HL Hn Hc Hpre Hfin.
  destruct (single_call Y filename line_size data W HL ltac:(lia)) as (E0 & H0 & _). rewrite H0 in Hc. injection Hc as <- _.
  destruct (single_round Y A (header_name filename) L data pre fin isRaw W HA) as (p & P1 & P2 & P3 & P4 & P5 & P6 & P7 & P8);
    [apply HL|exact Hn|apply header_name_no_nl; assumption|exact Hpre|exact Hfin|].
  exists p. change (eff line_size) with L. repeat apply conj; try assumption.
  - eapply prop_is_own; [rewrite P5; reflexivity|reflexivity].
  - eapply prop_is_own; [rewrite P5; reflexivity|reflexivity].
  - eapply prop_is_own; [rewrite P5; reflexivity|reflexivity].
  - eapply prop_is_own; [rewrite P5; reflexivity|reflexivity].
  - intro G. eapply prop_is_own; [rewrite P5, (good_name_units filename G); reflexivity|reflexivity].
Qed.
Lemma single_created : forall Y filename line_size data, works Y ->
  line_ok (if line_size =? 0 then 128 else line_size) data -> zlen data < 2 ^ 63 ->
  exists o E, call_encode Y (multi_post filename (zlen data) 1 line_size) data = (Val o, E) /\
    ye_part E = 1 /\ ye_pos E = zlen data /\ ye_crc E = be32 (crc32_spec 0 data) /\
    forall d, call_encode Y E d = (Err ExceededParts, E).
Proof. intros Y filename line_size data W HL Hd. destruct (single_call Y filename line_size data W HL Hd) as (E & H). eexists _, E. exact H. Qed.

Lemma no_crlf_check s : (fix go (s : jstr) : bool := match s with
    | c :: t => match t with d :: _ => negb ((c =? 13)%N && (d =? 10)%N) | [] => true end && go t | [] => true end) s = true -> no_crlf s.
Proof.
  induction s as [|c t IH]; intros H a b E.
  - destruct a; discriminate.
  - apply andb_prop in H. destruct H as [H1 H2]. destruct a as [|x a].
    + cbn in E. injection E as -> ->. cbn in H1. discriminate.
    + cbn in E. injection E as -> E. exact (IH H2 a b E).
Qed.
Lemma no_occurs_check s l : (fix go (l : list byte) : bool := negb (is_prefix s l) && match l with [] => true | _ :: t => go t end) l = true -> ~ occurs s l.
Proof.
  induction l as [|c t IH]; intros H (a & b & E); apply andb_prop in H; destruct H as [H1 H2].
  - destruct a; [|discriminate]. cbn in E. rewrite E in H1. rewrite is_prefix_app in H1. discriminate.
  - destruct a as [|x a].
    + rewrite E in H1. cbn [app] in H1. rewrite is_prefix_app in H1. discriminate.
    + cbn in E. injection E as -> E. apply (IH H2). exists a, b. exact E.
Qed.
Lemma c43_witness :
  let name := J "some file.bin" in let fin := [CR; LF] ++ Bf "." ++ [CR; LF] in
  is_string name /\ no_crlf name /\ good_name name /\ line_ok 128 (Bf "data") /\
  front_ok (Bf "Subject: x" ++ [CR; LF]) /\ tail_ok fin.
Proof.
  assert (N : no_crlf (J "some file.bin")) by (apply no_crlf_check; reflexivity).
  split; [repeat constructor|]. split; [exact N|]. split.
  { split; [vm_compute; repeat constructor|]. split; [reflexivity|]. split; [exact N|].
    intros a c E. assert (X : last (J "some file.bin") 0%N = c) by (rewrite E; apply last_last). vm_compute in X. subst c. reflexivity. }
  split; [vm_compute; intuition discriminate|]. split.
  - right. exists (Bf "Subject: x"). split; [reflexivity|]. split; [apply no_occurs_check; reflexivity|]. intros [t E]. discriminate.
  - right. split; [eexists; reflexivity|apply no_occurs_check; reflexivity].
Qed.

Lemma post_throws : forall filename data line_size, js_post filename data line_size = Err ReferenceError.
Proof. intros. unfold js_post. reflexivity. Qed.

Lemma articles_name : forall Y filename size parts line_size ds os E,
  works Y -> 0 <= size ->
  let L := if line_size =? 0 then 128 else line_size in
  Forall (fun d => line_ok L d /\ zlen d < 2 ^ 63) ds ->
  feeds Y (multi_post filename size parts line_size) ds os E ->
  forall k d o, nth_error ds k = Some d -> nth_error os k = Some o ->
    (parts <= 1 -> o = single_article (header_name filename) L d) /\
    (1 < parts -> exists full, o = part_article (header_name filename) L size parts (Z.of_nat k + 1) (zlen (concat (firstn k ds))) d full).
Proof.
  intros Y filename size parts line_size ds os E W Hs L HF H k d o H1 H2. split; intro Hp.
  - assert (EQ : multi_post filename size parts line_size = multi_post filename size 1 line_size \/ True) by auto. clear EQ.
    destruct ds as [|d0 ds]; [destruct k; discriminate|]. inversion H as [|? ? o0 E1 ? os' ? C1 C2]; subst.
    assert (X : o0 = single_article (header_name filename) L d0 /\ ye_encode E1 = M_error).
    { unfold multi_post, new_yencoder, call_encode in C1. assert (1 <? parts = false) as Q by lia. rewrite Q in C1. cbn [ye_encode] in C1.
      unfold encode_single in C1. cbn [ye_size] in C1. destruct (Z.eqb_spec size (zlen d0)) as [->|]; [|discriminate]. cbn [negb] in C1.
      unfold step in C1. rewrite (w_crc Y W) in C1 by (apply (Forall_inv HF)). cbn [with_crc with_pos with_part with_encode ye_info no_info ye_line_size ye_crc need_info] in C1.
      fold (eff line_size) in C1. change (eff line_size) with L in C1.
      rewrite (w_encode Y W) in C1 by (apply (Forall_inv HF)). injection C1 as <- <-. split; [|reflexivity].
      unfold single_article. unfold Bf; cbn [bytes_of_string]; assocs. reflexivity. }
    destruct X as [-> X]. destruct k as [|k].
    + cbn [nth_error] in H1, H2. clear - H1 H2. congruence.
    + cbn [nth_error] in H1. destruct ds as [|d1 ds]; [destruct k; discriminate|]. inversion C2 as [|? ? ? ? ? ? ? C3 C4]; subst.
      unfold call_encode in C3. rewrite X in C3. discriminate.
  - destruct (feeds_shape Y filename size parts line_size ds os E W Hs Hp HF H) as (_ & _ & _ & _ & _ & F5). eexists. exact (F5 k d o H1 H2).
Qed.

Lemma no_injection : forall Y filename size parts line_size ds os E,
  works Y -> is_string filename -> no_crlf filename -> 0 <= size ->
  let L := if line_size =? 0 then 128 else line_size in
  Forall (fun d => line_ok L d /\ zlen d < 2 ^ 63) ds ->
  feeds Y (multi_post filename size parts line_size) ds os E ->
  exists nm, ~ occurs [CR; LF] nm /\
    forall k d o, nth_error ds k = Some d -> nth_error os k = Some o ->
      (parts <= 1 -> o = single_article nm L d) /\
      (1 < parts -> exists full, o = part_article nm L size parts (Z.of_nat k + 1) (zlen (concat (firstn k ds))) d full).
Proof.
  intros Y filename size parts line_size ds os E W HS HN Hs L HF H. exists (header_name filename).
  split; [apply no_nl_occurs, header_name_no_nl; assumption|]. exact (articles_name Y filename size parts line_size ds os E W Hs HF H).
Qed.

Lemma body_len data (a b : option Z) : zlen data < 2 ^ 63 ->
  match (match a, b with Some s, Some e => Some (slice data s e) | Some s, None => Some (skipn (Z.to_nat s) data) | None, _ => None end) with
  | Some text => zlen text < 2 ^ 63 | None => True end.
Proof.
  intro H. destruct a as [s|]; [|exact I]. destruct b as [e|].
  - pose proof (zlen_slice_le data s e). lia.
  - unfold zlen in *. rewrite skipn_length. lia.
Qed.
Lemma from_post_total : forall Y A data isRaw, works Y -> zlen data < 2 ^ 63 -> exists r, from_post Y A data isRaw = Val r.
Proof. intros Y A data isRaw W Hz. destruct (from_post_cases Y A data isRaw W Hz) as (r & H & _). exists r. exact H. Qed.

Lemma silent_verified : forall Y A data isRaw p,
  works Y -> numbers_ok A -> zlen data < 2 ^ 63 -> from_post Y A data isRaw = Val (inr p) -> p_warnings p = [] ->
  let out := match p_data p with Some o => o | None => [] end in
  (exists size, prop_is p (J "end") (J "size") size /\ is_number size = true /\
     (dec_val size < 2 ^ 53 -> zlen out < 2 ^ 53 -> zlen out = dec_val size) /\
     ((forall n, ~ prop_is p (J "begin") (J "part") n) -> prop_is p (J "begin") (J "size") size)) /\
  (forall c, prop_is p (J "end") (J "pcrc32") c -> c <> [] -> lower c = js_hex (be32 (crc32_spec 0 out))) /\
  (forall c, prop_is p (J "end") (J "crc32") c -> c <> [] -> own (y_own (p_props p)) (J "part") = None ->
     lower c = js_hex (be32 (crc32_spec 0 out))) /\
  (forall o, p_data p = Some o -> p_crc32 p = Some (be32 (crc32_spec 0 o))).
Proof.
  intros Y A data isRaw p W HA Hz H Hw. destruct (from_post_cases Y A data isRaw W Hz) as (r & Hr & R). rewrite H in Hr. injection Hr as <-.
  destruct R as (_ & _ & _ & _ & HB & HE & ls & w & w1 & w2 & D1 & D2 & D3 & D4). destruct (D4 Hw) as (-> & -> & ->).
  pose proof (no_proto ls d0 (p_props p) eq_refl D1) as NP.
  destruct (get_tag_own _ _ HB) as (b & Gb & Ob). destruct (get_tag_own _ _ HE) as (e & Ge & Oe).
  destruct (silent_props A (p_props p) b e Gb Ge D2) as ((s & S1 & S2 & S3 & S4) & _ & _ & _).
  destruct (silent_data Y A (p_props p) e _ isRaw (p_data p) (p_crc32 p) W (body_len _ _ _ Hz) Ge D3) as (T1 & T2 & T3 & T4). cbv zeta in *.
  set (out := match p_data p with Some o => o | None => [] end) in *.
  assert (PE : forall k v, prop_is p (J "end") k v -> own e k = Some v).
  { intros k v (o & O1 & O2). rewrite Oe in O1. injection O1 as ->. exact O2. }
  repeat apply conj.
  - exists s. split; [exists e; auto|]. split; [exact S3|]. split.
    + intros B1 B2. rewrite S1, (num_str A HA s S3 B1) in T2.
      assert (0 <= dec_val s).
      { clear - S3. assert (X : forall l a, 0 <= a -> forallb is_digit l = true -> 0 <= fold_left (fun a c => 10 * a + (Z.of_N c - 48)) l a).
        { induction l as [|c l IH]; intros a Ha Hl; [exact Ha|]. cbn [fold_left forallb] in *. apply andb_prop in Hl. destruct Hl as [Hc Hl].
          apply IH; [|exact Hl]. unfold is_digit in Hc. lia. }
        unfold is_number in S3. destruct s; [discriminate|]. apply X; [lia|exact S3]. }
      pose proof (zlen_nonneg out). rewrite (num_eq A HA) in T2 by lia. lia.
    + intro NPt. exists b. split; [exact Ob|]. apply S4. destruct (own b (J "part")) as [n|] eqn:En; [|reflexivity].
      elim (NPt n). exists b. auto.
  - intros c Hc Nc. apply (T3 c (PE _ _ Hc) Nc).
  - intros c Hc Nc Np. apply (T4 c (PE _ _ Hc) Nc). unfold get_tag. rewrite Np, NP. reflexivity.
  - intros o Ho. rewrite Ho in T1. destruct (match p_dataStart p with Some _ => _ | None => _ end) as [text|].
    + destruct T1 as (o' & _ & X & ->). injection X as <-. reflexivity.
    + destruct T1; discriminate.
Qed.

Lemma multi_roundtrip : forall Y A filename size parts line_size ds os E isRaw pre fin k d o,
  works Y -> numbers_ok A -> is_string filename -> no_crlf filename -> 1 < parts < 2 ^ 53 -> 0 <= size < 2 ^ 53 ->
  let L := if line_size =? 0 then 128 else line_size in
  Forall (fun d => line_ok L d) ds ->
  feeds Y (multi_post filename size parts line_size) ds os E ->
  nth_error ds k = Some d -> nth_error os k = Some o -> d <> [] -> front_ok pre -> tail_ok fin ->
  let pos := zlen (concat (firstn k ds)) in
  exists p, from_post Y A (pre ++ o ++ fin) isRaw = Val (inr p) /\
    p_data p = Some d /\ p_crc32 p = Some (be32 (crc32_spec 0 d)) /\
    p_warnings p = (match fin with [] => [J "missing_yend_newline"] | _ => [] end) /\
    p_yencStart p = zlen pre /\ p_yencEnd p = zlen (pre ++ o) + (match fin with [] => 0 | _ => 2 end) /\
    prop_is p (J "begin") (J "part") (js_dec (Z.of_nat k + 1)) /\ prop_is p (J "begin") (J "total") (js_dec parts) /\
    prop_is p (J "begin") (J "line") (js_dec L) /\ prop_is p (J "begin") (J "size") (js_dec size) /\
    prop_is p (J "part") (J "begin") (js_dec (pos + 1)) /\ prop_is p (J "part") (J "end") (js_dec (pos + zlen d)) /\
    prop_is p (J "end") (J "pcrc32") (js_hex (be32 (crc32_spec 0 d))) /\
    (Z.of_nat k + 1 = parts -> prop_is p (J "end") (J "crc32") (js_hex (be32 (crc32_spec 0 (concat ds))))) /\
    (good_name filename -> prop_is p (J "begin") (J "name") filename).
Proof.
  intros Y A filename size parts line_size ds os E isRaw pre fin k d o W HA HS HN Hp Hs L HF H H1 H2 Hd Hpre Hfin pos.
  assert (HF' : Forall (fun d => line_ok (eff line_size) d /\ zlen d < 2 ^ 63) ds).
  { assert (X : zlen (concat ds) <= size \/ True) by auto. clear X.
    (* a successful call means the data fits into the file *)
    rewrite (after_nil filename size parts line_size) in H by lia.
    assert (G : forall ds prev os E, Forall (fun d => line_ok L d) ds -> total_len prev <= size -> zlen prev <= parts -> (zlen prev = parts -> total_len prev = size) ->
       feeds Y (after filename size parts line_size prev) ds os E -> Forall (fun d => line_ok (eff line_size) d /\ zlen d < 2 ^ 63) ds).
    { clear - W Hp Hs. induction ds as [|x ds IH]; intros prev os E HF F1 F2 F3 H; [constructor|].
      inversion H as [|? ? o0 E1 ? os' ? C1 C2]; subst. pose proof (Forall_inv HF) as Hx. cbv beta in Hx.
      assert (Hz : zlen x < 2 ^ 63).
      { destruct (Z_lt_le_dec (zlen prev) parts) as [P1|P1]; [|rewrite (call_too_many Y filename size parts line_size prev x P1) in C1; discriminate].
        destruct (Z_lt_le_dec size (total_len prev + zlen x)) as [P2|P2]; [rewrite (call_too_long Y filename size parts line_size prev x P1 P2) in C1; discriminate|].
        pose proof (zlen_nonneg (concat prev)). unfold total_len in P2. lia. }
      destruct (call_success Y W filename size parts line_size prev x o0 E1) as ((G1 & G2 & G3) & _ & ->); [unfold fits; auto|split; assumption|exact C1|].
      constructor; [split; assumption|]. eapply IH; [exact (Forall_inv_tail HF)|exact G2|exact G1|exact G3|exact C2]. }
    apply (G ds [] os E HF); [change (total_len []) with 0; lia|change (zlen (@nil (list byte))) with 0; lia|change (zlen (@nil (list byte))) with 0; lia|exact H]. }
  destruct (feeds_shape Y filename size parts line_size ds os E W ltac:(lia) ltac:(lia) HF' H) as (F1 & F2 & F3 & _ & F4 & F5).
  pose proof (F5 k d o H1 H2) as Eo. clear F5. set (full := if Z.of_nat k + 1 =? parts then Some (be32 (crc32_spec 0 (concat ds))) else None) in Eo.
  destruct (nth_error_split ds k H1) as (l1 & l2 & Eds & Hl).
  assert (Ef : firstn k ds = l1) by (rewrite Eds, <- Hl, firstn_app, firstn_all, Nat.sub_diag; cbn [firstn]; apply app_nil_r).
  assert (B1 : Z.of_nat k + 1 <= parts) by (rewrite Eds in F1; unfold zlen in F1; rewrite app_length in F1; cbn [length] in F1; lia).
  assert (B2 : pos + zlen d <= size).
  { unfold pos. rewrite Ef. rewrite Eds, concat_app in F2. cbn [concat] in F2. rewrite !zlen_app in F2. pose proof (zlen_nonneg (concat l2)). lia. }
  assert (HL : line_ok L d) by (apply (proj1 (Forall_forall _ _) HF d), (nth_error_In ds k H1)).
  assert (B3 : 0 <= pos) by apply zlen_nonneg.
  destruct (multi_round Y A (header_name filename) L size parts (Z.of_nat k + 1) pos d full pre fin isRaw W HA)
    as (p & P1 & P2 & P3 & P4 & P5 & P6 & P7 & P8); try lia; try assumption.
  - apply HL.
  - unfold full. destruct (Z.of_nat k + 1 =? parts); [reflexivity|exact I].
  - apply header_name_no_nl; assumption.
  - exists p. fold pos in Eo. change (eff line_size) with L in Eo. rewrite Eo. repeat apply conj; try assumption.
    + eapply prop_is_own; [rewrite P5; reflexivity|reflexivity].
    + eapply prop_is_own; [rewrite P5; reflexivity|reflexivity].
    + eapply prop_is_own; [rewrite P5; reflexivity|reflexivity].
    + eapply prop_is_own; [rewrite P5; reflexivity|reflexivity].
    + eapply prop_is_own; [rewrite P5; reflexivity|reflexivity].
    + eapply prop_is_own; [rewrite P5; reflexivity|reflexivity].
    + eapply prop_is_own; [rewrite P5; reflexivity|reflexivity].
    + intro Q. unfold full in P5. rewrite (proj2 (Z.eqb_eq _ _) Q) in P5. eapply prop_is_own; [rewrite P5; reflexivity|reflexivity].
    + intro G. eapply prop_is_own; [rewrite P5, (good_name_units filename G); reflexivity|reflexivity].
Qed.

Lemma cut_at {A} (l : list A) (n : Z) : 0 <= n <= zlen l -> l = firstn (Z.to_nat n) l ++ skipn (Z.to_nat n) l /\ zlen (firstn (Z.to_nat n) l) = n.
Proof. intro H. split; [symmetry; apply firstn_skipn|]. unfold zlen in *. rewrite firstn_length. lia. Qed.

Lemma offsets : forall Y A data isRaw p, works Y -> zlen data < 2 ^ 63 -> from_post Y A data isRaw = Val (inr p) ->
  0 <= p_yencStart p /\ p_yencStart p + 10 <= p_yencEnd p <= zlen data /\
  (exists a b, data = a ++ Bf "=ybegin " ++ b /\ zlen a = p_yencStart p /\ front_ok a) /\
  (p_data p = None /\ p_dataStart p = None /\ p_dataEnd p = None \/
   exists s e o x text y, p_dataStart p = Some s /\ p_dataEnd p = Some e /\ p_data p = Some o /\
     p_yencStart p + 10 <= s <= e /\ e + 8 <= p_yencEnd p /\
     data = x ++ text ++ [CR; LF] ++ Bf "=yend " ++ y /\ zlen x = s /\ zlen text = e - s /\
     y_decode Y text isRaw = Val o).
Proof.
  intros Y A data isRaw p W Hz H. destruct (from_post_cases Y A data isRaw W Hz) as (r & Hr & R). rewrite H in Hr. injection Hr as <-.
  destruct R as (R1 & R2 & R3 & R4 & HB & HE & ls & w & w1 & w2 & D1 & D2 & D3 & _).
  destruct (yenc_start_sound _ _ R1) as (Y1 & Y2 & Y3 & Y4). split; [exact Y1|]. split; [lia|]. split.
  - destruct (cut_at data (p_yencStart p) ltac:(lia)) as [C1 C2]. apply is_prefix_iff in Y3. destruct Y3 as [b Y3].
    set (a := firstn (Z.to_nat (p_yencStart p)) data) in *. rewrite Y3 in C1. exists a, b. split; [exact C1|]. split; [exact C2|].
    destruct Y4 as [Y4|(Y4 & Y5 & Y6 & Y7)].
    + left. unfold a. rewrite Y4. reflexivity.
    + right. apply is_prefix_iff in Y6. destruct Y6 as [b' Y6].
      assert (LA : length a = Z.to_nat (p_yencStart p)) by (unfold zlen in C2; lia).
      exists (firstn (Z.to_nat (p_yencStart p - 2)) data). split.
      * unfold a. replace (Z.to_nat (p_yencStart p)) with (Z.to_nat (p_yencStart p - 2) + 2)%nat by lia.
        rewrite <- (firstn_skipn (Z.to_nat (p_yencStart p - 2)) data) at 1. rewrite Y6.
        rewrite firstn_app. rewrite firstn_all2 by (rewrite firstn_length; lia). f_equal.
        rewrite firstn_length. replace (Init.Nat.min (Z.to_nat (p_yencStart p - 2)) (length data)) with (Z.to_nat (p_yencStart p - 2)) by (unfold zlen in *; lia).
        replace (_ - _)%nat with 2%nat by lia. reflexivity.
      * split.
        -- intros (u & v & E). assert (LU : zlen u + 10 <= p_yencStart p) by (rewrite <- C2, E, !zlen_app; change (zlen ybegin_mark) with 10; pose proof (zlen_nonneg v); lia).
           pose proof (zlen_nonneg u). specialize (Y7 (zlen u) ltac:(lia)). rewrite C1, E, <- !app_assoc, skipn_zlen, is_prefix_app in Y7. discriminate.
        -- intros [t E]. rewrite C1, E, <- app_assoc, is_prefix_app in Y5. discriminate.
  - destruct R4 as [[R5 R6]|(s & e & R5 & R6 & R7 & R8 & R9)].
    + left. rewrite R5 in D3. unfold check_data in D3. destruct (get_tag_own _ _ HE) as (o & Ge & _). rewrite Ge in D3. cbn [get_key jbind] in D3.
      injection D3 as D3 _ _. auto.
    + right. rewrite R5, R6 in D3. destruct (get_tag_own _ _ HE) as (o & Ge & _). unfold check_data in D3. rewrite Ge in D3. cbn [get_key jbind] in D3.
      destruct (w_decode_total Y W (slice data s e) isRaw) as (od & Ed & Ho). rewrite Ed in D3. cbn [jbind] in D3.
      rewrite (w_crc Y W) in D3 by (pose proof (zlen_slice_le data s e); lia). cbn [jbind] in D3.
      assert (Ep : p_data p = Some od) by (clear - D3; remember (crc_of od); injection D3 as D3 _ _; congruence).
      apply is_prefix_iff in R9. destruct R9 as [y R9].
      exists s, e, od, (firstn (Z.to_nat s) data), (slice data s e), y. repeat apply conj; try assumption; try lia.
      * rewrite app_assoc. change ([CR; LF] ++ Bf "=yend " ++ y) with (yend_mark ++ y). rewrite <- R9.
        assert (X : firstn (Z.to_nat s) data ++ slice data s e = firstn (Z.to_nat e) data).
        { unfold slice. rewrite <- (firstn_skipn (Z.to_nat s) data) at 3. rewrite firstn_app, firstn_length.
          rewrite firstn_firstn. replace (Init.Nat.min (Z.to_nat e) (Z.to_nat s)) with (Z.to_nat s) by lia.
          f_equal. f_equal. unfold zlen in *. lia. }
        rewrite X. symmetry. apply firstn_skipn.
      * unfold zlen in *. rewrite firstn_length. lia.
      * unfold zlen in *. unfold slice. rewrite firstn_length, skipn_length. lia.
Qed.
