(** from_post on arbitrary Buffers. *)
From Verif Require Import Base BaseLemmas EncSpec DecSpec CrcSpec CrcNodeSpec JsBase JsModel JsSpec JsStrings JsParse JsFromPost.
From Coq Require Import ZifyBool ZifyNat ZifyN.
From Coq Require Strings.String.
Import String.StringSyntax.
Open Scope Z_scope.
Ltac Zify.zify_post_hook ::= Z.div_mod_to_equations.

(** ** Objects *)

Lemma own_set {A} (o : obj A) k v : own (set o k v) k = Some v.
Proof.
  induction o as [|[k' w] t IH]; cbn [set own]; [rewrite jeq_refl; reflexivity|].
  destruct (jeq k k') eqn:E; cbn [own]; [rewrite jeq_refl; reflexivity|rewrite E; exact IH].
Qed.
Lemma own_set_keep {A} (o : obj A) k v k' : own o k' <> None -> own (set o k v) k' <> None.
Proof.
  induction o as [|[a w] t IH]; cbn [set own]; [congruence|]. intro H.
  destruct (jeq_spec k a) as [->|N]; cbn [own].
  - destruct (jeq k' a); [discriminate|exact H].
  - destruct (jeq k' a); [discriminate|exact (IH H)].
Qed.

Definition has_own (d : ydata) (k : jstr) : Prop := own (y_own d) k <> None.
Lemma set_tag_keep d t v k : has_own d k -> has_own (set_tag d t v) k.
Proof. unfold has_own, set_tag. intro H. destruct (jeq t (J "__proto__")); [exact H|]. apply own_set_keep, H. Qed.
Lemma set_tag_has d t v : jeq t (J "__proto__") = false -> has_own (set_tag d t v) t.
Proof. unfold has_own, set_tag. intros ->. cbn [y_own]. rewrite own_set. discriminate. Qed.

Definition tag_of (line : jstr) : jstr := fst (cut_space (skipn 2 line)).
Lemma parse_line_fst line d : exists props, fst (parse_line line d) = set_tag d (tag_of line) props.
Proof.
  unfold parse_line, tag_of. destruct (cut_space (skipn 2 line)) as [tag r]. cbn [fst].
  destruct (parse_props _ _ _ _ _) as [[props rest] w]. exists props. reflexivity.
Qed.
Lemma parse_keep ls : forall d k, has_own d k -> has_own (fst (decoderParseLines ls d)) k.
Proof.
  induction ls as [|l ls IH]; intros d k H; [exact H|]. cbn [decoderParseLines].
  destruct (parse_line l d) as [d1 w1] eqn:E1. destruct (decoderParseLines ls d1) as [d2 w2] eqn:E2. cbn [fst].
  change d2 with (fst (d2, w2)). rewrite <- E2. apply IH. destruct (parse_line_fst l d) as [props Hp]. rewrite E1 in Hp. cbn [fst] in Hp. rewrite Hp.
  apply set_tag_keep, H.
Qed.
Lemma parse_has ls : forall d l, In l ls -> jeq (tag_of l) (J "__proto__") = false -> has_own (fst (decoderParseLines ls d)) (tag_of l).
Proof.
  induction ls as [|x ls IH]; intros d l H Hp; [destruct H|]. destruct H as [->|H]; cbn [decoderParseLines].
  - destruct (parse_line l d) as [d1 w1] eqn:E1. destruct (decoderParseLines ls d1) as [d2 w2] eqn:E2. cbn [fst].
    change d2 with (fst (d2, w2)). rewrite <- E2. apply parse_keep. destruct (parse_line_fst l d) as [props Hq]. rewrite E1 in Hq. cbn [fst] in Hq. rewrite Hq.
    apply set_tag_has, Hp.
  - destruct (parse_line x d) as [d1 w1] eqn:E1. destruct (decoderParseLines ls d1) as [d2 w2] eqn:E2. cbn [fst].
    change d2 with (fst (d2, w2)). rewrite <- E2. apply IH; assumption.
Qed.

(** ** Searching *)

Lemma bufferFind_range data s st : 0 <= st <= zlen data -> s <> [] ->
  bufferFind data s st = -1 \/
  (st <= bufferFind data s st /\ bufferFind data s st + zlen s <= zlen data /\
   is_prefix s (skipn (Z.to_nat (bufferFind data s st)) data) = true).
Proof.
  intros Hst Hs. unfold bufferFind. destruct (zlen s =? 0); [auto|]. destruct (zlen data - st <? zlen s); [auto|].
  destruct (find_loop_range s (skipn (Z.to_nat st) data) st) as [->|[H1 H2]]; [auto|right].
  set (p := find_loop _ _ _) in *. rewrite skipn_plus in H2. replace (Z.to_nat st + Z.to_nat (p - st))%nat with (Z.to_nat p) in H2 by lia.
  split; [lia|]. split; [|exact H2]. apply is_prefix_iff in H2. destruct H2 as [r H2].
  apply (f_equal (@length byte)) in H2. rewrite skipn_length, app_length in H2. unfold zlen in *. rewrite skipn_length in H1.
  destruct s; [congruence|]. cbn [length] in *. lia.
Qed.
Lemma bufferFind_over data s st : zlen data < st -> bufferFind data s st = -1.
Proof. intro H. unfold bufferFind. pose proof (zlen_nonneg s). destruct (zlen s =? 0); [reflexivity|]. destruct (Z.ltb_spec (zlen data - st) (zlen s)); [reflexivity|lia]. Qed.
Lemma bufferFind_sound data s st : 0 <= st -> s <> [] ->
  bufferFind data s st = -1 \/
  (st <= bufferFind data s st /\ bufferFind data s st + zlen s <= zlen data /\
   is_prefix s (skipn (Z.to_nat (bufferFind data s st)) data) = true).
Proof.
  intros H Hs. destruct (Z_le_gt_dec st (zlen data)); [apply bufferFind_range; [lia|exact Hs]|]. left. apply bufferFind_over. lia.
Qed.
Lemma find_loop_least s l : forall i j, 0 <= i -> i <= j < find_loop s l i -> is_prefix s (skipn (Z.to_nat (j - i)) l) = false.
Proof.
  induction l as [|c l IH]; intros i j Hi H; [cbn in H; lia|]. cbn [find_loop] in H.
  destruct (is_prefix s (c :: l)) eqn:E; [lia|]. destruct (Z.eq_dec i j) as [->|N].
  - rewrite Z.sub_diag. exact E.
  - replace (Z.to_nat (j - i)) with (S (Z.to_nat (j - (i + 1)))) by lia. cbn [skipn]. apply IH; lia.
Qed.
Lemma rev_loop_range s buf : forall i, rev_loop s buf i = -1 \/ (0 <= rev_loop s buf i <= Z.of_nat i /\ is_prefix s (skipn (Z.to_nat (rev_loop s buf i)) buf) = true).
Proof.
  induction i as [|k IH]; cbn [rev_loop].
  - destruct (is_prefix s (skipn 0 buf)) eqn:E; [right|auto]. split; [lia|exact E].
  - destruct (is_prefix s (skipn (S k) buf)) eqn:E.
    + right. split; [lia|]. rewrite Nat2Z.id. exact E.
    + destruct IH as [->|[H1 H2]]; [auto|right]. split; [lia|exact H2].
Qed.
Lemma bufferFindRev_sound buf s : s <> [] ->
  bufferFindRev buf s = -1 \/
  (0 <= bufferFindRev buf s /\ bufferFindRev buf s + zlen s <= zlen buf /\ is_prefix s (skipn (Z.to_nat (bufferFindRev buf s)) buf) = true).
Proof.
  intro Hs. unfold bufferFindRev. destruct (zlen s =? 0); [auto|]. destruct (Z.ltb_spec (zlen buf) (zlen s)); [auto|].
  destruct (rev_loop_range s buf (length buf - length s)) as [->|[H1 H2]]; [auto|right]. unfold zlen in *. repeat split; try lia. exact H2.
Qed.

Lemma is_prefix_firstn p l : is_prefix p l = true -> l = p ++ skipn (length p) l.
Proof. intro H. apply is_prefix_iff in H. destruct H as [r ->]. rewrite skipn_app, skipn_all, Nat.sub_diag. reflexivity. Qed.

(** ** Lines *)

Lemma trim_r_cons_sp r : trim_r (32%N :: r) = [] \/ exists r', trim_r (32%N :: r) = 32%N :: r'.
Proof.
  unfold trim_r. cbn [rev].
  assert (X : forall l, trim_l (l ++ [32%N]) = [] \/ exists l', trim_l (l ++ [32%N]) = l' ++ [32%N]).
  { induction l as [|c l IH]; [left; reflexivity|]. cbn [app trim_l]. destruct (is_space c); [exact IH|]. right. exists (c :: l). reflexivity. }
  destruct (X (rev r)) as [->|[l' ->]]; [left; reflexivity|right]. rewrite rev_app_distr. exists (rev l'). reflexivity.
Qed.

Lemma tag_of_mark c mid r : ascii (c :: mid) -> is_space (Byte.to_N c) = false ->
  (exists m l, mid = m ++ [l] /\ is_space (Byte.to_N l) = false) -> no_space (skipn 2 (map Byte.to_N (c :: mid))) ->
  (2 <= length (c :: mid))%nat ->
  tag_of (line_of ((c :: mid) ++ SP :: r)) = skipn 2 (map Byte.to_N (c :: mid)).
Proof.
  intros Ha Hc (m & l & -> & Hl) Hn Hlen. unfold line_of.
  rewrite utf8_ascii by exact Ha. change (SP :: r) with ([SP] ++ r).
  rewrite (utf8_ascii [SP]) by (repeat constructor). change (map Byte.to_N [SP]) with [32%N]. cbn [app].
  unfold trim. cbn [map app]. rewrite trim_l_hd by exact Hc. rewrite map_app. cbn [map]. rewrite <- app_assoc. cbn [app].
  rewrite app_comm_cons, trim_r_app by exact Hl.
  destruct (trim_r_cons_sp (utf8_dec r)) as [->|[r' ->]].
  - unfold tag_of. cbn [map] in Hn. rewrite map_app in Hn. cbn [map] in Hn. cbn [app]. rewrite cut_space_all by exact Hn. reflexivity.
  - unfold tag_of. cbn [map] in Hn. rewrite map_app in Hn. cbn [map] in Hn.
    replace ((Byte.to_N c :: map Byte.to_N m) ++ Byte.to_N l :: 32%N :: r') with ((Byte.to_N c :: map Byte.to_N m ++ [Byte.to_N l]) ++ 32%N :: r')
      by (cbn [app]; rewrite <- app_assoc; reflexivity).
    rewrite skipn_app. replace (2 - _)%nat with 0%nat by (cbn [length] in *; rewrite app_length in *; rewrite map_length; cbn [length] in *; lia).
    rewrite skipn_O. rewrite cut_space_app by exact Hn. reflexivity.
Qed.
Lemma tag_begin r : tag_of (line_of (Bf "=ybegin " ++ r)) = J "begin".
Proof.
  change (Bf "=ybegin " ++ r) with ((EQS :: Bf "ybegin") ++ SP :: r). apply tag_of_mark.
  - repeat constructor.
  - reflexivity.
  - exists (Bf "ybegi"), "n"%byte. split; reflexivity.
  - repeat constructor; discriminate.
  - cbn. lia.
Qed.
Lemma tag_end_line r : tag_of (line_of (Bf "=yend " ++ r)) = J "end".
Proof.
  change (Bf "=yend " ++ r) with ((EQS :: Bf "yend") ++ SP :: r). apply tag_of_mark.
  - repeat constructor.
  - reflexivity.
  - exists (Bf "yen"), "d"%byte. split; reflexivity.
  - repeat constructor; discriminate.
  - cbn. lia.
Qed.
Lemma tag_end6 line : jeq (firstn 6 line) (J "=yend ") = true -> tag_of line = J "end".
Proof.
  intro H. apply jeq_true in H. rewrite <- (firstn_skipn 6 line), H. unfold tag_of.
  change (skipn 2 (J "=yend " ++ skipn 6 line)) with (J "end" ++ 32%N :: skipn 6 line). rewrite cut_space_app by (repeat constructor; discriminate). reflexivity.
Qed.

(** ** The header lines *)

(** What the loop over the header lines can return. *)
Lemma start_lines_result data : forall f sp p ls ls' ds ye, 0 <= sp -> (p = -1 \/ sp <= p /\ p + 2 <= zlen data) ->
  start_lines f data sp p ls = (ls', ds, ye) ->
  exists new, ls' = ls ++ new /\
    (ye = None /\ ds = None \/
     (new <> [] /\ hd [] new = line_of (slice data sp p) /\ 0 < p /\
      ((exists d, ds = Some d /\ ye = None /\ p + 2 <= d <= zlen data /\
          (exists q, d = q + 2 /\ is_prefix [CR; LF] (skipn (Z.to_nat q) data) = true \/ d = p + 2)) \/
       (exists y l, ye = Some y /\ ds = None /\ p + 2 <= y <= zlen data /\ In l new /\ jeq (firstn 6 l) (J "=yend ") = true)))).
Proof.
  induction f as [|f IH]; intros sp p ls ls' ds ye Hsp Hp E.
  - cbn in E. injection E as <- <- <-. exists []. rewrite app_nil_r. auto.
  - cbn [start_lines] in E. destruct (Z.ltb_spec 0 p) as [P|P]; [|injection E as <- <- <-; exists []; rewrite app_nil_r; auto].
    destruct Hp as [->|Hp]; [lia|]. fold (line_of (slice data sp p)) in E. set (line := line_of (slice data sp p)) in *.
    destruct (jeq (firstn 6 line) (J "=yend ")) eqn:E6.
    + injection E as <- <- <-. exists [line]. split; [reflexivity|right]. split; [discriminate|]. split; [reflexivity|]. split; [exact P|]. right.
      exists (p + 2), line. repeat split; try lia. left; reflexivity. exact E6.
    + match type of E with (if ?c then _ else _) = _ => destruct c end.
      * injection E as <- <- <-. exists [line]. split; [reflexivity|right]. split; [discriminate|]. split; [reflexivity|]. split; [exact P|]. left.
        exists (p + 2). repeat split; try lia. exists p. right. reflexivity.
      * destruct (bufferFind_sound data [CR; LF] (p + 2) ltac:(lia) ltac:(discriminate)) as [F|(F1 & F2 & F3)].
        -- rewrite F in E. apply IH in E; [|lia|auto]. destruct E as (new & -> & E). exists (line :: new).
           split; [rewrite <- app_assoc; reflexivity|]. destruct E as [E|(_ & _ & E & _)]; [left; exact E|lia].
        -- change (zlen [CR; LF]) with 2 in F2. apply IH in E; [|lia|right; lia]. destruct E as (new & -> & E). exists (line :: new).
           split; [rewrite <- app_assoc; reflexivity|]. destruct E as [E|(_ & _ & P' & E)]; [left; exact E|right].
           split; [discriminate|]. split; [reflexivity|]. split; [exact P|].
           destruct E as [(d & -> & -> & E1 & E2)|(y & l & -> & -> & E1 & E2 & E3)].
           ++ left. exists d. repeat split; try lia. destruct E2 as [q [[-> E2]|E2]]; [exists q; left; auto|]. exists (bufferFind data [CR; LF] (p + 2)). left. auto.
           ++ right. exists y, l. repeat split; try lia. right; exact E2. exact E3.
Qed.

(** The fuel is enough: more of it does not change the result. *)
Lemma start_lines_fuel data : forall f1 f2 sp p ls, 0 <= sp -> (p = -1 \/ sp <= p /\ p + 2 <= zlen data) ->
  zlen data - sp < Z.of_nat f1 -> zlen data - sp < Z.of_nat f2 -> (0 < f1)%nat -> (0 < f2)%nat ->
  start_lines f1 data sp p ls = start_lines f2 data sp p ls.
Proof.
  induction f1 as [|f1 IH]; intros [|f2] sp p ls Hsp Hp H1 H2 P1 P2; try lia. cbn [start_lines].
  destruct (Z.ltb_spec 0 p) as [P|P]; [|reflexivity]. destruct Hp as [->|Hp]; [lia|].
  match goal with |- (if ?c then _ else _) = _ => destruct c; [reflexivity|] end.
  match goal with |- (if ?c then _ else _) = _ => destruct c; [reflexivity|] end.
  destruct (bufferFind_sound data [CR; LF] (p + 2) ltac:(lia) ltac:(discriminate)) as [F|(F1 & F2 & F3)].
  - rewrite F. destruct f1, f2; reflexivity || (cbn [start_lines]; reflexivity).
  - change (zlen [CR; LF]) with 2 in F2. apply IH; try lia.
Qed.

Lemma slice_starts data sp p m : 0 <= sp -> sp + zlen m <= p -> is_prefix m (skipn (Z.to_nat sp) data) = true ->
  exists r, slice data sp p = m ++ r.
Proof.
  intros H1 H2 H3. unfold slice. apply is_prefix_iff in H3. destruct H3 as [r ->].
  rewrite firstn_app. rewrite firstn_all2 by (unfold zlen in *; lia). eexists. reflexivity.
Qed.

Lemma yenc_start_sound data s : yenc_start data = Some s ->
  0 <= s /\ s + 8 <= zlen data /\ is_prefix (Bf "=ybegin ") (skipn (Z.to_nat s) data) = true /\
  (s = 0 \/ 2 <= s /\ is_prefix (Bf "=ybegin ") data = false /\ is_prefix ybegin_mark (skipn (Z.to_nat (s - 2)) data) = true /\
     forall j, 0 <= j < s - 2 -> is_prefix ybegin_mark (skipn (Z.to_nat j) data) = false).
Proof.
  unfold yenc_start. destruct (is_prefix (Bf "=ybegin ") data) eqn:E.
  - intro H. injection H as <-. split; [lia|]. split.
    + apply is_prefix_iff in E. destruct E as [r ->]. rewrite zlen_app. change (zlen (Bf "=ybegin ")) with 8. pose proof (zlen_nonneg r). lia.
    + split; [exact E|auto].
  - change ([CR; LF] ++ Bf "=ybegin ") with ybegin_mark.
    destruct (bufferFind_sound data ybegin_mark 0 ltac:(lia) ltac:(discriminate)) as [F|(F1 & F2 & F3)]; [rewrite F; discriminate|].
    set (p := bufferFind data ybegin_mark 0) in *. destruct (Z.ltb_spec p 0); [lia|]. intro Hs. injection Hs as <-.
    change (zlen ybegin_mark) with 10 in F2. split; [lia|]. split; [lia|]. split.
    + apply is_prefix_iff in F3. destruct F3 as [r F3]. replace (Z.to_nat (p + 2)) with (Z.to_nat p + 2)%nat by lia.
      rewrite <- skipn_plus, F3. unfold ybegin_mark. cbn [skipn app]. exact (is_prefix_app (Bf "=ybegin ") r).
    + right. split; [lia|]. split; [reflexivity|]. replace (p + 2 - 2) with p by lia. split; [exact F3|].
      intros j Hj. assert (Ef : p = find_loop ybegin_mark data 0).
      { unfold p, bufferFind. change (zlen ybegin_mark =? 0) with false. cbv iota. destruct (Z.ltb_spec (zlen data - 0) (zlen ybegin_mark)) as [X|X]; [|reflexivity].
        unfold p, bufferFind in F1. change (zlen ybegin_mark =? 0) with false in F1. cbv iota in F1. destruct (Z.ltb_spec (zlen data - 0) (zlen ybegin_mark)); lia. }
      pose proof (find_loop_least ybegin_mark data 0 j) as L. rewrite <- Ef in L. rewrite Z.sub_0_r in L. apply L; lia.
Qed.

(** ** The checks never throw *)

Lemma get_tag_own d k : has_own d k -> exists o, get_tag d k = VObj o /\ own (y_own d) k = Some o.
Proof. unfold has_own, get_tag. destruct (own (y_own d) k) as [o|]; [|congruence]. intros _. exists o. auto. Qed.
Lemma get_key_total v k : v <> VUndef -> exists x, get_key v k = Val x.
Proof. destruct v; [eexists; reflexivity..|congruence]. Qed.
Lemma check_fields_total v keys : v <> VUndef -> exists w, check_fields v keys = Val w.
Proof.
  intro H. induction keys as [|k keys [w IH]]; [exists []; reflexivity|]. cbn [check_fields].
  destruct (get_key_total v k H) as [x ->]. cbn [jbind]. rewrite IH. cbn [jbind]. eexists. reflexivity.
Qed.
Lemma check_tag_total d tag keys : exists w, check_tag d tag keys = Val w.
Proof.
  unfold check_tag. destruct (v_truthy (get_tag d tag)) eqn:E; [|eexists; reflexivity]. apply check_fields_total. intro X. rewrite X in E. discriminate.
Qed.
Lemma check_props_total A d : has_own d (J "begin") -> has_own d (J "end") -> exists r, check_props A d = Val r.
Proof.
  intros Hb He. destruct (get_tag_own _ _ Hb) as (b & Gb & _). destruct (get_tag_own _ _ He) as (e & Ge & _).
  unfold check_props. rewrite Gb, Ge. set (part := get_tag d (J "part")). cbn [get_key jbind].
  assert (N : exists x, (if truthy (own b (J "line")) && truthy (own b (J "size")) then in_val (VObj b) (J "name") else Val true) = Val x)
    by (destruct (truthy (own b (J "line")) && truthy (own b (J "size"))); eexists; reflexivity).
  destruct N as [x ->]. cbn [jbind]. destruct (negb _ || negb _ || negb _); [eexists; reflexivity|].
  destruct (negb (truthy (own e (J "size")))); [eexists; reflexivity|].
  destruct (check_tag_total d (J "begin") [J "line"; J "total"; J "part"; J "size"]) as [w1 ->].
  destruct (check_tag_total d (J "part") [J "begin"; J "end"]) as [w2 ->].
  destruct (check_tag_total d (J "end") [J "size"; J "part"]) as [w3 ->]. cbn [jbind].
  assert (G : forall k, exists x, (if v_truthy part then get_key part k else Val None) = Val x).
  { intro k. destruct (v_truthy part) eqn:E; [|eexists; reflexivity]. apply get_key_total. intro X. rewrite X in E. discriminate. }
  destruct (G (J "begin")) as [pb ->]. destruct (G (J "end")) as [pe ->]. cbn [jbind]. eexists. reflexivity.
Qed.
Lemma zlen_slice_le (data : list byte) a b : zlen (slice data a b) <= zlen data.
Proof. unfold slice, zlen. rewrite firstn_length, skipn_length. lia. Qed.
Lemma check_data_total Y A d body isRaw : works Y -> match body with Some text => zlen text < 2 ^ 63 | None => True end -> has_own d (J "end") -> exists r, check_data Y A d body isRaw = Val r.
Proof.
  intros W Hb He. destruct (get_tag_own _ _ He) as (e & Ge & _). unfold check_data. rewrite Ge. cbn [get_key jbind].
  destruct body as [text|]; [|eexists; reflexivity]. destruct (w_decode_total Y W text isRaw) as (o & -> & Ho). cbn [jbind].
  rewrite (w_crc Y W) by lia. cbn [jbind]. eexists. reflexivity.
Qed.

(** ** from_post, step by step *)

(** The possible results; for a post, everything later proofs need about it. *)
Lemma from_post_cases Y A data isRaw : works Y -> zlen data < 2 ^ 63 ->
  exists r, from_post Y A data isRaw = Val r /\
  match r with
  | inl _ => True
  | inr p =>
    yenc_start data = Some (p_yencStart p) /\
    p_yencEnd p <= zlen data /\ p_yencStart p + 10 <= p_yencEnd p /\
    (p_dataStart p = None /\ p_dataEnd p = None \/
     exists s e, p_dataStart p = Some s /\ p_dataEnd p = Some e /\ p_yencStart p + 10 <= s <= e /\ e + 8 <= p_yencEnd p /\
       is_prefix yend_mark (skipn (Z.to_nat e) data) = true) /\
    has_own (p_props p) (J "begin") /\ has_own (p_props p) (J "end") /\
    (exists ls w w1 w2, decoderParseLines ls d0 = (p_props p, w) /\ check_props A (p_props p) = Val (Some w1) /\
      check_data Y A (p_props p) (match p_dataStart p, p_dataEnd p with
        | Some s, Some e => Some (slice data s e) | Some s, None => Some (skipn (Z.to_nat s) data) | None, _ => None end) isRaw
        = Val (p_data p, p_crc32 p, w2) /\
      (p_warnings p = [] -> w = [] /\ w1 = [] /\ w2 = []))
  end.
Proof.
  intros W Hz. unfold from_post. destruct (yenc_start data) as [ys|] eqn:EY; [|exists (inl no_start_found); auto].
  destruct (yenc_start_sound data ys EY) as (Y1 & Y2 & Y3 & _).
  set (p0 := bufferFind data [CR; LF] (ys + 8)).
  assert (P0 : p0 = -1 \/ ys <= p0 /\ p0 + 2 <= zlen data).
  { destruct (bufferFind_sound data [CR; LF] (ys + 8) ltac:(lia) ltac:(discriminate)) as [F|(F1 & F2 & _)]; [left; exact F|right].
    change (zlen [CR; LF]) with 2 in F2. unfold p0. lia. }
  assert (P0' : p0 = -1 \/ ys + 8 <= p0).
  { destruct (bufferFind_sound data [CR; LF] (ys + 8) ltac:(lia) ltac:(discriminate)) as [F|(F1 & F2 & _)]; [left; exact F|right; exact F1]. }
  destruct (start_lines (S (length data)) data ys p0 []) as [[ls ds] ye] eqn:ES.
  destruct (start_lines_result data _ ys p0 [] ls ds ye Y1 P0 ES) as (new & EN & R). cbn [app] in EN. subst new.
  destruct R as [[-> ->]|(R1 & R2 & R3 & R4)]; [cbn [nonzero negb andb]; exists (inl no_end_found); auto|].
  destruct (decoderParseLines ls {| y_own := []; y_proto := None |}) as [d w] eqn:ED.
  assert (Hd : d = fst (decoderParseLines ls d0)) by (unfold d0; rewrite ED; reflexivity).
  assert (HB : has_own d (J "begin")).
  { destruct ls as [|l ls]; [congruence|]. cbn [hd] in R2.
    destruct (slice_starts data ys p0 (Bf "=ybegin ") Y1) as [r Hr]; [change (zlen (Bf "=ybegin ")) with 8; lia|exact Y3|].
    rewrite Hr in R2. pose proof (tag_begin r) as T. rewrite <- R2 in T. rewrite Hd, <- T. apply parse_has; [left; reflexivity|rewrite T; reflexivity]. }
  destruct R4 as [(dst & -> & -> & D1 & D2)|(y & l & -> & -> & D1 & D2 & D3)].
  - cbn [nonzero negb andb]. assert (negb (dst =? 0) = true) as -> by lia. cbn [negb andb].
    destruct (bufferFindRev_sound (skipn (Z.to_nat dst) data) ([CR; LF] ++ Bf "=yend ") ltac:(discriminate)) as [E|(B1 & B2 & B3)].
    { rewrite E. cbn [Z.ltb Z.compare]. exists (inl no_end_found). auto. }
    set (e := bufferFindRev _ _) in *. change (zlen ([CR; LF] ++ Bf "=yend ")) with 8 in B2.
    assert (e <? 0 = false) as -> by lia.
    assert (LS : zlen (skipn (Z.to_nat dst) data) = zlen data - dst) by (unfold zlen; rewrite skipn_length; unfold zlen in *; lia).
    rewrite LS in B2.
    rewrite skipn_plus in B3. replace (Z.to_nat dst + Z.to_nat e)%nat with (Z.to_nat (e + dst)) in B3 by lia.
    change ([CR; LF] ++ Bf "=yend ") with yend_mark in B3.
    assert (PL : exists pe yE wn, (if bufferFind data [CR; LF] (e + dst + 8) <? 0 then (zlen data, zlen data, [J "missing_yend_newline"])
        else (bufferFind data [CR; LF] (e + dst + 8), bufferFind data [CR; LF] (e + dst + 8) + 2, [])) = (pe, yE, wn) /\
        e + dst + 8 <= pe /\ pe <= yE <= zlen data).
    { destruct (bufferFind_sound data [CR; LF] (e + dst + 8) ltac:(lia) ltac:(discriminate)) as [F|(F1 & F2 & _)].
      - rewrite F. cbn [Z.ltb Z.compare]. eexists _, _, _. split; [reflexivity|]. lia.
      - change (zlen [CR; LF]) with 2 in F2. assert (bufferFind data [CR; LF] (e + dst + 8) <? 0 = false) as -> by lia.
        eexists _, _, _. split; [reflexivity|]. lia. }
    destruct PL as (pe & yE & wn & -> & PL1 & PL2).
    destruct (decoderParseLines [trim (utf8_dec (slice data (e + dst + 2) pe))] d) as [d2 w2] eqn:E2.
    assert (HB2 : has_own d2 (J "begin")).
    { change d2 with (fst (d2, w2)). rewrite <- E2. apply parse_keep, HB. }
    assert (HE2 : has_own d2 (J "end")).
    { destruct (slice_starts data (e + dst + 2) pe (Bf "=yend ")) as [r Hr]; [lia|change (zlen (Bf "=yend ")) with 6; lia| |].
      - apply is_prefix_iff in B3. destruct B3 as [r B3]. replace (Z.to_nat (e + dst + 2)) with (Z.to_nat (e + dst) + 2)%nat by lia.
        rewrite <- skipn_plus, B3. unfold yend_mark. cbn [skipn app]. exact (is_prefix_app (Bf "=yend ") r).
      - change d2 with (fst (d2, w2)). rewrite <- E2, Hr. fold (line_of (Bf "=yend " ++ r)).
        pose proof (parse_has [line_of (Bf "=yend " ++ r)] d (line_of (Bf "=yend " ++ r)) (or_introl eq_refl)) as X.
        rewrite tag_end_line in X. apply X. reflexivity. }
    destruct (check_props_total A d2 HB2 HE2) as [[w1|] EC]; rewrite EC; cbn [jbind]; [|exists (inl missing_required_properties); auto].
    destruct (check_data_total Y A d2 (Some (slice data dst (e + dst))) isRaw W (Z.le_lt_trans _ _ _ (zlen_slice_le data dst (e + dst)) Hz) HE2) as [[[dat crc] w3] EK]. rewrite EK. cbn [jbind].
    eexists. split; [reflexivity|]. cbn [p_yencStart p_yencEnd p_dataStart p_dataEnd p_props p_data p_crc32 p_warnings].
    split; [reflexivity|]. split; [lia|]. split; [lia|]. split.
    { right. exists dst, (e + dst). split; [reflexivity|]. split; [reflexivity|]. split; [lia|]. split; [lia|]. exact B3. }
    split; [exact HB2|]. split; [exact HE2|].
    exists (ls ++ [trim (utf8_dec (slice data (e + dst + 2) pe))]), (w ++ w2), w1, w3. split; [|split; [exact EC|split; [exact EK|]]].
    { unfold d0. clear - ED E2. revert ED. generalize {| y_own := []; y_proto := None |} as dd. revert d w E2.
      induction ls as [|l ls IH]; intros d w E2 dd ED.
      - cbn in ED. injection ED as <- <-. cbn [app]. exact E2.
      - cbn [app decoderParseLines] in *. destruct (parse_line l dd) as [dx wx]. destruct (decoderParseLines ls dx) as [dy wy] eqn:Ey.
        injection ED as <- <-. rewrite (IH _ _ E2 _ Ey). rewrite app_assoc. reflexivity. }
    intro Hw. apply app_eq_nil in Hw. destruct Hw as [Hw1 Hw]. apply app_eq_nil in Hw. destruct Hw as [-> ->].
    apply app_eq_nil in Hw1. destruct Hw1 as [-> Hw1]. apply app_eq_nil in Hw1. destruct Hw1 as [_ ->]. auto.
  - cbn [nonzero negb andb]. assert (negb (y =? 0) = true) as -> by lia. cbn [negb andb].
    assert (HE : has_own d (J "end")).
    { rewrite Hd, <- (tag_end6 l D3). apply parse_has; [exact D2|rewrite (tag_end6 l D3); reflexivity]. }
    destruct (check_props_total A d HB HE) as [[w1|] EC]; rewrite EC; cbn [jbind]; [|exists (inl missing_required_properties); auto].
    destruct (check_data_total Y A d None isRaw W I HE) as [[[dat crc] w3] EK]. rewrite EK. cbn [jbind].
    eexists. split; [reflexivity|]. cbn [p_yencStart p_yencEnd p_dataStart p_dataEnd p_props p_data p_crc32 p_warnings].
    split; [reflexivity|]. split; [lia|]. split; [lia|]. split; [left; auto|]. split; [exact HB|]. split; [exact HE|].
    exists ls, w, w1, w3. split; [exact ED|split; [exact EC|split; [exact EK|]]].
    intro Hw. apply app_eq_nil in Hw. destruct Hw as [-> Hw]. apply app_eq_nil in Hw. destruct Hw as [-> ->]. auto.
Qed.

(** ** Posts without warnings *)

Lemma parse_line_silent line d d' : parse_line line d = (d', []) -> has_tag d (tag_of line) = false.
Proof.
  unfold parse_line, tag_of. destruct (cut_space (skipn 2 line)) as [tag r]. cbn [fst].
  destruct (parse_props _ _ _ _ _) as [[props rest] w]. destruct (has_tag d tag); [|reflexivity].
  intro H. injection H as _ H. apply app_eq_nil in H. destruct H; discriminate.
Qed.
Lemma no_proto ls : forall d d', y_proto d = None -> decoderParseLines ls d = (d', []) -> y_proto d' = None.
Proof.
  induction ls as [|l ls IH]; intros d d' H E; [injection E as <-; exact H|]. cbn [decoderParseLines] in E.
  destruct (parse_line l d) as [d1 w1] eqn:E1. destruct (decoderParseLines ls d1) as [d2 w2] eqn:E2. injection E as <- E.
  apply app_eq_nil in E. destruct E as [-> ->]. apply (IH d1); [|exact E2].
  pose proof (parse_line_silent _ _ _ E1) as T. destruct (parse_line_fst l d) as [props Hp]. rewrite E1 in Hp. cbn [fst] in Hp. subst d1.
  unfold set_tag. destruct (jeq (tag_of l) (J "__proto__")) eqn:EP; [|exact H]. exfalso.
  apply jeq_true in EP. rewrite EP in T. unfold has_tag in T. destruct (own (y_own d) (J "__proto__")); [discriminate|]. rewrite H in T. discriminate.
Qed.

Lemma if_nil (c : bool) (s : jstr) : (if c then [s] else []) = [] -> c = false.
Proof. destruct c; [discriminate|reflexivity]. Qed.

Lemma silent_fields v k keys : check_fields v keys = Val [] -> In k keys -> forall x, get_key v k = Val (Some x) -> x <> [] -> is_number x = true.
Proof.
  induction keys as [|k' keys IH]; intros H I x Hx Hn; [destruct I|]. cbn [check_fields] in H.
  destruct (get_key v k') as [y| |] eqn:Ey; cbn [jbind] in H; try discriminate.
  destruct (check_fields v keys) as [w| |] eqn:Ew; cbn [jbind] in H; try discriminate.
  injection H as H. apply app_eq_nil in H. destruct H as [H1 ->]. destruct I as [->|I]; [|exact (IH eq_refl I x Hx Hn)].
  rewrite Hx in Ey. injection Ey as <-. cbn [truthy str_or] in H1. destruct (jeq_spec x []); [contradiction|]. cbn [negb] in H1.
  destruct (is_number x); [reflexivity|discriminate].
Qed.

Lemma silent_props A d b e : get_tag d (J "begin") = VObj b -> get_tag d (J "end") = VObj e -> check_props A d = Val (Some []) ->
  (exists s, own e (J "size") = Some s /\ s <> [] /\ is_number s = true /\
     (truthy (own b (J "part")) = false -> own b (J "size") = Some s)) /\
  has b (J "name") = true /\
  (forall c, own e (J "pcrc32") = Some c -> c <> [] -> is_crc c = true) /\
  (forall c, own e (J "crc32") = Some c -> c <> [] -> is_crc c = true).
Proof.
  intros Gb Ge H. unfold check_props in H. rewrite Gb, Ge in H. cbn [get_key jbind] in H.
  destruct (truthy (own b (J "line")) && truthy (own b (J "size"))) eqn:T1; cbn [in_val jbind] in H.
  2:{ assert (X : negb (truthy (own b (J "line"))) || negb (truthy (own b (J "size"))) || negb true = true)
        by (destruct (truthy (own b (J "line"))), (truthy (own b (J "size"))); reflexivity || discriminate).
      rewrite X in H. discriminate. }
  destruct (negb (truthy (own b (J "line"))) || negb (truthy (own b (J "size"))) || negb (has b (J "name"))) eqn:T2; [discriminate|].
  destruct (has b (J "name")); [|rewrite orb_true_r in T2; discriminate]. clear T1 T2.
  destruct (truthy (own e (J "size"))) eqn:T3; cbn [negb] in H; [|discriminate].
  destruct (check_tag d (J "begin") _) as [w1| |]; cbn [jbind] in H; try discriminate.
  destruct (check_tag d (J "part") _) as [w2| |]; cbn [jbind] in H; try discriminate.
  destruct (check_tag d (J "end") [J "size"; J "part"]) as [w3| |] eqn:C3; cbn [jbind] in H; try discriminate.
  match type of H with context [jbind (if ?c then ?a else ?b)] => destruct (if c then a else b) as [pb| |]; cbn [jbind] in H; try discriminate end.
  match type of H with context [jbind (if ?c then ?a else ?b)] => destruct (if c then a else b) as [pe| |]; cbn [jbind] in H; try discriminate end.
  injection H as H.
  apply app_eq_nil in H. destruct H as [_ H]. apply app_eq_nil in H. destruct H as [_ H]. apply app_eq_nil in H. destruct H as [-> H].
  apply app_eq_nil in H. destruct H as [_ H]. apply app_eq_nil in H. destruct H as [_ H]. apply app_eq_nil in H. destruct H as [H6 H7].
  apply app_eq_nil in H6. destruct H6 as [H6 H6']. apply if_nil in H6, H6'.
  destruct (own e (J "size")) as [s|] eqn:Es; [|discriminate]. cbn [truthy] in T3. destruct (jeq_spec s []) as [|Ns]; [discriminate|].
  repeat apply conj.
  - exists s. split; [reflexivity|]. split; [exact Ns|]. split.
    + unfold check_tag in C3. rewrite Ge in C3. cbn [v_truthy] in C3. apply (silent_fields (VObj e) (J "size") _ C3); [left; reflexivity| |exact Ns].
      cbn [get_key]. rewrite Es. reflexivity.
    + intro Hp. rewrite Hp in H7. cbn [negb andb] in H7.
      destruct (differ (own b (J "size")) (Some s)) eqn:D; [discriminate|]. destruct (own b (J "size")) as [q|]; [|discriminate].
      cbn [differ] in D. destruct (jeq_spec q s) as [Q|Q]; [rewrite Q; reflexivity|discriminate].
  - reflexivity.
  - intros c Hc Nc. rewrite Hc in H6. cbn [truthy str_or] in H6. destruct (jeq_spec c []); [contradiction|]. destruct (is_crc c); [reflexivity|discriminate].
  - intros c Hc Nc. rewrite Hc in H6'. cbn [truthy str_or] in H6'. destruct (jeq_spec c []); [contradiction|]. destruct (is_crc c); [reflexivity|discriminate].
Qed.

Lemma silent_data Y A d e body isRaw dat crc : works Y -> match body with Some text => zlen text < 2 ^ 63 | None => True end -> get_tag d (J "end") = VObj e ->
  check_data Y A d body isRaw = Val (dat, crc, []) ->
  let out := match dat with Some o => o | None => [] end in
  (match body with Some text => exists o, y_decode Y text isRaw = Val o /\ dat = Some o /\ crc = Some (crc_of o) | None => dat = None /\ crc = None end) /\
  neq A (of_str A (own e (J "size"))) (of_int A (zlen out)) = true /\
  (forall c, own e (J "pcrc32") = Some c -> c <> [] -> lower c = js_hex (crc_of out)) /\
  (forall c, own e (J "crc32") = Some c -> c <> [] -> v_truthy (get_tag d (J "part")) = false -> lower c = js_hex (crc_of out)).
Proof.
  intros W Hb Ge H. unfold check_data in H. rewrite Ge in H. cbn [get_key jbind] in H. destruct body as [text|].
  - destruct (w_decode_total Y W text isRaw) as (o & ED & Ho). rewrite ED in H. cbn [jbind] in H.
    rewrite (w_crc Y W) in H by lia. cbn [jbind] in H.
    remember (crc_of o) as cc eqn:Ecc. remember (js_hex cc) as hx eqn:Ehx. injection H as <- <- H. cbv zeta. rewrite <- Ecc, <- Ehx.
    apply app_eq_nil in H. destruct H as [H1 H]. apply app_eq_nil in H. destruct H as [H2 H3]. apply if_nil in H1, H2, H3.
    split; [exists o; rewrite Ecc; auto|]. split; [apply negb_false_iff; exact H1|]. split.
    + intros c Hc Nc. rewrite Hc in H2. cbn [truthy str_or] in H2. destruct (jeq_spec c []); [contradiction|]. cbn [negb andb] in H2.
      destruct (jeq_spec hx (lower c)); [congruence|discriminate].
    + intros c Hc Nc Hp. rewrite Hc, Hp in H3. cbn [truthy str_or] in H3. destruct (jeq_spec c []); [contradiction|]. cbn [negb andb] in H3.
      destruct (jeq_spec hx (lower c)); [congruence|discriminate].
  - injection H as <- <- H. cbv zeta.
    apply app_eq_nil in H. destruct H as [H1 H]. apply app_eq_nil in H. destruct H as [H2 H3]. apply if_nil in H1, H2, H3.
    split; [auto|]. split; [change (zlen (@nil byte)) with 0; apply negb_false_iff; exact H1|]. split.
    + intros c Hc Nc. rewrite Hc in H2. cbn [truthy str_or] in H2. destruct (jeq_spec c []); [contradiction|]. cbn [negb andb] in H2.
      destruct (jeq_spec c (J "00000000")) as [Q|Q]; [rewrite Q; reflexivity|discriminate].
    + intros c Hc Nc Hp. rewrite Hc, Hp in H3. cbn [truthy str_or] in H3. destruct (jeq_spec c []); [contradiction|]. cbn [negb andb] in H3.
      destruct (jeq_spec c (J "00000000")) as [Q|Q]; [rewrite Q; reflexivity|discriminate].
Qed.
