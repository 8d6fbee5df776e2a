(** from_post applied to the articles of YEncoder. *)
From Verif Require Import Base BaseLemmas EncSpec EncShape DecSpec DecText PropsEncLemmas CrcSpec CrcNodeSpec CrcNodeProofs JsBase JsModel JsSpec JsStrings JsParse JsEncoder JsFromPost.
From Coq Require Import ZifyBool ZifyNat ZifyN.
From Coq Require Strings.String.
Import String.StringSyntax.
Open Scope Z_scope.
Ltac Zify.zify_post_hook ::= Z.div_mod_to_equations.

(** ** Lines as strings *)

Lemma ascii_app a b : ascii a -> ascii b -> ascii (a ++ b).
Proof. intros; apply Forall_app; auto. Qed.
Lemma dec_ascii n : 0 <= n -> ascii (dec n).
Proof. intro H. apply plain_ascii, dec_plain_cu, H. Qed.
Lemma hex_ascii l : ascii (hex l).
Proof. apply plain_ascii, hex_plain_cu. Qed.
Lemma dec_units n : 0 <= n -> map Byte.to_N (dec n) = js_dec n.
Proof. intro H. apply plain_ascii, dec_plain_cu, H. Qed.
Lemma hex_units l : map Byte.to_N (hex l) = js_hex l.
Proof. apply plain_ascii, hex_plain_cu. Qed.
Lemma dec_no_cr n : 0 <= n -> Forall (fun b => b <> CR) (dec n).
Proof. intro H. apply plain_no_cr, dec_plain_cu, H. Qed.
Lemma hex_no_cr l : Forall (fun b => b <> CR) (hex l).
Proof. apply plain_no_cr, hex_plain_cu. Qed.
Lemma Bf_units s : map Byte.to_N (Bf s) = J s. Proof. reflexivity. Qed.

Ltac lit_ok := match goal with
  | |- ascii (Bf _) => repeat constructor
  | |- ascii [EQS] => repeat constructor
  | |- Forall (fun b => b <> CR) (Bf _) => repeat constructor; discriminate
  end.
Ltac asciis := repeat (apply ascii_app; [first [lit_ok|apply dec_ascii; lia|apply hex_ascii]|]); first [lit_ok|apply dec_ascii; lia|apply hex_ascii].
Ltac nocrs := repeat (apply Forall_app; split; [first [lit_ok|apply dec_no_cr; lia|apply hex_no_cr]|]); first [lit_ok|apply dec_no_cr; lia|apply hex_no_cr].

(** A line that ends in a file name. *)
Lemma line_of_name c p l nm : ascii (c :: p ++ [l]) -> is_space (Byte.to_N c) = false -> is_space (Byte.to_N l) = false ->
  line_of ((c :: p ++ [l]) ++ nm) = map Byte.to_N (c :: p ++ [l]) ++ trim_r (utf8_dec nm).
Proof.
  intros H1 H2 H3. unfold line_of. rewrite utf8_ascii by exact H1. cbn [map app]. unfold trim. rewrite trim_l_hd by exact H2.
  rewrite map_app. cbn [map]. rewrite <- app_assoc. cbn [app].
  change (Byte.to_N c :: map Byte.to_N p ++ Byte.to_N l :: utf8_dec nm) with ((Byte.to_N c :: map Byte.to_N p) ++ Byte.to_N l :: utf8_dec nm).
  rewrite trim_r_app by exact H3. cbn [app]. rewrite <- app_assoc. reflexivity.
Qed.
Lemma line_of_plain c p s : ascii (c :: p) -> is_space (Byte.to_N c) = false -> Forall plain_cu s -> s <> [] ->
  line_of ((c :: p) ++ map b8 s) = map Byte.to_N (c :: p) ++ s.
Proof.
  intros H1 H2 H3 H4. unfold line_of. destruct (plain_ascii s H3) as [A1 A2].
  rewrite utf8_ascii_all by (apply ascii_app; assumption). rewrite map_app, A2. cbn [map app]. unfold trim. rewrite trim_l_hd by exact H2.
  apply trim_r_last. intros a x E. destruct s as [|y s] using rev_ind; [congruence|].
  rewrite app_comm_cons, app_assoc in E. apply app_inj_tail in E. destruct E as [_ <-].
  apply Forall_app in H3. apply is_space_plain. apply (Forall_inv (proj2 H3)).
Qed.

Lemma dec_nonnil n : 0 <= n -> js_dec n <> [].
Proof. intros H E. pose proof (dec_is_number n H) as X. rewrite E in X. discriminate. Qed.
Lemma dec_no_space n : 0 <= n -> no_space (js_dec n).
Proof. intro. apply plain_no_space, dec_plain_cu. assumption. Qed.
Lemma hex_no_space l : no_space (js_hex l).
Proof. apply plain_no_space, hex_plain_cu. Qed.

Definition nm_of (name : list byte) : jstr := trim_r (utf8_dec name).

(** *** "=ybegin" without parts *)

Definition begin1_rest (L n : Z) (nm : jstr) : jstr :=
  J "line" ++ 61%N :: js_dec L ++ 32%N :: J "size" ++ 61%N :: js_dec n ++ 32%N :: J "name" ++ 61%N :: nm.
Definition begin1_props (L n : Z) (nm : jstr) : yprops :=
  [(J "line", js_dec L); (J "size", js_dec n); (J "name", nm)].

Lemma app_lit (a b : jstr) c : (c :: a) ++ b = c :: a ++ b. Proof. reflexivity. Qed.

Lemma trim_rest c a l nm : is_space c = false -> is_space l = false -> trim (c :: a ++ l :: trim_r nm) = c :: a ++ l :: trim_r nm.
Proof.
  intros H1 H2. unfold trim. rewrite trim_l_hd by exact H1. rewrite app_comm_cons.
  rewrite trim_r_app by exact H2. rewrite trim_r_idem. reflexivity.
Qed.

Lemma begin1_line L n name : 0 <= L -> 0 <= n ->
  line_of (Bf "=ybegin " ++ Bf "line=" ++ dec L ++ Bf " size=" ++ dec n ++ Bf " name=" ++ name) =
  61%N :: 121%N :: J "begin" ++ 32%N :: begin1_rest L n (nm_of name).
Proof.
  intros HL Hn.
  set (p := Bf "ybegin line=" ++ dec L ++ Bf " size=" ++ dec n ++ Bf " name").
  replace (Bf "=ybegin " ++ Bf "line=" ++ dec L ++ Bf " size=" ++ dec n ++ Bf " name=" ++ name)
    with ((EQS :: p ++ [EQS]) ++ name) by (unfold p; rewrite <- !app_comm_cons, <- !app_assoc; reflexivity).
  rewrite line_of_name; [|change (EQS :: p ++ [EQS]) with ([EQS] ++ p ++ [EQS]); unfold p; rewrite <- !app_assoc;
     apply ascii_app; [repeat constructor|]; asciis|reflexivity|reflexivity].
  fold (nm_of name). cbn [map]. unfold p. rewrite !map_app, !dec_units by assumption. rewrite <- !app_comm_cons, <- !app_assoc. reflexivity.
Qed.

Lemma begin1_parse L n name d : 0 <= L -> 0 <= n -> has_tag d (J "begin") = false ->
  parse_line (61%N :: 121%N :: J "begin" ++ 32%N :: begin1_rest L n (nm_of name)) d =
    (set_tag d (J "begin") (begin1_props L n (nm_of name)), []).
Proof.
  intros HL Hn Hd. set (nm := nm_of name).
  assert (F : exists f, S (length (begin1_rest L n nm)) = S (S (S f))).
  { unfold begin1_rest. rewrite app_length. change (length (J "line")) with 4%nat. eexists. rewrite Nat.add_succ_l. reflexivity. }
  destruct F as [f F].
  apply (parse_line_of _ _ _ _ (S (S (S f)))); [repeat constructor; discriminate| |exact Hd|symmetry; exact F|].
  - unfold begin1_rest, nm, nm_of.
    set (q := J "ine" ++ 61%N :: js_dec L ++ 32%N :: J "size" ++ 61%N :: js_dec n ++ 32%N :: J "name").
    replace (J "line" ++ 61%N :: js_dec L ++ 32%N :: J "size" ++ 61%N :: js_dec n ++ 32%N :: J "name" ++ 61%N :: trim_r (utf8_dec name))
      with (108%N :: q ++ 61%N :: trim_r (utf8_dec name)) by (unfold q; rewrite <- ?app_comm_cons, <- ?app_assoc; cbn [app]; rewrite <- ?app_assoc; cbn [app]; rewrite <- ?app_assoc; cbn [app]; rewrite <- ?app_assoc; reflexivity).
    apply trim_rest; reflexivity.
  - unfold begin1_rest. rewrite parse_step; [|reflexivity|apply dec_no_space; exact HL|reflexivity|reflexivity].
    rewrite parse_step; [|reflexivity|apply dec_no_space; exact Hn|reflexivity|reflexivity].
    rewrite parse_name by reflexivity. reflexivity.
Qed.

Ltac assocs := rewrite <- ?app_comm_cons; repeat (rewrite <- ?app_assoc; cbn [app]); rewrite <- ?app_assoc.

(** *** "=ybegin" of a part *)

Definition beginm_rest (k m L n : Z) (nm : jstr) : jstr :=
  J "part" ++ 61%N :: js_dec k ++ 32%N :: J "total" ++ 61%N :: js_dec m ++ 32%N :: begin1_rest L n nm.
Definition beginm_props (k m L n : Z) (nm : jstr) : yprops :=
  (J "part", js_dec k) :: (J "total", js_dec m) :: begin1_props L n nm.

Lemma beginm_line k m L n name : 0 <= k -> 0 <= m -> 0 <= L -> 0 <= n ->
  line_of (Bf "=ybegin " ++ Bf "part=" ++ dec k ++ Bf " total=" ++ dec m ++ Bf " line=" ++ dec L ++ Bf " size=" ++ dec n ++ Bf " name=" ++ name) =
  61%N :: 121%N :: J "begin" ++ 32%N :: beginm_rest k m L n (nm_of name).
Proof.
  intros Hk Hm HL Hn.
  set (p := Bf "ybegin part=" ++ dec k ++ Bf " total=" ++ dec m ++ Bf " line=" ++ dec L ++ Bf " size=" ++ dec n ++ Bf " name").
  replace (Bf "=ybegin " ++ Bf "part=" ++ dec k ++ Bf " total=" ++ dec m ++ Bf " line=" ++ dec L ++ Bf " size=" ++ dec n ++ Bf " name=" ++ name)
    with ((EQS :: p ++ [EQS]) ++ name) by (unfold p; rewrite <- !app_comm_cons, <- !app_assoc; reflexivity).
  rewrite line_of_name; [|change (EQS :: p ++ [EQS]) with ([EQS] ++ p ++ [EQS]); unfold p; rewrite <- !app_assoc;
     apply ascii_app; [repeat constructor|]; asciis|reflexivity|reflexivity].
  fold (nm_of name). cbn [map]. unfold p. rewrite !map_app, !dec_units by assumption. rewrite <- !app_comm_cons, <- !app_assoc. reflexivity.
Qed.

Lemma beginm_parse k m L n name d : 0 <= k -> 0 <= m -> 0 <= L -> 0 <= n -> has_tag d (J "begin") = false ->
  parse_line (61%N :: 121%N :: J "begin" ++ 32%N :: beginm_rest k m L n (nm_of name)) d =
    (set_tag d (J "begin") (beginm_props k m L n (nm_of name)), []).
Proof.
  intros Hk Hm HL Hn Hd. set (nm := nm_of name).
  assert (F : exists f, S (length (beginm_rest k m L n nm)) = S (S (S (S (S f))))).
  { unfold beginm_rest. rewrite app_length. change (length (J "part")) with 4%nat. eexists. rewrite !Nat.add_succ_l. reflexivity. }
  destruct F as [f F].
  apply (parse_line_of _ _ _ _ (S (S (S (S (S f)))))); [repeat constructor; discriminate| |exact Hd|symmetry; exact F|].
  - unfold beginm_rest, begin1_rest, nm, nm_of.
    set (q := J "art" ++ 61%N :: js_dec k ++ 32%N :: J "total" ++ 61%N :: js_dec m ++ 32%N :: J "line" ++ 61%N :: js_dec L ++ 32%N :: J "size" ++ 61%N :: js_dec n ++ 32%N :: J "name").
    match goal with |- trim ?x = _ => replace x with (112%N :: q ++ 61%N :: trim_r (utf8_dec name)) by (unfold q; assocs; reflexivity) end.
    apply trim_rest; reflexivity.
  - unfold beginm_rest, begin1_rest.
    rewrite parse_step; [|reflexivity|apply dec_no_space; exact Hk|reflexivity|reflexivity].
    rewrite parse_step; [|reflexivity|apply dec_no_space; exact Hm|reflexivity|reflexivity].
    rewrite parse_step; [|reflexivity|apply dec_no_space; exact HL|reflexivity|reflexivity].
    rewrite parse_step; [|reflexivity|apply dec_no_space; exact Hn|reflexivity|reflexivity].
    rewrite parse_name by reflexivity. reflexivity.
Qed.

(** *** "=ypart" *)

Definition part_rest (a b : Z) : jstr := J "begin" ++ 61%N :: js_dec a ++ 32%N :: J "end" ++ 61%N :: js_dec b.
Definition part_props (a b : Z) : yprops := [(J "begin", js_dec a); (J "end", js_dec b)].

Lemma trim_plain c a s : is_space c = false -> Forall plain_cu s -> s <> [] -> trim (c :: a ++ s) = c :: a ++ s.
Proof.
  intros H1 H2 H3. unfold trim. rewrite trim_l_hd by exact H1. apply trim_r_last. intros x y E.
  destruct s as [|z s] using rev_ind; [congruence|]. rewrite app_comm_cons, app_assoc in E. apply app_inj_tail in E. destruct E as [_ <-].
  apply Forall_app in H2. apply is_space_plain. apply (Forall_inv (proj2 H2)).
Qed.

Lemma part_line a b : 0 <= a -> 0 <= b ->
  line_of (Bf "=ypart begin=" ++ dec a ++ Bf " end=" ++ dec b) = 61%N :: 121%N :: J "part" ++ 32%N :: part_rest a b.
Proof.
  intros Ha Hb. set (p := Bf "ypart begin=" ++ dec a ++ Bf " end=").
  replace (Bf "=ypart begin=" ++ dec a ++ Bf " end=" ++ dec b) with ((EQS :: p) ++ map b8 (js_dec b)) by (unfold p; assocs; reflexivity).
  rewrite line_of_plain; [|change (EQS :: p) with ([EQS] ++ p); unfold p; asciis|reflexivity|apply dec_plain_cu, Hb|apply dec_nonnil, Hb].
  cbn [map]. unfold p. rewrite !map_app, !dec_units by assumption. assocs. reflexivity.
Qed.

Lemma part_parse a b d : 0 <= a -> 0 <= b -> has_tag d (J "part") = false ->
  parse_line (61%N :: 121%N :: J "part" ++ 32%N :: part_rest a b) d = (set_tag d (J "part") (part_props a b), []).
Proof.
  intros Ha Hb Hd.
  assert (F : exists f, S (length (part_rest a b)) = S (S f)).
  { unfold part_rest. rewrite app_length. change (length (J "begin")) with 5%nat. eexists. rewrite !Nat.add_succ_l. reflexivity. }
  destruct F as [f F].
  apply (parse_line_of _ _ _ _ (S (S f))); [repeat constructor; discriminate| |exact Hd|symmetry; exact F|].
  - unfold part_rest. set (q := J "egin" ++ 61%N :: js_dec a ++ 32%N :: J "end" ++ [61%N]).
    match goal with |- trim ?x = _ => replace x with (98%N :: q ++ js_dec b) by (unfold q; assocs; reflexivity) end.
    apply trim_plain; [reflexivity|apply dec_plain_cu, Hb|apply dec_nonnil, Hb].
  - unfold part_rest.
    rewrite parse_step; [|reflexivity|apply dec_no_space; exact Ha|reflexivity|reflexivity].
    rewrite parse_last; [|reflexivity|apply dec_no_space; exact Hb|reflexivity|reflexivity]. reflexivity.
Qed.

(** *** "=yend" *)

Definition end1_rest (n : Z) (c : list byte) : jstr := J "size" ++ 61%N :: js_dec n ++ 32%N :: J "crc32" ++ 61%N :: js_hex c.
Definition end1_props (n : Z) (c : list byte) : yprops := [(J "size", js_dec n); (J "crc32", js_hex c)].

Lemma hex_nonnil c : zlen c = 4 -> js_hex c <> [].
Proof. intros H E. pose proof (js_hex_len c) as X. rewrite E in X. unfold zlen in H. cbn in X. lia. Qed.

Lemma end1_line n c : 0 <= n -> zlen c = 4 ->
  line_of (Bf "=yend " ++ Bf "size=" ++ dec n ++ Bf " crc32=" ++ hex c) = 61%N :: 121%N :: J "end" ++ 32%N :: end1_rest n c.
Proof.
  intros Hn Hc. set (p := Bf "yend size=" ++ dec n ++ Bf " crc32=").
  replace (Bf "=yend " ++ Bf "size=" ++ dec n ++ Bf " crc32=" ++ hex c) with ((EQS :: p) ++ map b8 (js_hex c)) by (unfold p; assocs; reflexivity).
  rewrite line_of_plain; [|change (EQS :: p) with ([EQS] ++ p); unfold p; asciis|reflexivity|apply hex_plain_cu|apply hex_nonnil, Hc].
  cbn [map]. unfold p. rewrite !map_app, !dec_units by assumption. assocs. reflexivity.
Qed.
Lemma end1_parse n c d : 0 <= n -> zlen c = 4 -> has_tag d (J "end") = false ->
  parse_line (61%N :: 121%N :: J "end" ++ 32%N :: end1_rest n c) d = (set_tag d (J "end") (end1_props n c), []).
Proof.
  intros Hn Hc Hd.
  assert (F : exists f, S (length (end1_rest n c)) = S (S f)).
  { unfold end1_rest. rewrite app_length. change (length (J "size")) with 4%nat. eexists. rewrite !Nat.add_succ_l. reflexivity. }
  destruct F as [f F].
  apply (parse_line_of _ _ _ _ (S (S f))); [repeat constructor; discriminate| |exact Hd|symmetry; exact F|].
  - unfold end1_rest. set (q := J "ize" ++ 61%N :: js_dec n ++ 32%N :: J "crc32" ++ [61%N]).
    match goal with |- trim ?x = _ => replace x with (115%N :: q ++ js_hex c) by (unfold q; assocs; reflexivity) end.
    apply trim_plain; [reflexivity|apply hex_plain_cu|apply hex_nonnil, Hc].
  - unfold end1_rest.
    rewrite parse_step; [|reflexivity|apply dec_no_space; exact Hn|reflexivity|reflexivity].
    rewrite parse_last; [|reflexivity|apply hex_no_space|reflexivity|reflexivity]. reflexivity.
Qed.

(** The end line of a part; the CRC of the file may follow. *)
Definition endm_bytes (n k : Z) (c : list byte) (full : option (list byte)) : list byte :=
  Bf "size=" ++ dec n ++ Bf " part=" ++ dec k ++ Bf " pcrc32=" ++ hex c ++
  match full with Some c => Bf " crc32=" ++ hex c | None => [] end.
Definition endm_rest (n k : Z) (c : list byte) (full : option (list byte)) : jstr :=
  J "size" ++ 61%N :: js_dec n ++ 32%N :: J "part" ++ 61%N :: js_dec k ++ 32%N :: J "pcrc32" ++ 61%N :: js_hex c ++
  match full with Some c => 32%N :: J "crc32" ++ 61%N :: js_hex c | None => [] end.
Definition endm_props (n k : Z) (c : list byte) (full : option (list byte)) : yprops :=
  (J "size", js_dec n) :: (J "part", js_dec k) :: (J "pcrc32", js_hex c) ::
  match full with Some c => [(J "crc32", js_hex c)] | None => [] end.

Definition crc4 (full : option (list byte)) : Prop := match full with Some c => zlen c = 4 | None => True end.

Lemma endm_line n k c full : 0 <= n -> 0 <= k -> zlen c = 4 -> crc4 full ->
  line_of (Bf "=yend " ++ endm_bytes n k c full) = 61%N :: 121%N :: J "end" ++ 32%N :: endm_rest n k c full.
Proof.
  intros Hn Hk Hc Hf. unfold endm_bytes, endm_rest. destruct full as [fc|].
  - set (p := Bf "yend size=" ++ dec n ++ Bf " part=" ++ dec k ++ Bf " pcrc32=" ++ hex c ++ Bf " crc32=").
    match goal with |- line_of ?x = _ => replace x with ((EQS :: p) ++ map b8 (js_hex fc)) by (unfold p; assocs; reflexivity) end.
    rewrite line_of_plain; [|change (EQS :: p) with ([EQS] ++ p); unfold p; asciis|reflexivity|apply hex_plain_cu|apply hex_nonnil, Hf].
    cbn [map]. unfold p. rewrite !map_app, !dec_units, !hex_units by assumption. assocs. reflexivity.
  - set (p := Bf "yend size=" ++ dec n ++ Bf " part=" ++ dec k ++ Bf " pcrc32=").
    match goal with |- line_of ?x = _ => replace x with ((EQS :: p) ++ map b8 (js_hex c)) by (unfold p; rewrite app_nil_r; assocs; reflexivity) end.
    rewrite line_of_plain; [|change (EQS :: p) with ([EQS] ++ p); unfold p; asciis|reflexivity|apply hex_plain_cu|apply hex_nonnil, Hc].
    cbn [map]. unfold p. rewrite !map_app, !dec_units, app_nil_r by assumption. assocs. reflexivity.
Qed.
Lemma endm_parse n k c full d : 0 <= n -> 0 <= k -> zlen c = 4 -> crc4 full -> has_tag d (J "end") = false ->
  parse_line (61%N :: 121%N :: J "end" ++ 32%N :: endm_rest n k c full) d = (set_tag d (J "end") (endm_props n k c full), []).
Proof.
  intros Hn Hk Hc Hf Hd.
  assert (F : exists f, S (length (endm_rest n k c full)) = S (S (S (S f)))).
  { unfold endm_rest. rewrite app_length. change (length (J "size")) with 4%nat. eexists. rewrite !Nat.add_succ_l. reflexivity. }
  destruct F as [f F].
  apply (parse_line_of _ _ _ _ (S (S (S (S f))))); [repeat constructor; discriminate| |exact Hd|symmetry; exact F|].
  - unfold endm_rest. destruct full as [fc|].
    + set (q := J "ize" ++ 61%N :: js_dec n ++ 32%N :: J "part" ++ 61%N :: js_dec k ++ 32%N :: J "pcrc32" ++ 61%N :: js_hex c ++ 32%N :: J "crc32" ++ [61%N]).
      match goal with |- trim ?x = _ => replace x with (115%N :: q ++ js_hex fc) by (unfold q; assocs; reflexivity) end.
      apply trim_plain; [reflexivity|apply hex_plain_cu|apply hex_nonnil, Hf].
    + set (q := J "ize" ++ 61%N :: js_dec n ++ 32%N :: J "part" ++ 61%N :: js_dec k ++ 32%N :: J "pcrc32" ++ [61%N]).
      match goal with |- trim ?x = _ => replace x with (115%N :: q ++ js_hex c) by (unfold q; rewrite app_nil_r; assocs; reflexivity) end.
      apply trim_plain; [reflexivity|apply hex_plain_cu|apply hex_nonnil, Hc].
  - unfold endm_rest.
    rewrite parse_step; [|reflexivity|apply dec_no_space; exact Hn|reflexivity|reflexivity].
    rewrite parse_step; [|reflexivity|apply dec_no_space; exact Hk|reflexivity|reflexivity].
    destruct full as [fc|].
    + rewrite parse_step; [|reflexivity|apply hex_no_space|reflexivity|reflexivity].
      rewrite parse_last; [|reflexivity|apply hex_no_space|reflexivity|reflexivity]. reflexivity.
    + rewrite app_nil_r. rewrite parse_last; [|reflexivity|apply hex_no_space|reflexivity|reflexivity]. reflexivity.
Qed.

(** ** The checks *)

Lemma truthy_some s : s <> [] -> truthy (Some s) = true.
Proof. intro H. cbn. destruct (jeq_spec s []); [contradiction|reflexivity]. Qed.
Lemma truthy_dec n : 0 <= n -> truthy (Some (js_dec n)) = true.
Proof. intro H. apply truthy_some, dec_nonnil, H. Qed.
Lemma truthy_hex c : zlen c = 4 -> truthy (Some (js_hex c)) = true.
Proof. intro H. apply truthy_some, hex_nonnil, H. Qed.
Lemma is_crc_hex c : zlen c = 4 -> is_crc (js_hex c) = true.
Proof.
  intro H. unfold is_crc. rewrite js_hex_len. unfold zlen in H. replace (length c) with 4%nat by lia. cbn [Nat.mul Nat.add Nat.eqb andb].
  apply forallb_forall. intros x Hx. pose proof (proj1 (Forall_forall _ _) (hex_plain_cu c) x Hx) as P. unfold plain_cu in P. unfold is_hex, is_digit. lia.
Qed.
Lemma lower_hex c : lower (js_hex c) = js_hex c.
Proof.
  pose proof (hex_plain_cu c) as H. unfold lower. rewrite <- (map_id (js_hex c)) at 2. apply map_ext_in. intros x Hx.
  pose proof (proj1 (Forall_forall _ _) H x Hx) as P. unfold plain_cu in P.
  destruct ((65 <=? x)%N && (x <=? 90)%N) eqn:E; lia.
Qed.
Lemma v_truthy_obj o : v_truthy (VObj o) = true. Proof. reflexivity. Qed.

Section Checks.
Variable A : numbers.
Hypothesis HA : numbers_ok A.

Lemma of_dec n : 0 <= n < 2 ^ 53 -> of_str A (Some (js_dec n)) = of_int A n.
Proof. intro H. rewrite (num_str A HA) by (rewrite ?dec_dec_val; try apply dec_is_number; lia). rewrite dec_dec_val by lia. reflexivity. Qed.

Lemma field_ok v k n t w : get_key v k = Val (Some (js_dec n)) -> 0 <= n -> (n <> 0 \/ k = J "size") ->
  check_fields v t = Val w -> check_fields v (k :: t) = Val w.
Proof.
  intros H1 H2 H3 H4. cbn [check_fields]. rewrite H1, H4. cbn [jbind]. rewrite truthy_dec by exact H2.
  cbn [str_or]. rewrite dec_is_number by exact H2. cbn [negb]. rewrite js_dec_0 by exact H2.
  assert (X : (n =? 0) && negb (jeq k (J "size")) = false).
  { destruct H3 as [H3| ->]; [assert (n =? 0 = false) as -> by lia; reflexivity|apply andb_false_r]. }
  rewrite X. reflexivity.
Qed.
Lemma field_none v k t w : get_key v k = Val None -> check_fields v t = Val w -> check_fields v (k :: t) = Val w.
Proof. intros H1 H4. cbn [check_fields]. rewrite H1, H4. reflexivity. Qed.

Lemma tag_obj d tag o keys w : get_tag d tag = VObj o -> check_fields (VObj o) keys = Val w -> check_tag d tag keys = Val w.
Proof. intros H1 H2. unfold check_tag. rewrite H1. exact H2. Qed.
Lemma tag_undef d tag keys : get_tag d tag = VUndef -> check_tag d tag keys = Val [].
Proof. intros H1. unfold check_tag. rewrite H1. reflexivity. Qed.

Definition single_data (L n : Z) (nm : jstr) (c : list byte) : ydata :=
  {| y_own := [(J "begin", begin1_props L n nm); (J "end", end1_props n c)]; y_proto := None |}.
Definition multi_data (k m L n : Z) (nm : jstr) (a b : Z) (l : Z) (c : list byte) (full : option (list byte)) : ydata :=
  {| y_own := [(J "begin", beginm_props k m L n nm); (J "part", part_props a b); (J "end", endm_props l k c full)]; y_proto := None |}.

Lemma single_props_ok L n nm c : 1 <= L -> 0 <= n < 2 ^ 53 -> zlen c = 4 -> check_props A (single_data L n nm c) = Val (Some []).
Proof.
  intros HL Hn Hc. set (d := single_data L n nm c).
  assert (T1 : get_tag d (J "begin") = VObj (begin1_props L n nm)) by reflexivity.
  assert (T2 : get_tag d (J "end") = VObj (end1_props n c)) by reflexivity.
  assert (T3 : get_tag d (J "part") = VUndef) by reflexivity.
  unfold check_props. 
  rewrite (tag_obj d (J "begin") _ [J "line"; J "total"; J "part"; J "size"] [] T1) by
    (apply field_ok with L; [reflexivity|lia|lia|]; apply field_none; [reflexivity|]; apply field_none; [reflexivity|];
     apply field_ok with n; [reflexivity|lia|auto|reflexivity]).
  rewrite (tag_undef d (J "part") [J "begin"; J "end"] T3).
  rewrite (tag_obj d (J "end") _ [J "size"; J "part"] [] T2) by
    (apply field_ok with n; [reflexivity|lia|auto|]; apply field_none; reflexivity).
  rewrite T1, T2, T3.
  change (get_key (VObj (begin1_props L n nm)) (J "line")) with (Val (Some (js_dec L))).
  change (get_key (VObj (begin1_props L n nm)) (J "size")) with (Val (Some (js_dec n))).
  change (in_val (VObj (begin1_props L n nm)) (J "name")) with (Val true).
  change (get_key (VObj (end1_props n c)) (J "size")) with (Val (Some (js_dec n))).
  change (get_key (VObj (begin1_props L n nm)) (J "part")) with (@Val (option jstr) None).
  change (get_key (VObj (end1_props n c)) (J "part")) with (@Val (option jstr) None).
  change (get_key (VObj (begin1_props L n nm)) (J "total")) with (@Val (option jstr) None).
  change (get_key (VObj (end1_props n c)) (J "pcrc32")) with (@Val (option jstr) None).
  change (get_key (VObj (end1_props n c)) (J "crc32")) with (Val (Some (js_hex c))).
  cbn [v_truthy jbind]. rewrite !truthy_dec, truthy_hex by (lia || assumption).
  cbn [negb orb andb jbind truthy str_or]. rewrite is_crc_hex by exact Hc.
  rewrite !(num_undef_r A HA), of_dec, (num_lt A HA) by lia. rewrite Z.ltb_irrefl. cbn [differ]. rewrite jeq_refl. reflexivity.
Qed.

Lemma multi_props_ok k m L n nm pos l c full : 1 <= k <= m -> m < 2 ^ 53 -> 1 <= L -> n < 2 ^ 53 -> 0 <= pos -> 1 <= l -> pos + l <= n ->
  zlen c = 4 -> crc4 full -> check_props A (multi_data k m L n nm (pos + 1) (pos + l) l c full) = Val (Some []).
Proof.
  intros Hk Hm HL Hn Hp Hl Hpl Hc Hf. set (d := multi_data k m L n nm (pos + 1) (pos + l) l c full).
  assert (T1 : get_tag d (J "begin") = VObj (beginm_props k m L n nm)) by reflexivity.
  assert (T2 : get_tag d (J "end") = VObj (endm_props l k c full)) by reflexivity.
  assert (T3 : get_tag d (J "part") = VObj (part_props (pos + 1) (pos + l))) by reflexivity.
  unfold check_props.
  rewrite (tag_obj d (J "begin") _ [J "line"; J "total"; J "part"; J "size"] [] T1) by
    (apply field_ok with L; [reflexivity|lia|lia|]; apply field_ok with m; [reflexivity|lia|lia|]; apply field_ok with k; [reflexivity|lia|lia|];
     apply field_ok with n; [reflexivity|lia|auto|reflexivity]).
  rewrite (tag_obj d (J "part") _ [J "begin"; J "end"] [] T3) by
    (apply field_ok with (pos + 1); [reflexivity|lia|lia|]; apply field_ok with (pos + l); [reflexivity|lia|lia|reflexivity]).
  rewrite (tag_obj d (J "end") _ [J "size"; J "part"] [] T2) by
    (apply field_ok with l; [reflexivity|lia|auto|]; apply field_ok with k; [reflexivity|lia|lia|reflexivity]).
  rewrite T1, T2, T3. set (vb := VObj (beginm_props k m L n nm)). set (ve := VObj (endm_props l k c full)).
  set (vp := VObj (part_props (pos + 1) (pos + l))).
  change (get_key vb (J "line")) with (Val (Some (js_dec L))).
  change (get_key vb (J "size")) with (Val (Some (js_dec n))).
  change (in_val vb (J "name")) with (Val true).
  change (get_key ve (J "size")) with (Val (Some (js_dec l))).
  change (get_key vb (J "part")) with (Val (Some (js_dec k))).
  change (get_key ve (J "part")) with (Val (Some (js_dec k))).
  change (get_key vb (J "total")) with (Val (Some (js_dec m))).
  change (get_key ve (J "pcrc32")) with (Val (Some (js_hex c))).
  assert (get_key ve (J "crc32") = Val (match full with Some f => Some (js_hex f) | None => None end)) as -> by (destruct full; reflexivity).
  change (get_key vp (J "begin")) with (Val (Some (js_dec (pos + 1)))).
  change (get_key vp (J "end")) with (Val (Some (js_dec (pos + l)))).
  change (v_truthy vp) with true. cbn [jbind]. rewrite !truthy_dec by lia. cbn [negb orb andb jbind].
  rewrite !of_dec by lia. cbn [differ]. rewrite jeq_refl. cbn [negb]. rewrite !(num_lt A HA), (num_sub A HA), (num_add A HA), (num_eq A HA) by lia.
  rewrite truthy_hex by exact Hc. cbn [str_or]. rewrite is_crc_hex by exact Hc. cbn [negb andb].
  assert (truthy match full with Some f => Some (js_hex f) | None => None end &&
    negb (is_crc (str_or match full with Some f => Some (js_hex f) | None => None end)) = false) as ->.
  { destruct full as [f|]; [|reflexivity]. cbn [str_or]. rewrite is_crc_hex by exact Hf. apply andb_false_r. }
  assert (m <? k = false) as -> by lia. assert (pos + l <? pos + 1 = false) as -> by lia.
  assert (l =? pos + l - (pos + 1) + 1 = true) as -> by lia. assert (n <? pos + l = false) as -> by lia. assert (n <? l = false) as -> by lia.
  reflexivity.
Qed.

Lemma single_check Y L nm data text isRaw : works Y -> zlen data < 2 ^ 53 -> y_decode Y text isRaw = Val data ->
  check_data Y A (single_data L (zlen data) nm (crc_of data)) (Some text) isRaw = Val (Some data, Some (crc_of data), []).
Proof.
  intros W Hn Hd. unfold check_data. set (d := single_data L (zlen data) nm (crc_of data)).
  change (get_tag d (J "end")) with (VObj (end1_props (zlen data) (crc_of data))).
  change (get_tag d (J "part")) with VUndef.
  set (ve := VObj (end1_props (zlen data) (crc_of data))).
  change (get_key ve (J "size")) with (Val (Some (js_dec (zlen data)))).
  change (get_key ve (J "pcrc32")) with (@Val (option jstr) None).
  change (get_key ve (J "crc32")) with (Val (Some (js_hex (crc_of data)))).
  cbn [jbind]. rewrite Hd. cbn [jbind]. rewrite (w_crc Y W) by lia. cbn [jbind].
  pose proof (zlen_nonneg data). rewrite of_dec, (num_eq A HA), Z.eqb_refl by lia. cbn [str_or]. rewrite lower_hex, jeq_refl, andb_false_r. reflexivity.
Qed.
Lemma multi_check Y k m L n nm a b data full text isRaw : works Y -> zlen data < 2 ^ 53 -> y_decode Y text isRaw = Val data ->
  check_data Y A (multi_data k m L n nm a b (zlen data) (crc_of data) full) (Some text) isRaw = Val (Some data, Some (crc_of data), []).
Proof.
  intros W Hn Hd. unfold check_data. set (d := multi_data k m L n nm a b (zlen data) (crc_of data) full).
  change (get_tag d (J "end")) with (VObj (endm_props (zlen data) k (crc_of data) full)).
  change (get_tag d (J "part")) with (VObj (part_props a b)).
  set (ve := VObj (endm_props (zlen data) k (crc_of data) full)).
  change (get_key ve (J "size")) with (Val (Some (js_dec (zlen data)))).
  change (get_key ve (J "pcrc32")) with (Val (Some (js_hex (crc_of data)))).
  assert (get_key ve (J "crc32") = Val (match full with Some f => Some (js_hex f) | None => None end)) as -> by (destruct full; reflexivity).
  cbn [jbind]. rewrite Hd. cbn [jbind]. rewrite (w_crc Y W) by lia. cbn [jbind].
  pose proof (zlen_nonneg data). rewrite of_dec, (num_eq A HA), Z.eqb_refl by lia. cbn [str_or v_truthy]. rewrite lower_hex, jeq_refl, !andb_false_r. reflexivity.
Qed.
End Checks.

(** ** The articles *)

Lemma crc_len data : zlen (crc_of data) = 4.
Proof. reflexivity. Qed.

Lemma text_no_ypart L data : is_prefix [EQS; YY] (yenc L true 0 data ++ [CR]) = false.
Proof.
  apply not_true_is_false. intro P. destruct (line_safe_yenc L true 0 data) as (_ & _ & _ & S4).
  destruct (yenc L true 0 data) as [|a t] eqn:E; [discriminate|]. cbn [app is_prefix] in P.
  destruct (beq_spec EQS a) as [<-|]; [|discriminate]. destruct (S4 [] t eq_refl) as (c & b' & -> & Hc). cbn [app] in P.
  destruct (beq_spec YY c) as [<-|]; [|discriminate]. vm_compute in Hc. intuition discriminate.
Qed.
Lemma text_end_ok L data : ~ ends_with [EQS; CR; LF] (yenc L true 0 data).
Proof.
  intros [t E]. destruct (line_safe_yenc L true 0 data) as (_ & _ & _ & S4).
  destruct (S4 t [CR; LF] E) as (c & b' & H & Hc). injection H as <- <-. vm_compute in Hc. intuition discriminate.
Qed.
Lemma decode_own Y L data isRaw : works Y -> 1 <= L -> y_decode Y (yenc L true 0 data) isRaw = Val data.
Proof.
  intros W HL. destruct isRaw.
  - rewrite (w_decode_raw Y W) by apply text_end_ok. rewrite unstuff_yenc, decode_yenc by exact HL. reflexivity.
  - rewrite (w_decode Y W), decode_yenc. reflexivity.
Qed.

(** "=yend " is not how these lines start. *)
Lemma not_end_begin rest : jeq (firstn 6 (61%N :: 121%N :: J "begin" ++ 32%N :: rest)) (J "=yend ") = false.
Proof. reflexivity. Qed.

Lemma single_round Y A name L data pre fin isRaw : works Y -> numbers_ok A -> 1 <= L -> zlen data < 2 ^ 53 -> no_nl name ->
  front_ok pre -> tail_ok fin ->
  exists p, from_post Y A (pre ++ single_article name L data ++ fin) isRaw = Val (inr p) /\
    p_data p = Some data /\ p_crc32 p = Some (crc_of data) /\ p_warnings p = tail_warn fin /\
    p_props p = single_data L (zlen data) (nm_of name) (crc_of data) /\
    p_yencStart p = zlen pre /\
    p_yencEnd p = zlen (pre ++ single_article name L data) + (match fin with [] => 0 | _ => 2 end) /\
    (exists ds de, p_dataStart p = Some ds /\ p_dataEnd p = Some de /\
       slice (pre ++ single_article name L data ++ fin) ds de = yenc L true 0 data).
Proof.
  intros W HA HL Hn Hname Hpre Hfin. pose proof (zlen_nonneg data) as Hn0.
  set (h2 := Bf "line=" ++ dec L ++ Bf " size=" ++ dec (zlen data) ++ Bf " name=" ++ name).
  set (t := Bf "size=" ++ dec (zlen data) ++ Bf " crc32=" ++ hex (crc_of data)).
  set (text := yenc L true 0 data).
  assert (E : pre ++ single_article name L data ++ fin = pre ++ (Bf "=ybegin " ++ h2) ++ [CR; LF] ++ with_nl [] ++ text ++ yend_mark ++ t ++ fin).
  { unfold single_article, h2, t, text, yend_mark, with_nl. assocs. reflexivity. }
  assert (E' : pre ++ single_article name L data = (pre ++ with_nl [Bf "=ybegin " ++ h2]) ++ text ++ yend_mark ++ t).
  { unfold single_article, h2, t, text, yend_mark, with_nl. cbn [map concat]. rewrite app_nil_r. assocs. reflexivity. }
  assert (EL : line_of (Bf "=ybegin " ++ h2) = 61%N :: 121%N :: J "begin" ++ 32%N :: begin1_rest L (zlen data) (nm_of name))
    by (apply begin1_line; lia).
  destruct (from_post_ok Y A pre h2 [] text t fin isRaw (set_tag d0 (J "begin") (begin1_props L (zlen data) (nm_of name)))
     (single_data L (zlen data) (nm_of name) (crc_of data)) [] data (crc_of data) [])
    as (p & P1 & P2 & P3 & P4 & P5 & P6 & P7 & P8 & P9).
  - exact Hpre.
  - unfold h2. rewrite !app_assoc. apply no_nl_app; [|exact Hname]. rewrite <- !app_assoc. nocrs.
  - constructor; [|constructor]. unfold is_end. rewrite EL. apply not_end_begin.
  - constructor.
  - apply text_no_ypart.
  - unfold t. nocrs.
  - exact Hfin.
  - cbn [map decoderParseLines]. rewrite EL, begin1_parse by (lia || reflexivity). reflexivity.
  - cbn [decoderParseLines]. unfold t. rewrite end1_line, end1_parse by (lia || reflexivity). reflexivity.
  - apply single_props_ok; [exact HA|lia|lia|reflexivity].
  - apply single_check; [exact HA|exact W|exact Hn|apply decode_own; assumption].
  - exists p. rewrite E. rewrite app_nil_r in P9. repeat apply conj; try assumption.
    + rewrite P5, E'. rewrite !zlen_app. change (zlen yend_mark) with 8. lia.
    + eexists _, _. split; [exact P3|]. split; [exact P4|]. rewrite <- E.
      rewrite app_assoc, E', <- !app_assoc. rewrite (app_assoc pre). apply slice_mid.
Qed.

Lemma multi_round Y A name L size parts k pos data full pre fin isRaw : works Y -> numbers_ok A -> 1 <= L -> size < 2 ^ 53 ->
  1 <= k <= parts -> parts < 2 ^ 53 -> 0 <= pos -> data <> [] -> pos + zlen data <= size ->
  crc4 full -> no_nl name -> front_ok pre -> tail_ok fin ->
  exists p, from_post Y A (pre ++ part_article name L size parts k pos data full ++ fin) isRaw = Val (inr p) /\
    p_data p = Some data /\ p_crc32 p = Some (crc_of data) /\ p_warnings p = tail_warn fin /\
    p_props p = multi_data k parts L size (nm_of name) (pos + 1) (pos + zlen data) (zlen data) (crc_of data) full /\
    p_yencStart p = zlen pre /\
    p_yencEnd p = zlen (pre ++ part_article name L size parts k pos data full) + (match fin with [] => 0 | _ => 2 end) /\
    (exists ds de, p_dataStart p = Some ds /\ p_dataEnd p = Some de /\
       slice (pre ++ part_article name L size parts k pos data full ++ fin) ds de = yenc L true 0 data).
Proof.
  intros W HA HL Hs Hk Hm Hp Hd Hps Hf Hname Hpre Hfin.
  assert (Hn0 : 1 <= zlen data) by (destruct data; [congruence|rewrite zlen_cons; pose proof (zlen_nonneg data); lia]).
  set (h2 := Bf "part=" ++ dec k ++ Bf " total=" ++ dec parts ++ Bf " line=" ++ dec L ++ Bf " size=" ++ dec size ++ Bf " name=" ++ name).
  set (hp := Bf "=ypart begin=" ++ dec (pos + 1) ++ Bf " end=" ++ dec (pos + zlen data)).
  set (t := endm_bytes (zlen data) k (crc_of data) full).
  set (text := yenc L true 0 data).
  assert (E' : pre ++ part_article name L size parts k pos data full = (pre ++ with_nl [Bf "=ybegin " ++ h2; hp]) ++ text ++ yend_mark ++ t).
  { unfold part_article, h2, hp, t, text, yend_mark, with_nl, endm_bytes. cbn [map concat]. rewrite app_nil_r. assocs. reflexivity. }
  assert (E : pre ++ part_article name L size parts k pos data full ++ fin =
              pre ++ (Bf "=ybegin " ++ h2) ++ [CR; LF] ++ with_nl [hp] ++ text ++ yend_mark ++ t ++ fin).
  { rewrite app_assoc, E'. unfold with_nl. cbn [map concat]. rewrite app_nil_r. rewrite <- !app_assoc. reflexivity. }
  assert (EL : line_of (Bf "=ybegin " ++ h2) = 61%N :: 121%N :: J "begin" ++ 32%N :: beginm_rest k parts L size (nm_of name))
    by (apply beginm_line; lia).
  assert (EP : line_of hp = 61%N :: 121%N :: J "part" ++ 32%N :: part_rest (pos + 1) (pos + zlen data))
    by (apply part_line; lia).
  set (d1 := set_tag (set_tag d0 (J "begin") (beginm_props k parts L size (nm_of name))) (J "part") (part_props (pos + 1) (pos + zlen data))).
  destruct (from_post_ok Y A pre h2 [hp] text t fin isRaw d1
     (multi_data k parts L size (nm_of name) (pos + 1) (pos + zlen data) (zlen data) (crc_of data) full) [] data (crc_of data) [])
    as (p & P1 & P2 & P3 & P4 & P5 & P6 & P7 & P8 & P9).
  - exact Hpre.
  - unfold h2. rewrite !app_assoc. apply no_nl_app; [|exact Hname]. rewrite <- !app_assoc. nocrs.
  - constructor; [|constructor; [|constructor]]; unfold is_end; [rewrite EL|rewrite EP]; reflexivity.
  - constructor; [|constructor]. split.
    + unfold hp. rewrite <- (app_nil_r (Bf "=ypart begin=" ++ _)). apply no_nl_app; [nocrs|exact no_nl_nil].
    + eexists. reflexivity.
  - apply text_no_ypart.
  - unfold t, endm_bytes. destruct full; [nocrs|]. rewrite app_nil_r. nocrs.
  - exact Hfin.
  - cbn [map decoderParseLines]. rewrite EL, beginm_parse by (lia || reflexivity). rewrite EP, part_parse by (lia || reflexivity). reflexivity.
  - cbn [decoderParseLines]. unfold t. rewrite endm_line, endm_parse by (lia || reflexivity || assumption). reflexivity.
  - apply multi_props_ok; [exact HA|lia..|reflexivity|exact Hf].
  - apply multi_check; [exact HA|exact W|lia|apply decode_own; assumption].
  - exists p. rewrite E. rewrite app_nil_r in P9. repeat apply conj; try assumption.
    + rewrite P5, E'. rewrite !zlen_app. change (zlen yend_mark) with 8. lia.
    + eexists _, _. split; [exact P3|]. split; [exact P4|]. rewrite <- E.
      rewrite app_assoc, E', <- !app_assoc. rewrite (app_assoc pre). apply slice_mid.
Qed.

Lemma good_name_units s : good_name s -> nm_of (header_name s) = s.
Proof.
  intros (H1 & H2 & H3 & H4). unfold nm_of. rewrite header_name_clean by exact H3. rewrite firstn_all2 by exact H1.
  rewrite utf8_roundtrip by exact H2. apply trim_r_last, H4.
Qed.
