(** When a file name breaks a header line, exactly. *)
From Verif Require Import Base BaseLemmas JsBase JsModel JsSpec JsStrings JsEncoder JsParse JsFromPost PropsJsLemmas.
From Coq Require Import ZifyBool ZifyNat ZifyN.

Lemma utf8_split c b : (c < 128)%N -> forall a, utf8_enc (a ++ c :: b) = utf8_enc a ++ b8 c :: utf8_enc b.
Proof.
  intro Hc. intro a. remember (length a) as n. revert a Heqn. induction n as [n IH] using lt_wf_ind. intros [|x a] ->.
  - cbn [app utf8_enc]. destruct (N.ltb_spec c 128); [reflexivity|lia].
  - cbn [app]. assert (I : utf8_enc (a ++ c :: b) = utf8_enc a ++ b8 c :: utf8_enc b) by (apply (IH (length a)); [cbn; lia|reflexivity]).
    destruct a as [|y a].
    + cbn [app] in *. change (utf8_enc (x :: c :: b)) with
        (if (x <? 0x80)%N then b8 x :: utf8_enc (c :: b) else if (x <? 0x800)%N then utf8_2 x ++ utf8_enc (c :: b)
         else if hi_surr x then if lo_surr c then utf8_4 (0x10000 + (x - 0xD800) * 1024 + (c - 0xDC00)) ++ utf8_enc b else utf8_3 0xFFFD ++ utf8_enc (c :: b)
         else if lo_surr x then utf8_3 0xFFFD ++ utf8_enc (c :: b) else utf8_3 x ++ utf8_enc (c :: b)).
      assert (lo_surr c = false) as -> by (unfold lo_surr; lia). rewrite I. cbn [utf8_enc].
      destruct (x <? 0x80)%N; [reflexivity|]. destruct (x <? 0x800)%N; [reflexivity|]. destruct (hi_surr x); [reflexivity|].
      destruct (lo_surr x); reflexivity.
    + assert (I2 : utf8_enc (a ++ c :: b) = utf8_enc a ++ b8 c :: utf8_enc b) by (apply (IH (length a)); [cbn; lia|reflexivity]).
      cbn [app] in *.
      change (utf8_enc (x :: y :: a ++ c :: b)) with
        (if (x <? 0x80)%N then b8 x :: utf8_enc (y :: a ++ c :: b) else if (x <? 0x800)%N then utf8_2 x ++ utf8_enc (y :: a ++ c :: b)
         else if hi_surr x then if lo_surr y then utf8_4 (0x10000 + (x - 0xD800) * 1024 + (y - 0xDC00)) ++ utf8_enc (a ++ c :: b) else utf8_3 0xFFFD ++ utf8_enc (y :: a ++ c :: b)
         else if lo_surr x then utf8_3 0xFFFD ++ utf8_enc (y :: a ++ c :: b) else utf8_3 x ++ utf8_enc (y :: a ++ c :: b)).
      change (utf8_enc (x :: y :: a)) with
        (if (x <? 0x80)%N then b8 x :: utf8_enc (y :: a) else if (x <? 0x800)%N then utf8_2 x ++ utf8_enc (y :: a)
         else if hi_surr x then if lo_surr y then utf8_4 (0x10000 + (x - 0xD800) * 1024 + (y - 0xDC00)) ++ utf8_enc a else utf8_3 0xFFFD ++ utf8_enc (y :: a)
         else if lo_surr x then utf8_3 0xFFFD ++ utf8_enc (y :: a) else utf8_3 x ++ utf8_enc (y :: a)).
      rewrite I, I2. destruct (x <? 0x80)%N; [reflexivity|]. destruct (x <? 0x800)%N; [rewrite <- app_assoc; reflexivity|].
      destruct (hi_surr x); [destruct (lo_surr y); rewrite <- app_assoc; reflexivity|].
      destruct (lo_surr x); rewrite <- app_assoc; reflexivity.
Qed.

Lemma drop_badchar_nul s : ~ In 0%N s -> drop_badchar s = s.
Proof.
  induction s as [|c t IH]; intro H; [reflexivity|]. cbn [drop_badchar].
  assert (E : drop_badchar t = t) by (apply IH; intro; apply H; right; assumption).
  destruct t as [|d [|e t]]; try (rewrite E; reflexivity).
  destruct (N.eqb e 0) eqn:F; [|rewrite andb_false_r, E; reflexivity]. apply N.eqb_eq in F. subst e. contradiction H. cbn. auto.
Qed.

Lemma exists_crlf (s : jstr) : (exists a b, s = a ++ [13; 10]%N ++ b) \/ no_crlf s.
Proof.
  induction s as [|c t [(a & b & ->)|N]].
  - right. intros [|? ?] ?; discriminate.
  - left. exists (c :: a), b. reflexivity.
  - destruct t as [|d t]; [right; intros [|? [|? ?]] ?; discriminate|].
    destruct (N.eq_dec c 13) as [->|H1]; [destruct (N.eq_dec d 10) as [->|H2]|].
    + left. exists [], t. reflexivity.
    + right. intros [|x a] b E; cbn [app] in E; injection E as E1 E2; [congruence|]. exact (N a b E2).
    + right. intros [|x a] b E; cbn [app] in E; injection E as E1 E2; [congruence|]. exact (N a b E2).
Qed.

Lemma is_string_firstn k s : is_string s -> is_string (firstn k s).
Proof. intro H. rewrite <- (firstn_skipn k s) in H. apply Forall_app in H. apply H. Qed.

Lemma header_breaks s : is_string s -> ~ In 0%N s ->
  (occurs [CR; LF] (header_name s) <-> exists a b, firstn 256 s = a ++ [13; 10]%N ++ b).
Proof.
  intros S N. unfold header_name. rewrite drop_badchar_nul by exact N. split.
  - intro O. destruct (exists_crlf (firstn 256 s)) as [X|X]; [exact X|].
    exfalso. revert O. apply no_nl_occurs, no_nl_utf8; [apply is_string_firstn, S|exact X].
  - intros (a & b & ->). cbn [app]. rewrite !utf8_split by lia. cbn [utf8_enc]. exists (utf8_enc a), (utf8_enc b).
    reflexivity.
Qed.
