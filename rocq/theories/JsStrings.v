(** Facts about the string functions of [JsBase]. *)
From Verif Require Import Base BaseLemmas JsBase JsSpec.
From Coq Require Import ZifyBool ZifyNat ZifyN.
From Coq Require Strings.String.
Import String.StringSyntax.
Open Scope Z_scope.
Ltac Zify.zify_post_hook ::= Z.div_mod_to_equations.

Lemma jeq_spec a b : reflect (a = b) (jeq a b).
Proof.
  revert b. induction a as [|x a IH]; intros [|y b]; cbn; try (constructor; congruence).
  destruct (N.eqb_spec x y) as [->|n]; cbn; [|constructor; congruence].
  destruct (IH b) as [->|n]; constructor; congruence.
Qed.
Lemma jeq_refl a : jeq a a = true. Proof. destruct (jeq_spec a a); congruence. Qed.
Lemma jeq_true a b : jeq a b = true -> a = b. Proof. destruct (jeq_spec a b); congruence. Qed.

(** ** UTF-8 *)

Lemma to_b8 n : (n < 256)%N -> Byte.to_N (b8 n) = n.
Proof.
  intro H. unfold b8. pose proof (bz_u8 (Z.of_N n)) as E. unfold bz in E. lia.
Qed.

(** The value of an ASCII string. *)
Definition ascii (l : list byte) : Prop := Forall (fun b => (Byte.to_N b < 128)%N) l.
Lemma utf8_ascii a l : ascii a -> utf8_dec (a ++ l) = map Byte.to_N a ++ utf8_dec l.
Proof.
  induction 1 as [|b a H _ IH]; [reflexivity|]. change ((b :: a) ++ l) with (b :: a ++ l).
  unfold utf8_dec in *. cbn [utf8_run u_idle]. unfold u_lead. rewrite (proj2 (N.ltb_lt _ _) H).
  cbn [app map]. rewrite IH. reflexivity.
Qed.
Lemma utf8_ascii_all a : ascii a -> utf8_dec a = map Byte.to_N a.
Proof. intro H. rewrite <- (app_nil_r a) at 1. rewrite utf8_ascii by exact H. apply app_nil_r. Qed.

Ltac ltb := repeat match goal with
  | |- context [(?a <? ?b)%N] => first [rewrite (proj2 (N.ltb_lt a b)) by lia | rewrite (proj2 (N.ltb_ge a b)) by lia]
  | |- context [(?a <=? ?b)%N] => first [rewrite (proj2 (N.leb_le a b)) by lia | rewrite (proj2 (N.leb_gt a b)) by lia]
  end.

Lemma run_lead b l : utf8_run u_idle (b :: l) = fst (u_lead (Byte.to_N b)) ++ utf8_run (snd (u_lead (Byte.to_N b))) l.
Proof. cbn [utf8_run u_idle]. destruct (u_lead (Byte.to_N b)). reflexivity. Qed.
Lemma run_more k cp lo hi n l : (n < 256)%N -> (lo <= n <= hi)%N ->
  utf8_run (S (S k), cp, lo, hi) (b8 n :: l) = utf8_run (S k, (cp * 64 + (n - 0x80))%N, 0x80%N, 0xBF%N) l.
Proof. intros H1 H2. cbn [utf8_run]. rewrite to_b8 by exact H1. ltb. reflexivity. Qed.
Lemma run_last cp lo hi n l : (n < 256)%N -> (lo <= n <= hi)%N ->
  utf8_run (1%nat, cp, lo, hi) (b8 n :: l) = units (cp * 64 + (n - 0x80)) ++ utf8_run u_idle l.
Proof. intros H1 H2. cbn [utf8_run]. rewrite to_b8 by exact H1. ltb. reflexivity. Qed.

Lemma dec_2 c l : (0x80 <= c < 0x800)%N -> utf8_dec (utf8_2 c ++ l) = c :: utf8_dec l.
Proof.
  intro H. unfold utf8_dec, utf8_2. cbn [app]. rewrite run_lead, to_b8 by lia.
  unfold u_lead. ltb. cbn [fst snd app]. rewrite run_last by lia.
  replace ((192 + c / 64 - 192) * 64 + (128 + c mod 64 - 128))%N with c by lia.
  unfold units. ltb. reflexivity.
Qed.
Lemma dec_3 c l : (0x800 <= c < 0x10000)%N -> hi_surr c = false -> lo_surr c = false ->
  utf8_dec (utf8_3 c ++ l) = c :: utf8_dec l.
Proof.
  unfold hi_surr, lo_surr. intros H H1 H2. unfold utf8_dec, utf8_3. cbn [app]. rewrite run_lead, to_b8 by lia.
  unfold u_lead. ltb. cbn [fst snd app].
  rewrite run_more; [|lia|destruct (N.eqb_spec (224 + c / 4096) 224), (N.eqb_spec (224 + c / 4096) 237); lia].
  rewrite run_last by lia.
  replace (((224 + c / 4096 - 224) * 64 + (128 + c / 64 mod 64 - 128)) * 64 + (128 + c mod 64 - 128))%N with c by lia.
  unfold units. ltb. reflexivity.
Qed.
Lemma dec_4 c l : (0x10000 <= c < 0x110000)%N ->
  utf8_dec (utf8_4 c ++ l) = (0xD800 + (c - 0x10000) / 1024 :: 0xDC00 + (c - 0x10000) mod 1024 :: utf8_dec l)%N.
Proof.
  intro H. unfold utf8_dec, utf8_4. cbn [app]. rewrite run_lead, to_b8 by lia.
  unfold u_lead. ltb. cbn [fst snd app].
  rewrite run_more; [|lia|destruct (N.eqb_spec (240 + c / 262144) 240), (N.eqb_spec (240 + c / 262144) 244); lia].
  rewrite run_more by lia. rewrite run_last by lia.
  replace ((((240 + c / 262144 - 240) * 64 + (128 + c / 4096 mod 64 - 128)) * 64 + (128 + c / 64 mod 64 - 128)) * 64 + (128 + c mod 64 - 128))%N with c by lia.
  unfold units. ltb. reflexivity.
Qed.

Lemma utf8_dec_1 c l : (c < 128)%N -> utf8_dec (b8 c :: l) = c :: utf8_dec l.
Proof.
  intro H. change (b8 c :: l) with ([b8 c] ++ l). rewrite utf8_ascii.
  - cbn. rewrite to_b8 by lia. reflexivity.
  - constructor; [rewrite to_b8; lia|constructor].
Qed.

Lemma utf8_roundtrip s : well_formed s = true -> utf8_dec (utf8_enc s) = s.
Proof.
  remember (length s) as n. revert s Heqn. induction n as [n IH] using lt_wf_ind. intros [|c t] -> W; [reflexivity|].
  cbn [utf8_enc well_formed] in *.
  destruct (N.ltb_spec c 0x80).
  { rewrite utf8_dec_1 by assumption. f_equal. apply (IH (length t)); [cbn; lia|reflexivity|].
    unfold hi_surr in W. assert ((55296 <=? c)%N = false) as E by lia. rewrite E in W. apply andb_prop in W. apply W. }
  destruct (N.ltb_spec c 0x800).
  { rewrite dec_2 by lia. f_equal. apply (IH (length t)); [cbn; lia|reflexivity|].
    unfold hi_surr in W. assert ((55296 <=? c)%N = false) as E by lia. rewrite E in W. apply andb_prop in W. apply W. }
  destruct (hi_surr c) eqn:Eh.
  { destruct t as [|d t']; [discriminate|]. apply andb_prop in W. destruct W as [El W]. rewrite El.
    unfold hi_surr, lo_surr in *. rewrite dec_4 by lia. f_equal; [lia|]. f_equal; [lia|].
    apply (IH (length t')); [cbn; lia|reflexivity|exact W]. }
  destruct (lo_surr c) eqn:El; [discriminate|].
  rewrite dec_3; [|lia|assumption|assumption]. f_equal. apply (IH (length t)); [cbn; lia|reflexivity|].
  apply andb_prop in W. apply W.
Qed.

(** Bytes below 128 stand for themselves. *)
Lemma to_b8_ge n : (128 <= n < 256)%N -> (128 <= Byte.to_N (b8 n))%N.
Proof. intro. rewrite to_b8; lia. Qed.

(** ** No line breaks out of nothing *)

Definition no_nl (l : list byte) : Prop := forall a b, l <> a ++ [CR; LF] ++ b.

Lemma no_nl_nil : no_nl [].
Proof. intros [|? ?] ?; discriminate. Qed.
Lemma no_nl_cons c l : no_nl l -> (c <> CR \/ hd x00 l <> LF) -> no_nl (c :: l).
Proof.
  intros H Hc a b E. destruct a as [|x a]; cbn in E; injection E as -> E.
  - subst l. cbn in Hc. destruct Hc; congruence.
  - exact (H a b E).
Qed.
Lemma no_nl_app a l : Forall (fun b => b <> CR) a -> no_nl l -> no_nl (a ++ l).
Proof. induction 1; intro Hl; cbn; auto. apply no_nl_cons; auto. Qed.
Lemma b8_neq n c : (n < 256)%N -> n <> Byte.to_N c -> b8 n <> c.
Proof. intros H Hn E. apply Hn. rewrite <- E, to_b8; auto. Qed.

(** The strings JavaScript has. *)
Lemma enc_cons c t : (c < 0x10000)%N -> exists l k, utf8_enc (c :: t) = l ++ utf8_enc (skipn k t) /\ l <> [] /\
  ((c < 128)%N /\ l = [b8 c] /\ k = 0%nat \/
   (128 <= c)%N /\ Forall (fun b => (128 <= Byte.to_N b)%N) l).
Proof.
  intro Hc. cbn [utf8_enc].
  destruct (N.ltb_spec c 0x80).
  { exists [b8 c], 0%nat. split; [reflexivity|]. split; [discriminate|]. left. auto. }
  assert (X : forall n, (128 <= n < 256)%N -> (128 <= Byte.to_N (b8 n))%N) by (intros; rewrite to_b8; lia).
  assert (XF : Forall (fun b => (128 <= Byte.to_N b)%N) (utf8_3 65533)) by (repeat constructor; cbn; lia).
  destruct (N.ltb_spec c 0x800).
  { exists (utf8_2 c), 0%nat. split; [reflexivity|]. split; [discriminate|]. right. split; [lia|].
    repeat constructor; apply X; lia. }
  destruct (hi_surr c) eqn:Eh.
  { destruct t as [|d t']; [|destruct (lo_surr d) eqn:El].
    - exists (utf8_3 65533), 0%nat. split; [reflexivity|]. split; [discriminate|]. right. auto.
    - exists (utf8_4 (65536 + (c - 55296) * 1024 + (d - 56320))), 1%nat. split; [reflexivity|]. split; [discriminate|].
      right. split; [lia|]. unfold hi_surr, lo_surr in *. repeat constructor; apply X; lia.
    - exists (utf8_3 65533), 0%nat. split; [reflexivity|]. split; [discriminate|]. right. auto. }
  destruct (lo_surr c).
  { exists (utf8_3 65533), 0%nat. split; [reflexivity|]. split; [discriminate|]. right. auto. }
  exists (utf8_3 c), 0%nat. split; [reflexivity|]. split; [discriminate|]. right. split; [lia|].
  repeat constructor; apply X; lia.
Qed.

Lemma no_crlf_tail c t : no_crlf (c :: t) -> no_crlf t.
Proof. intros H a b E. apply (H (c :: a) b). cbn. rewrite E. reflexivity. Qed.
Lemma is_string_skip k s : is_string s -> is_string (skipn k s).
Proof. intro H. rewrite <- (firstn_skipn k s) in H. apply Forall_app in H. apply H. Qed.
Lemma no_crlf_skip k s : no_crlf s -> no_crlf (skipn k s).
Proof. intros H a b E. apply (H (firstn k s ++ a) b). rewrite <- (firstn_skipn k s) at 1. rewrite E, app_assoc. reflexivity. Qed.

Lemma no_nl_utf8 s : is_string s -> no_crlf s -> no_nl (utf8_enc s).
Proof.
  remember (length s) as n. revert s Heqn. induction n as [n IH] using lt_wf_ind. intros [|c t] -> S N; [exact no_nl_nil|].
  pose proof (Forall_inv S) as Hc. pose proof (Forall_inv_tail S) as St. cbv beta in Hc.
  destruct (enc_cons c t Hc) as (l & k & -> & Hl & [(H & -> & ->)|[H F]]).
  - cbn [app skipn]. apply no_nl_cons; [apply (IH (length t)); [cbn; lia|reflexivity|exact St|exact (no_crlf_tail c t N)]|].
    destruct (N.eq_dec c 13) as [->|n]; [right|left; apply b8_neq; [lia|exact n]].
    destruct t as [|d t']; [discriminate|]. pose proof (Forall_inv St) as Hd. cbv beta in Hd.
    destruct (enc_cons d t' Hd) as (l' & k' & -> & Hl' & [(H' & -> & ->)|[H' F']]).
    + cbn [app hd]. apply b8_neq; [lia|]. intros ->. apply (N [] t'). reflexivity.
    + destruct F' as [|b l' Hb _]; [congruence|]. cbn [app hd]. intros ->. revert Hb. cbn. lia.
  - apply no_nl_app.
    + eapply Forall_impl; [|exact F]. intros b Hb ->. revert Hb. cbn. lia.
    + apply (IH (length (skipn k t))); [rewrite skipn_length; cbn; lia|reflexivity|apply is_string_skip, St|].
      apply no_crlf_skip, (no_crlf_tail c t N).
Qed.

(** ** Decimal numerals *)

Lemma digit_is n : 0 <= n < 10 -> is_digit (digit n) = true.
Proof. intro. unfold is_digit, digit. lia. Qed.
Lemma dec_val_snoc s c : dec_val (s ++ [c]) = 10 * dec_val s + (Z.of_N c - 48).
Proof. unfold dec_val. rewrite fold_left_app. reflexivity. Qed.
Lemma digits_ok fuel : forall n, 0 <= n < 2 ^ Z.of_nat fuel ->
  forallb is_digit (digits fuel n) = true /\ dec_val (digits fuel n) = n /\
  (fuel <> 0%nat -> digits fuel n <> []).
Proof.
  induction fuel as [|f IH]; intros n H. { cbn in *. repeat apply conj; auto. lia. }
  rewrite Nat2Z.inj_succ, Z.pow_succ_r in H by lia. cbn [digits]. rewrite forallb_app, dec_val_snoc.
  cbn [forallb]. rewrite digit_is by lia.
  assert (Ed : Z.of_N (digit (n mod 10)) - 48 = n mod 10) by (unfold digit; lia). rewrite Ed.
  destruct (Z.ltb_spec n 10).
  - cbn. repeat apply conj; auto; try lia. discriminate.
  - destruct (IH (n / 10)) as (H1 & H2 & _); [lia|]. rewrite H1, H2. repeat apply conj; auto; try lia.
    intros _ E. apply app_eq_nil in E. destruct E. discriminate.
Qed.
Lemma dec_ok n : 0 <= n -> is_number (js_dec n) = true /\ dec_val (js_dec n) = n.
Proof.
  intro H. unfold js_dec, fuel_of. assert (n <? 0 = false) as -> by lia.
  destruct (digits_ok (S (Z.to_nat (Z.log2 n))) n) as (H1 & H2 & H3).
  { rewrite Nat2Z.inj_succ, Z2Nat.id by apply Z.log2_nonneg. destruct (Z.eq_dec n 0) as [->|n0]; [cbn; lia|].
    split; [lia|]. apply Z.log2_spec. lia. }
  split; [|exact H2]. unfold is_number. destruct (digits _ n); [elim H3; congruence|exact H1].
Qed.
Lemma dec_is_number n : 0 <= n -> is_number (js_dec n) = true. Proof. intro. apply dec_ok. assumption. Qed.
Lemma dec_dec_val n : 0 <= n -> dec_val (js_dec n) = n. Proof. intro. apply dec_ok. assumption. Qed.
Lemma js_dec_inj a b : 0 <= a -> 0 <= b -> js_dec a = js_dec b -> a = b.
Proof. intros Ha Hb E. rewrite <- (dec_dec_val a Ha), E. apply dec_dec_val, Hb. Qed.
Lemma js_dec_0 n : 0 <= n -> jeq (js_dec n) (J "0") = (n =? 0).
Proof.
  intro H. destruct (jeq_spec (js_dec n) (J "0")) as [E|E].
  - change (J "0") with (js_dec 0) in E. apply js_dec_inj in E; lia.
  - symmetry. apply Z.eqb_neq. intros ->. apply E. reflexivity.
Qed.

(** Characters of numerals. *)
Definition plain_cu (c : cu) : Prop := (48 <= c <= 57 \/ 97 <= c <= 102)%N.
Lemma dec_plain_cu n : 0 <= n -> Forall plain_cu (js_dec n).
Proof.
  intro H. destruct (dec_ok n H) as [E _]. unfold is_number in E. destruct (js_dec n); [discriminate|].
  apply Forall_forall. intros c Hc. rewrite forallb_forall in E. apply E in Hc. unfold is_digit in Hc. left. lia.
Qed.
Lemma hex_plain_cu l : Forall plain_cu (js_hex l).
Proof.
  induction l as [|b l IH]; [constructor|]. cbn [js_hex flat_map app].
  assert (X : forall n, (n < 16)%N -> plain_cu (hex_digit n)).
  { intros n Hn. unfold hex_digit, plain_cu. destruct (N.ltb_spec n 10); lia. }
  pose proof (bz_range b) as Hb. unfold bz in Hb.
  constructor; [|constructor; [|exact IH]]; apply X; lia.
Qed.
Lemma js_hex_len l : length (js_hex l) = (2 * length l)%nat.
Proof. induction l; cbn [js_hex flat_map app length] in *; [reflexivity|]. unfold js_hex in IHl. lia. Qed.

Lemma plain_ascii s : Forall plain_cu s -> ascii (map b8 s) /\ map Byte.to_N (map b8 s) = s.
Proof.
  induction 1 as [|c s H _ [IH1 IH2]]; [split; [constructor|reflexivity]|]. unfold plain_cu in H.
  cbn [map]. rewrite to_b8, IH2 by lia. split; [|reflexivity]. constructor; [rewrite to_b8; lia|exact IH1].
Qed.
Lemma plain_no_cr s : Forall plain_cu s -> Forall (fun b => b <> CR) (map b8 s).
Proof.
  intro H. apply Forall_map. eapply Forall_impl; [|exact H]. intros c Hc. unfold plain_cu in Hc. apply b8_neq; [lia|].
  change (Byte.to_N CR) with 13%N. lia.
Qed.

(** ** Trimming *)

Lemma is_space_plain c : plain_cu c -> is_space c = false.
Proof. unfold plain_cu, is_space. cbn [existsb]. intro. lia. Qed.
Lemma trim_l_hd c t : is_space c = false -> trim_l (c :: t) = c :: t.
Proof. intro H. cbn. rewrite H. reflexivity. Qed.
Lemma trim_r_app a c b : is_space c = false -> trim_r (a ++ c :: b) = a ++ c :: trim_r b.
Proof.
  intro H. unfold trim_r. rewrite rev_app_distr. cbn [rev]. rewrite <- app_assoc.
  assert (X : forall l, trim_l (l ++ [c] ++ rev a) = trim_l l ++ [c] ++ rev a).
  { induction l as [|x l IH]; cbn [app trim_l] in *; [rewrite H; reflexivity|]. destruct (is_space x); [exact IH|reflexivity]. }
  rewrite X, !rev_app_distr, rev_involutive. cbn [rev app]. rewrite <- app_assoc. reflexivity.
Qed.
Lemma trim_r_idem s : trim_r (trim_r s) = trim_r s.
Proof.
  unfold trim_r. rewrite rev_involutive. f_equal.
  induction (rev s) as [|x l IH]; [reflexivity|]. cbn [trim_l]. destruct (is_space x) eqn:E; [exact IH|].
  cbn [trim_l]. rewrite E. reflexivity.
Qed.
Lemma trim_r_nil : trim_r [] = []. Proof. reflexivity. Qed.
Lemma trim_r_last s : (forall a c, s = a ++ [c] -> is_space c = false) -> trim_r s = s.
Proof.
  destruct s as [|c s] using rev_ind; [reflexivity|]. intro H.
  rewrite trim_r_app by (apply (H s c); reflexivity). reflexivity.
Qed.
Lemma trim_r_plain s : Forall plain_cu s -> trim_r s = s.
Proof.
  intro H. apply trim_r_last. intros a c ->. apply Forall_app in H. destruct H as [_ H]. inversion H. apply is_space_plain. assumption.
Qed.

(** ** Searching in strings *)

Definition no_space (s : jstr) : Prop := Forall (fun c => c <> 32%N) s.
Lemma cut_space_app a b : no_space a -> cut_space (a ++ 32%N :: b) = (a, Some b).
Proof.
  induction 1 as [|c a H _ IH]; [reflexivity|]. cbn [app cut_space]. rewrite IH, (proj2 (N.eqb_neq _ _) H). reflexivity.
Qed.
Lemma cut_space_all a : no_space a -> cut_space a = (a, None).
Proof. induction 1 as [|c a H _ IH]; [reflexivity|]. cbn [cut_space]. rewrite IH, (proj2 (N.eqb_neq _ _) H). reflexivity. Qed.
Lemma plain_no_space s : Forall plain_cu s -> no_space s.
Proof. intro H. eapply Forall_impl; [|exact H]. unfold plain_cu. intros c Hc. lia. Qed.
