(** When feeding a message in pieces gives the text of the whole message, exactly; and
    when minSize is a lower bound, exactly. *)
From Verif Require Import Base BaseLemmas EncSpec EncProofs EncEnd EncSize EncNode EncNodeSpec EncNodeProofs PropsEncLemmas.
From Coq Require Import ZifyBool ZifyNat ZifyN.
Ltac Zify.zify_post_hook ::= Z.div_mod_to_equations.

Lemma enc_char_head f l c : exists b t, enc_char f l c = b :: t /\ b <> CR.
Proof.
  unfold enc_char. destruct (must_escape f l c) eqn:E; [exists EQS; eexists; split; [reflexivity|discriminate]|].
  exists (shifted c), []. split; [reflexivity|]. intro H. unfold must_escape in E. rewrite H in E. discriminate E.
Qed.

Lemma ret_col_le L : 2 <= L -> forall d col, 0 <= col <= L + 1 -> d <> [] -> 0 <= ret_col L false col d <= L.
Proof.
  intro HL. induction d as [|c t IH]; intros col Hc Hd; [congruence|]. cbn [ret_col andb]. destruct (L <=? col) eqn:E.
  - pose proof (enc_char_len true false c). destruct t as [|c2 t]; [cbn [ret_col]; lia|]. apply IH; [lia|discriminate].
  - rewrite orb_false_r. pose proof (enc_char_len (col =? 0) (col =? L - 1) c).
    destruct t as [|c2 t].
    + destruct ((col =? L - 1) && negb (col =? 0) && true) eqn:F; [lia|]. cbn [ret_col]. lia.
    + rewrite andb_false_r. apply IH; [lia|discriminate].
Qed.

Definition no_full_line (L col : Z) (chunks : list (list byte)) : Prop :=
  forall a b, chunks = a ++ b -> concat b <> [] -> yenc_col L false col (concat a) < L.

Section Chain.
Variables (e : encoder) (L : Z).
Hypothesis (E : meets_spec e) (HL : 2 <= L <= INT_MAX - 6).

Lemma args_ok col : 0 <= col < L -> args_give [L; col] L col.
Proof.
  intro Hc. unfold args_give, enc_args. cbv zeta. unfold INT_MAX in *. rewrite !to_int32_id by (unfold INT_MIN, INT_MAX; lia).
  destruct (L =? 0) eqn:F1; [lia|]. destruct (L <? 0) eqn:F2; [lia|].
  destruct ((L <? col) || (col <? 0)) eqn:F3; [lia|]. destruct (col =? L) eqn:F4; [lia|]. reflexivity.
Qed.

Lemma args_full : enc_args [L; L] = enc_args [L; 0].
Proof.
  unfold enc_args. cbv zeta. unfold INT_MAX in *. rewrite !to_int32_id by (unfold INT_MIN, INT_MAX; lia).
  replace (L =? 0) with false by lia. replace (L <? 0) with false by lia. replace (L <? L) with false by lia.
  replace (L =? L) with true by lia. replace (0 =? L) with false by lia. reflexivity.
Qed.

(** A full line given as the column is the start of a line. *)
Lemma chain_full chunks o : incr_chain e L 0 chunks o -> incr_chain e L L chunks o.
Proof.
  intro H. inversion H; subst; [constructor|]. econstructor; [|eassumption].
  intros malloc src m Hm Hf. specialize (H0 malloc src m Hm Hf). unfold node_encode_incr, node_encode_incr_in in *. rewrite args_full. exact H0.
Qed.

Lemma chain_exact chunks : forall col, 0 <= col < L -> zlen (concat chunks) < 2 ^ 53 ->
  exists o, incr_chain e L col chunks o /\ (forall t, o <> CR :: t) /\
    (concat chunks = [] -> o = []) /\
    (o = yenc L false col (concat chunks) <-> no_full_line L col chunks).
Proof.
  induction chunks as [|d ds IH]; intros col Hc Hn.
  { exists []. split; [constructor|]. split; [discriminate|]. split; [reflexivity|]. split; [|reflexivity]. intros _ a b Hab Hb.
    symmetry in Hab. apply app_eq_nil in Hab. destruct Hab as [-> ->]. contradiction Hb. reflexivity. }
  cbn [concat] in Hn. rewrite zlen_app in Hn. pose proof (zlen_nonneg d). pose proof (zlen_nonneg (concat ds)).
  assert (SPLIT : no_full_line L col (d :: ds) <-> (concat ds <> [] -> yenc_col L false col d < L) /\ no_full_line L (yenc_col L false col d) ds).
  { split.
    - intro N. split.
      + intro Hb. specialize (N [d] ds eq_refl Hb). cbn [concat] in N. rewrite app_nil_r in N. exact N.
      + intros a b -> Hb. specialize (N (d :: a) b eq_refl Hb). cbn [concat] in N. rewrite yenc_col_app in N. exact N.
    - intros [N1 N2] a b Hab Hb. destruct a as [|d' a].
      + cbn. lia.
      + injection Hab as <- ->. cbn [concat]. rewrite yenc_col_app. apply (N2 a b eq_refl Hb). }
  destruct d as [|c0 d0].
  - destruct (IH col Hc ltac:(lia)) as (o & C & NC & Z & X). exists ([] ++ o). split.
    { econstructor; [|exact C]. intros malloc src m _ _. unfold node_encode_incr, node_encode_incr_in. rewrite (args_ok col Hc). reflexivity. }
    cbn [app concat]. split; [exact NC|]. split; [exact Z|]. rewrite X, SPLIT. cbn [yenc_col]. intuition lia.
  - assert (Hd : c0 :: d0 <> []) by discriminate. set (d := c0 :: d0) in *.
    pose proof (ret_col_le L ltac:(lia) d col ltac:(lia) Hd) as RC.
    set (c1 := if ret_col L false col d =? L then 0 else ret_col L false col d).
    assert (C1 : 0 <= c1 < L) by (subst c1; destruct (_ =? L) eqn:F; lia).
    destruct (IH c1 C1 ltac:(lia)) as (o & C & NC & Z & X). exists (yenc L false col d ++ o). split.
    { econstructor.
      - apply encodeIncr_spec; [exact E|exact Hd|apply args_ok, Hc|]. split; [lia|left; lia].
      - subst c1. destruct (_ =? L) eqn:F; [|exact C]. apply Z.eqb_eq in F. rewrite F. apply chain_full, C. }
    split.
    { intros t. subst d. rewrite yenc_cons. destruct (L <=? col) eqn:F; [lia|]. cbv zeta.
      match goal with |- context [enc_char ?f ?l c0] => destruct (enc_char_head f l c0) as (b & u & -> & Hb) end.
      cbn [app]. congruence. }
    cbn [concat]. split; [intro F; apply app_eq_nil in F; destruct F; contradiction|].
    rewrite SPLIT, yenc_app.
    destruct (Z_lt_ge_dec (yenc_col L false col d) L) as [Y|Y].
    + assert (R : c1 = yenc_col L false col d).
      { pose proof (ret_col_true L false col d ltac:(lia) ltac:(lia)) as RT. subst c1. destruct (_ =? L) eqn:F; lia. }
      rewrite R in X. split.
      * intro F. apply app_inv_head in F. split; [auto|]. apply X, F.
      * intros [_ N]. f_equal. apply X, N.
    + destruct (concat ds) as [|c2 r] eqn:Ec.
      * rewrite (Z eq_refl). cbn [yenc]. split; [|reflexivity]. intros _. split; [congruence|].
        intros a b -> Hb. rewrite concat_app in Ec. apply app_eq_nil in Ec. destruct Ec. contradiction.
      * split; [|intros [N _]; specialize (N ltac:(discriminate)); lia].
        intro F. apply app_inv_head in F. rewrite yenc_cons in F. destruct (L <=? _) eqn:G; [|lia]. cbv zeta in F.
        contradiction (NC _ F).
Qed.
End Chain.

(** ** minSize *)

Lemma yenc_zeros L n : 1 <= L -> forall col, 0 <= col <= L -> (1 <= n)%nat ->
  zlen (yenc L true col (repeat x00 n)) = Z.of_nat n + 2 * ((col + Z.of_nat n - 1) / L).
Proof.
  intro HL. induction n as [|n IH]; intros col Hc Hn; [lia|]. cbn [repeat]. rewrite yenc_cons. cbv zeta.
  assert (P : forall f l, enc_char f l x00 = [x2a]) by (intros [] []; reflexivity).
  rewrite !P. change (zlen [x2a]) with 1.
  assert (S : forall c, 0 <= c <= L -> zlen (yenc L true c (repeat x00 n)) = Z.of_nat n + if (n =? 0)%nat then 0 else 2 * ((c + Z.of_nat n - 1) / L)).
  { intros c Hc'. destruct n as [|n']; [reflexivity|]. rewrite IH by lia. reflexivity. }
  destruct (L <=? col) eqn:F.
  - rewrite !zlen_cons, zlen_app. change (zlen [x2a]) with 1. rewrite S by lia. assert (col = L) by lia. subst col. clear F.
    replace (L + Z.of_nat (Datatypes.S n) - 1) with (Z.of_nat n + 1 * L) by lia. rewrite Z.div_add by lia.
    replace (1 + Z.of_nat n - 1) with (Z.of_nat n) by lia. destruct (n =? 0)%nat eqn:G; [|lia].
    replace n with 0%nat by lia. cbn [Z.of_nat]. rewrite Z.div_0_l by lia. lia.
  - rewrite zlen_app. change (zlen [x2a]) with 1. rewrite S by lia.
    replace (col + Z.of_nat (Datatypes.S n) - 1) with (col + 1 + Z.of_nat n - 1) by lia. destruct (n =? 0)%nat eqn:G; [|lia].
    replace n with 0%nat by lia. cbn [Z.of_nat]. rewrite Z.div_small by lia. lia.
Qed.

Lemma minSize_short L n : 1 <= L -> (1 <= n)%nat -> Z.of_nat n mod L = 0 -> zlen (yenc L true 0 (repeat x00 n)) < js_minSize (Z.of_nat n) L.
Proof.
  intros HL Hn Hm. rewrite yenc_zeros by lia. unfold js_minSize. destruct (Z.of_nat n =? 0) eqn:F; [lia|]. destruct (L =? 0) eqn:G; [lia|].
  pose proof (Z.div_mod (Z.of_nat n) L ltac:(lia)) as D. rewrite Hm in D.
  assert ((0 + Z.of_nat n - 1) / L < Z.of_nat n / L); [|lia]. apply Z.div_lt_upper_bound; lia.
Qed.

(** ** What encode returns is determined. *)

Lemma encode_det e data args o1 o2 : encode_returns e data args o1 -> encode_returns e data args o2 -> o1 = o2.
Proof.
  intros H1 H2.
  pose proof (bytes_at_mem_of 0 data) as Hm.
  assert (Hf : fresh_malloc (fun _ => zlen data) 0 (zlen data)) by (intros n Hn; left; lia).
  pose proof (H1 _ 0 _ Hm Hf) as A. pose proof (H2 _ 0 _ Hm Hf) as B. congruence.
Qed.

Lemma minSize_exact e L n : meets_spec e -> 1 <= L <= INT_MAX - 6 -> 1 <= n < 2 ^ 53 ->
  ((forall data o, zlen data = n -> encode_returns e data [L] o -> js_minSize n L <= zlen o) <-> n mod L <> 0).
Proof.
  intros E HL Hn.
  assert (A : args_give [L] L 0).
  { unfold args_give, enc_args. cbv zeta. unfold INT_MAX in *. rewrite !to_int32_id by (unfold INT_MIN, INT_MAX; lia).
    replace (L =? 0) with false by lia. replace (L <? 0) with false by lia. reflexivity. }
  split.
  - intros H Z. assert (N : zlen (repeat x00 (Z.to_nat n)) = n) by (unfold zlen; rewrite repeat_length; lia).
    specialize (H _ (yenc L true 0 (repeat x00 (Z.to_nat n))) N).
    pose proof (minSize_short L (Z.to_nat n) ltac:(lia) ltac:(lia)) as S. rewrite Z2Nat.id in S by lia. specialize (S Z).
    enough (js_minSize n L <= zlen (yenc L true 0 (repeat x00 (Z.to_nat n)))) by lia. apply H.
    apply (encode_spec e E _ _ L 0); [|exact A|split; [lia|left; lia]]. destruct (Z.to_nat n) eqn:F; [lia|discriminate].
  - intros Z data o Hd H. assert (D : data <> []) by (intros ->; unfold zlen in Hd; cbn in Hd; lia).
    rewrite (encode_det e data [L] o (yenc L true 0 data) H).
    + rewrite <- Hd. apply minSize_bound; auto; [lia|rewrite Hd; exact Z].
    + apply (encode_spec e E _ _ L 0); [exact D|exact A|split; [lia|left; lia]].
Qed.

Lemma int32_exact z : 0 <= z -> (to_int32 z = z <-> z < 2 ^ 31).
Proof.
  intro H. split.
  - intro E. pose proof (to_int32_range z) as R. unfold INT_MIN, INT_MAX in R. lia.
  - intro L. apply to_int32_id. unfold INT_MIN, INT_MAX. lia.
Qed.
