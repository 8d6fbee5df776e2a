(** Bounds on the size of encoded text. *)
From Verif Require Import Base BaseLemmas EncSpec EncProofs EncEnd EncNode.
From Coq Require Import ZifyBool ZifyNat ZifyN.
Ltac Zify.zify_post_hook ::= Z.div_mod_to_equations.

(** Number of line breaks. *)
Fixpoint breaks (L : Z) (fin : bool) (col : Z) (data : list byte) : Z :=
  match data with
  | [] => 0
  | c :: t =>
    if L <=? col then 1 + breaks L fin (zlen (enc_char true false c)) t
    else breaks L fin
        (col + zlen (enc_char (col =? 0)
           ((col =? L - 1) || (fin && match t with [] => true | _ => false end)) c)) t
  end.

Lemma yenc_len_breaks L fin col data :
  zlen data + 2 * breaks L fin col data <= zlen (yenc L fin col data)
    <= 2 * zlen data + 2 * breaks L fin col data.
Proof.
  revert col; induction data as [|c t IH]; intro col; [cbv; split; congruence|].
  rewrite yenc_cons. cbn [breaks]. cbv zeta. rewrite zlen_cons. destruct (L <=? col).
  - rewrite !zlen_cons, zlen_app. pose proof (enc_char_len true false c).
    specialize (IH (zlen (enc_char true false c))). lia.
  - rewrite zlen_app. match goal with |- context [enc_char ?f ?g c] =>
      pose proof (enc_char_len f g c); specialize (IH (col + zlen (enc_char f g c))) end. lia.
Qed.

Lemma breaks_upper L fin col data :
  1 <= L -> 0 <= col ->
  0 <= breaks L fin col data /\ breaks L fin col data * L <= col + 2 * zlen data.
Proof.
  intro HL. revert col; induction data as [|c t IH]; intros col Hc.
  { cbn [breaks]. change (zlen (@nil byte)) with 0. lia. }
  cbn [breaks]. rewrite zlen_cons. destruct (L <=? col) eqn:E.
  - pose proof (enc_char_len true false c).
    specialize (IH (zlen (enc_char true false c)) ltac:(lia)). rewrite Z.mul_add_distr_r. lia.
  - match goal with |- context [enc_char ?f ?g c] =>
      pose proof (enc_char_len f g c); specialize (IH (col + zlen (enc_char f g c)) ltac:(lia)) end. lia.
Qed.

(** A line holds at most [L] characters. *)
Lemma breaks_lower L fin col data :
  1 <= L -> 0 <= col -> 0 <= breaks L fin col data /\
  (data <> [] -> (breaks L fin col data + 1) * L >= Z.min col L + zlen data).
Proof.
  intro HL. revert col; induction data as [|c t IH]; intros col Hc; [split; [reflexivity|congruence]|].
  cbn [breaks]. rewrite zlen_cons. destruct (L <=? col) eqn:E.
  - pose proof (enc_char_len true false c).
    destruct (IH (zlen (enc_char true false c)) ltac:(lia)) as [H1 H2]. split; [lia|]. intros _.
    destruct t as [|c2 t]; [cbn [breaks]; change (zlen (@nil byte)) with 0; lia|].
    specialize (H2 ltac:(discriminate)). pose proof (zlen_nonneg (c2 :: t)). nia.
  - match goal with |- context [enc_char ?f ?g c] =>
      pose proof (enc_char_len f g c); destruct (IH (col + zlen (enc_char f g c)) ltac:(lia)) as [H1 H2] end.
    split; [lia|]. intros _.
    destruct t as [|c2 t]; [cbn [breaks]; change (zlen (@nil byte)) with 0; lia|].
    specialize (H2 ltac:(discriminate)). lia.
Qed.

Lemma YENC_MAX_SIZE_eq len L :
  0 <= len < 2 ^ 53 -> 1 <= L ->
  YENC_MAX_SIZE len L = 2 * len + 2 * (2 * len / L) + 66.
Proof.
  intros Hl HL. unfold max_size, u64. cbv zeta.
  assert (H0 : 0 <= 2 * len / L <= 2 * len).
  { split; [apply Z.div_pos; lia|]. apply Z.div_le_upper_bound; nia. }
  rewrite (Z.mod_small (len * 2)) by lia.
  destruct (L =? 128) eqn:E.
  - assert (L = 128) by lia. subst L.
    rewrite (Z.mod_small (_ + 2 + 64)) by lia. rewrite Z.mod_small by lia. lia.
  - replace (len * 2) with (2 * len) by lia.
    rewrite (Z.mod_small (_ + 2 + 64)) by lia. rewrite Z.mod_small by lia. lia.
Qed.

Lemma yenc_max L fin col data :
  1 <= L -> 0 <= col < L -> zlen data < 2 ^ 53 ->
  zlen (yenc L fin col data) + 64 <= YENC_MAX_SIZE (zlen data) L.
Proof.
  intros HL Hc Hn. pose proof (zlen_nonneg data).
  rewrite YENC_MAX_SIZE_eq by lia.
  pose proof (yenc_len_breaks L fin col data) as [_ H1].
  destruct (breaks_upper L fin col data HL ltac:(lia)) as [H2 H3].
  assert (breaks L fin col data <= 1 + 2 * zlen data / L); [|lia].
  set (b := breaks L fin col data) in *.
  assert (2 * zlen data / L + 1 > b - 1); [|lia].
  pose proof (Z.div_mod (2 * zlen data) L ltac:(lia)) as D.
  pose proof (Z.mod_pos_bound (2 * zlen data) L ltac:(lia)). nia.
Qed.

Lemma yenc_min L fin col data :
  1 <= L -> 0 <= col < L -> data <> [] ->
  zlen data + 2 * ((col + zlen data - 1) / L) <= zlen (yenc L fin col data).
Proof.
  intros HL Hc Hd. pose proof (yenc_len_breaks L fin col data) as [H1 _].
  destruct (breaks_lower L fin col data HL ltac:(lia)) as [H2 H3]. specialize (H3 Hd).
  set (b := breaks L fin col data) in *.
  assert ((col + zlen data - 1) / L <= b); [|lia].
  assert ((col + zlen data - 1) / L < b + 1); [|lia].
  apply Z.div_lt_upper_bound; nia.
Qed.
