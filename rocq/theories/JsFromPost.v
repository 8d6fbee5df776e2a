(** from_post on the posts created by YEncoder. *)
From Verif Require Import Base BaseLemmas EncSpec EncShape DecSpec DecText PropsEncLemmas CrcSpec CrcNodeSpec CrcNodeProofs JsBase JsModel JsSpec JsStrings JsParse JsEncoder.
From Coq Require Import ZifyBool ZifyNat ZifyN.
From Coq Require Strings.String.
Import String.StringSyntax.
Open Scope Z_scope.
Ltac Zify.zify_post_hook ::= Z.div_mod_to_equations.

Definition line_of (h : list byte) : jstr := trim (utf8_dec h).
Definition with_nl (hs : list (list byte)) : list byte := concat (map (fun h => h ++ [CR; LF]) hs).

Definition starts_eqy (l : list byte) : Prop := exists t, l = EQS :: YY :: t.
Definition is_end (h : list byte) : bool := jeq (firstn 6 (line_of h)) (J "=yend ").

Lemma nl_head s0 : s0 = CR -> Forall (fun c : byte => c <> s0) [LF].
Proof. intros ->. constructor; [discriminate|constructor]. Qed.

Lemma beq_sym a b : beq a b = beq b a.
Proof. destruct (beq_spec a b) as [->|n]; [symmetry; apply beq_refl|]. symmetry. apply beq_false. congruence. Qed.

Lemma peek (x b : list byte) : 
  match nth_error (x ++ b) (Z.to_nat (zlen x)), nth_error (x ++ b) (Z.to_nat (zlen x + 1)) with
  | Some a, Some c => negb (beq a EQS) || negb (beq c YY)
  | _, _ => true
  end = negb (is_prefix [EQS; YY] b).
Proof.
  unfold zlen. replace (Z.to_nat (Z.of_nat (length x) + 1)) with (length x + 1)%nat by lia. rewrite Nat2Z.id.
  rewrite !nth_error_app2 by lia. rewrite Nat.sub_diag. replace (length x + 1 - length x)%nat with 1%nat by lia.
  destruct b as [|a [|c b]]; cbn; try reflexivity.
  - rewrite andb_false_r. reflexivity.
  - rewrite andb_true_r. rewrite (beq_sym a EQS), (beq_sym c YY). symmetry. apply negb_andb.
Qed.

Lemma start_lines_ok hs : forall pre h body fuel ls, (length hs < fuel)%nat -> 0 < zlen pre + zlen h ->
  Forall (fun h => is_end h = false) (h :: hs) -> Forall (fun h => no_nl h /\ starts_eqy h) hs ->
  is_prefix [EQS; YY] body = false ->
  start_lines fuel (pre ++ h ++ [CR; LF] ++ with_nl hs ++ body) (zlen pre) (zlen pre + zlen h) ls =
    (ls ++ map line_of (h :: hs), Some (zlen (pre ++ with_nl (h :: hs))), None).
Proof.
  induction hs as [|h' hs IH]; intros pre h body [|fuel] ls Hf Hp He Hq Hb; try (cbn [length] in Hf; lia).
  - cbn [start_lines]. assert (0 <? zlen pre + zlen h = true) as -> by lia.
    rewrite slice_mid. fold (line_of h). inversion He as [|? ? E1 _]; subst. unfold is_end in E1. rewrite E1.
    cbn [with_nl map concat app].
    replace (zlen pre + zlen h + 2) with (zlen (pre ++ h ++ [CR; LF])) by (rewrite !zlen_app; change (zlen [CR; LF]) with 2; lia).
    replace (pre ++ h ++ CR :: LF :: body) with ((pre ++ h ++ [CR; LF]) ++ body) by (rewrite <- !app_assoc; reflexivity).
    rewrite peek, Hb. cbn [negb]. rewrite app_nil_r. reflexivity.
  - cbn [start_lines]. assert (0 <? zlen pre + zlen h = true) as -> by lia.
    rewrite slice_mid. fold (line_of h). inversion He as [|? ? E1 E2]; subst. unfold is_end in E1. rewrite E1.
    inversion Hq as [|? ? [N1 Q1] Q2]; subst. destruct Q1 as [t Et].
    replace (zlen pre + zlen h + 2) with (zlen (pre ++ h ++ [CR; LF])) by (rewrite !zlen_app; change (zlen [CR; LF]) with 2; lia).
    assert (Ed : pre ++ h ++ [CR; LF] ++ with_nl (h' :: hs) ++ body = (pre ++ h ++ [CR; LF]) ++ h' ++ [CR; LF] ++ with_nl hs ++ body).
    { unfold with_nl. cbn [map concat]. rewrite <- !app_assoc. reflexivity. }
    rewrite Ed, peek. assert (Ep : is_prefix [EQS; YY] (h' ++ [CR; LF] ++ with_nl hs ++ body) = true) by (rewrite Et; reflexivity).
    rewrite Ep. cbn [negb].
    rewrite (bufferFind_first CR [LF]) by (first [apply nl_head; reflexivity|apply no_nl_occurs; exact N1]).
    rewrite IH; [|cbn [length] in Hf; lia|rewrite Et, !zlen_cons; pose proof (zlen_nonneg (pre ++ h ++ [CR; LF])); pose proof (zlen_nonneg t); lia|exact E2|exact Q2|exact Hb].
    rewrite <- app_assoc. f_equal. f_equal. f_equal. unfold with_nl. cbn [map concat]. rewrite <- !app_assoc. reflexivity.
Qed.

Definition tail_warn (fin : list byte) : warnings := match fin with [] => [J "missing_yend_newline"] | _ => [] end.

Lemma mark_head : Forall (fun c => c <> CR) (LF :: Bf "=ybegin ").
Proof. repeat constructor; discriminate. Qed.

Lemma yenc_start_ok pre rest : front_ok pre -> yenc_start (pre ++ Bf "=ybegin " ++ rest) = Some (zlen pre).
Proof.
  intros [->|(x & -> & Ho & Hs)]; unfold yenc_start.
  - cbn [app]. rewrite is_prefix_app. reflexivity.
  - assert (is_prefix (Bf "=ybegin ") ((x ++ [CR; LF]) ++ Bf "=ybegin " ++ rest) = false) as ->.
    { apply not_true_is_false. intro P. apply Hs.
      (* no CR in the mark: it must lie within the front, or overlap its end *)
      assert (X : is_prefix (Bf "=ybegin ") x = true).
      { rewrite <- app_assoc in P. apply (no_overlap_gen CR [LF] (Bf "=ybegin ") x (Bf "=ybegin " ++ rest)); [repeat constructor; discriminate|exact P]. }
      apply is_prefix_iff in X. destruct X as [r ->]. exists (r ++ [CR; LF]). rewrite app_assoc. reflexivity. }
    rewrite <- app_assoc. change ([CR; LF] ++ Bf "=ybegin " ++ rest) with ((CR :: (LF :: Bf "=ybegin ")) ++ rest).
    pose proof (bufferFind_first CR (LF :: Bf "=ybegin ") [] x rest mark_head) as F. cbn [app] in F. change (zlen (@nil byte)) with 0 in F.
    change ([CR; LF] ++ Bf "=ybegin ") with (CR :: LF :: Bf "=ybegin ") at 1. cbn [app] in *. rewrite F.
    + pose proof (zlen_nonneg x). assert (0 + zlen x <? 0 = false) as -> by lia. rewrite zlen_app. change (zlen [CR; LF]) with 2. f_equal.
    + intros (a & b & ->). apply Ho. exists a, (b ++ [CR; LF]). unfold ybegin_mark. rewrite <- !app_assoc. reflexivity.
Qed.

Definition d0 : ydata := {| y_own := []; y_proto := None |}.

Lemma nl_yend_cons r : [CR; LF] ++ Bf "=yend " ++ r = yend_mark ++ r.
Proof. unfold yend_mark. rewrite <- app_assoc. reflexivity. Qed.

Lemma tail_no_mark t fin : Forall (fun b => b <> CR) t -> tail_ok fin -> ~ occurs yend_mark ((LF :: Bf "=yend ") ++ t ++ fin).
Proof.
  intros Ht Hf O. rewrite app_assoc in O.
  apply (occurs_no_head CR (LF :: Bf "=yend ")) in O; [|apply Forall_app; split; [repeat constructor; discriminate|exact Ht]].
  destruct Hf as [->|[_ Hf]]; [|exact (Hf O)]. apply occurs_len in O. vm_compute in O. apply O. reflexivity.
Qed.

Lemma start_ok pre h2 hs body : no_nl h2 ->
  Forall (fun h => is_end h = false) ((Bf "=ybegin " ++ h2) :: hs) -> Forall (fun h => no_nl h /\ starts_eqy h) hs ->
  is_prefix [EQS; YY] body = false ->
  let data := pre ++ (Bf "=ybegin " ++ h2) ++ [CR; LF] ++ with_nl hs ++ body in
  start_lines (S (length data)) data (zlen pre) (bufferFind data [CR; LF] (zlen pre + 8)) [] =
    (map line_of ((Bf "=ybegin " ++ h2) :: hs), Some (zlen (pre ++ with_nl ((Bf "=ybegin " ++ h2) :: hs))), None).
Proof.
  intros Nh He Hq Hb. cbv zeta.
  assert (P1 : bufferFind (pre ++ (Bf "=ybegin " ++ h2) ++ [CR; LF] ++ with_nl hs ++ body) [CR; LF] (zlen pre + 8) =
               zlen pre + zlen (Bf "=ybegin " ++ h2)).
  { pose proof (bufferFind_first CR [LF] (pre ++ Bf "=ybegin ") h2 (with_nl hs ++ body) (nl_head CR eq_refl)) as F.
    rewrite !zlen_app in F. change (zlen (Bf "=ybegin ")) with 8 in F. rewrite <- !app_assoc in F.
    rewrite zlen_app. change (zlen (Bf "=ybegin ")) with 8. rewrite <- !app_assoc.
    rewrite F; [lia|]. apply no_nl_occurs. exact Nh. }
  rewrite P1. rewrite start_lines_ok; [reflexivity| | | exact He|exact Hq|exact Hb].
  - rewrite !app_length. assert (length hs <= length (with_nl hs))%nat; [|cbn [length]; lia].
    clear. induction hs as [|x hs IH]; [apply Nat.le_0_l|]. unfold with_nl in *. cbn [map concat]. rewrite !app_length. cbn [length]. lia.
  - rewrite zlen_app. change (zlen (Bf "=ybegin ")) with 8. pose proof (zlen_nonneg pre). pose proof (zlen_nonneg h2). lia.
Qed.

Lemma from_post_ok Y A pre h2 hs text t fin isRaw d1 d2 w2 dat crc w3 :
  let h := Bf "=ybegin " ++ h2 in
  let data := pre ++ h ++ [CR; LF] ++ with_nl hs ++ text ++ yend_mark ++ t ++ fin in
  front_ok pre -> no_nl h2 ->
  Forall (fun h => is_end h = false) (h :: hs) -> Forall (fun h => no_nl h /\ starts_eqy h) hs ->
  is_prefix [EQS; YY] (text ++ [CR]) = false ->
  Forall (fun b => b <> CR) t -> tail_ok fin ->
  decoderParseLines (map line_of (h :: hs)) d0 = (d1, []) ->
  decoderParseLines [line_of (Bf "=yend " ++ t)] d1 = (d2, []) ->
  check_props A d2 = Val (Some w2) ->
  check_data Y A d2 (Some text) isRaw = Val (Some dat, Some crc, w3) ->
  exists p, from_post Y A data isRaw = Val (inr p) /\ p_yencStart p = zlen pre /\
    p_dataStart p = Some (zlen (pre ++ with_nl (h :: hs))) /\
    p_dataEnd p = Some (zlen (pre ++ with_nl (h :: hs)) + zlen text) /\
    p_yencEnd p = zlen (pre ++ with_nl (h :: hs)) + zlen text + 8 + zlen t + (match fin with [] => 0 | _ => 2 end) /\
    p_props p = d2 /\ p_data p = Some dat /\ p_crc32 p = Some crc /\
    p_warnings p = tail_warn fin ++ w2 ++ w3.
Proof.
  intros h data Hpre Nh He Hq Hb Ht Hf Hd1 Hd2 Hc Hk.
  unfold from_post.
  assert (E0 : yenc_start data = Some (zlen pre)).
  { unfold data, h. rewrite <- app_assoc. apply yenc_start_ok. exact Hpre. }
  rewrite E0.
  assert (Hb' : is_prefix [EQS; YY] (text ++ yend_mark ++ t ++ fin) = false).
  { destruct text as [|a [|b text]]; cbn in *; try reflexivity; try rewrite andb_false_r in *; auto. }
  pose proof (start_ok pre h2 hs (text ++ yend_mark ++ t ++ fin) Nh He Hq Hb') as S. fold h in S. fold data in S. cbv zeta in S.
  rewrite S. clear S.
  set (X := pre ++ with_nl (h :: hs)).
  assert (EX : data = X ++ text ++ yend_mark ++ t ++ fin).
  { unfold data, X, with_nl. cbn [map concat]. rewrite <- !app_assoc. reflexivity. }
  assert (HX : 0 < zlen X).
  { unfold X, with_nl. cbn [map concat]. rewrite !zlen_app. change (zlen [CR; LF]) with 2.
    pose proof (zlen_nonneg pre). pose proof (zlen_nonneg h). pose proof (zlen_nonneg (concat (map (fun h => h ++ [CR; LF]) hs))). lia. }
  cbn [nonzero]. assert (negb (zlen X =? 0) = true) as -> by lia. cbn [negb andb].
  fold d0. rewrite Hd1.
  rewrite EX. rewrite skipn_zlen.
  change ([CR; LF] ++ Bf "=yend ") with yend_mark.
  pose proof (bufferFindRev_last CR (LF :: Bf "=yend ") text (t ++ fin) (tail_no_mark t fin Ht Hf)) as ER.
  change (CR :: LF :: Bf "=yend ") with yend_mark in ER. rewrite ER. clear ER.
  pose proof (zlen_nonneg text). assert (zlen text <? 0 = false) as -> by lia.
  replace (zlen text + zlen X) with (zlen X + zlen text) by lia.
  assert (E8 : zlen X + zlen text + 8 = zlen (X ++ text ++ yend_mark)).
  { rewrite !zlen_app. change (zlen yend_mark) with 8. lia. }
  assert (Esl : forall r, slice (X ++ text ++ yend_mark ++ t ++ r) (zlen X + zlen text + 2) (zlen X + zlen text + 8 + zlen t) = Bf "=yend " ++ t).
  { intro r. replace (X ++ text ++ yend_mark ++ t ++ r) with ((X ++ text ++ [CR; LF]) ++ (Bf "=yend " ++ t) ++ r)
      by (unfold yend_mark; rewrite <- !app_assoc; reflexivity).
    replace (zlen X + zlen text + 2) with (zlen (X ++ text ++ [CR; LF])) by (rewrite !zlen_app; change (zlen [CR; LF]) with 2; lia).
    replace (zlen X + zlen text + 8 + zlen t) with (zlen (X ++ text ++ [CR; LF]) + zlen (Bf "=yend " ++ t))
      by (rewrite !zlen_app; change (zlen [CR; LF]) with 2; change (zlen (Bf "=yend ")) with 6; lia).
    apply slice_mid. }
  assert (Nt : no_nl t) by (rewrite <- (app_nil_r t); apply no_nl_app; [exact Ht|exact no_nl_nil]).
  assert (Hbody : slice (X ++ text ++ yend_mark ++ t ++ fin) (zlen X) (zlen X + zlen text) = text) by apply slice_mid.
  destruct Hf as [->|[[ft ->] Hft]].
  - rewrite app_nil_r in *.
    assert (EF : bufferFind (X ++ text ++ yend_mark ++ t) [CR; LF] (zlen X + zlen text + 8) = -1).
    { rewrite E8. replace (X ++ text ++ yend_mark ++ t) with ((X ++ text ++ yend_mark) ++ t) by (rewrite <- !app_assoc; reflexivity).
      apply bufferFind_none; [discriminate|apply no_nl_occurs; exact Nt]. }
    rewrite EF. cbn [Z.ltb Z.compare].
    assert (EZ : zlen (X ++ text ++ yend_mark ++ t) = zlen X + zlen text + 8 + zlen t).
    { rewrite !zlen_app. change (zlen yend_mark) with 8. lia. }
    rewrite EZ. pose proof (Esl []) as Es. rewrite app_nil_r in Es. rewrite Es. fold (line_of (Bf "=yend " ++ t)). rewrite Hd2.
    rewrite Hc. cbn [jbind]. rewrite Hbody, Hk. cbn [jbind].
    eexists. split; [reflexivity|]. cbn. rewrite Z.add_0_r. auto 10.
  - assert (EF : bufferFind (X ++ text ++ yend_mark ++ t ++ [CR; LF] ++ ft) [CR; LF] (zlen X + zlen text + 8) = zlen X + zlen text + 8 + zlen t).
    { rewrite E8. replace (X ++ text ++ yend_mark ++ t ++ [CR; LF] ++ ft) with ((X ++ text ++ yend_mark) ++ t ++ [CR; LF] ++ ft) by (rewrite <- !app_assoc; reflexivity).
      apply (bufferFind_first CR [LF]); [apply nl_head; reflexivity|apply no_nl_occurs; exact Nt]. }
    rewrite EF. pose proof (zlen_nonneg t). assert (zlen X + zlen text + 8 + zlen t <? 0 = false) as -> by lia.
    rewrite Esl. fold (line_of (Bf "=yend " ++ t)). rewrite Hd2.
    rewrite Hc. cbn [jbind]. rewrite Hbody, Hk. cbn [jbind].
    eexists. split; [reflexivity|]. cbn. auto 10.
Qed.
