(** The SIMD front-end as a whole, for any kernel meeting its contract. *)
From Verif Require Import Base BaseLemmas Frame EncSpec DecSpec DecModel DecProofs DecEndProofs DecText DecNode DecNodeProofs
  PropsDecLemmas DecGrow DecSimdModel DecSimdSpec DecSimdProofs.
From Coq Require Import ZifyBool ZifyNat ZifyN.
Ltac Zify.zify_post_hook ::= Z.div_mod_to_equations.

Lemma split_at {A} (l : list A) k : 0 <= k <= zlen l -> exists a b, l = a ++ b /\ zlen a = k.
Proof.
  intro H. exists (firstn (Z.to_nat k) l), (skipn (Z.to_nat k) l).
  split; [symmetry; apply firstn_skipn|]. unfold zlen in *. rewrite firstn_length. lia.
Qed.

Lemma run_mode_len r e s l o s' e' rst : run_mode r e s l = (o, s', e', rst) ->
  zlen o <= zlen l - zlen rst /\ 0 <= zlen rst.
Proof.
  unfold run_mode. pose proof (zlen_nonneg rst). destruct e.
  - intro E. split; [eapply run_end_len; eauto|lia].
  - destruct r.
    + pose proof (run_raw_len s l). destruct (run_raw s l). intros [= <- <- <- <-].
      change (zlen (@nil byte)) with 0. cbn [fst] in *. lia.
    + pose proof (run_plain_len s l). destruct (run_plain s l). intros [= <- <- <- <-].
      change (zlen (@nil byte)) with 0. cbn [fst] in *. lia.
Qed.

Lemma run_mode_app r e s a b :
  run_mode r e s (a ++ b) =
    match run_mode r e s a with
    | (o, s1, E_NONE, _) => prep4 o (run_mode r e s1 b)
    | (o, s1, e, r) => (o, s1, e, r ++ b)
    end.
Proof.
  unfold run_mode. destruct e; [apply run_end_app|]. destruct r.
  - rewrite run_raw_app. destruct (run_raw s a) as [o s1]. cbn [fst snd]. symmetry. apply prep_mode.
  - rewrite run_plain_app. destruct (run_plain s a) as [o s1]. cbn [fst snd]. symmetry. apply prep_mode.
Qed.

Lemma kernel_state_eq s1 l : kernel_state (esc_flag s1) (dot_next s1 l) = S_EQ <-> s1 = S_EQ.
Proof.
  destruct s1; cbn; split; intro H; try discriminate; auto;
    destruct l as [|c [|d l]]; try discriminate H; cbn in H;
    repeat match type of H with context [if ?x then _ else _] => destruct x end; discriminate H.
Qed.

Lemma lost_two s l : 2 <= zlen l -> lost (Some s) l = true <-> (s = S_EQ /\ l = [CR; LF]).
Proof.
  intro H. unfold lost. destruct s; try (split; [discriminate|intros [? _]; discriminate]).
  destruct l as [|c [|d [|e l]]]; try (unfold zlen in H; cbn in H; lia).
  - rewrite andb_true_iff, !beq_true. split; [intros [-> ->]; auto|intros [_ [= -> ->]]; auto].
  - split; [discriminate|]. intros [_ ?]. discriminate.
Qed.

Lemma dot_next_app s d look : 2 <= zlen d -> dot_next s (d ++ look) = dot_next s d.
Proof. intro H. destruct d as [|a [|b d]]; try (unfold zlen in H; cbn in H; lia). destruct s; reflexivity. Qed.

Lemma extend_marker s0 d1 l : simple s0 -> no_marker_in (zlen d1) l ->
  s0 = S_NONE \/ s0 = S_EQ \/ ~ marker_at (state_text s0 ++ l) ->
  no_marker_in (zlen (state_text s0 ++ d1)) (state_text s0 ++ l).
Proof.
  intros Hs H C a b E L. rewrite zlen_app in L.
  destruct s0; try destruct Hs; cbn [state_text] in *.
  - destruct a as [|x [|y a]]; cbn [app] in E.
    + rewrite <- E. destruct C as [C|[C|C]]; try discriminate C. exact C.
    + injection E as _ <-. intros [[t X]|[[t X]|[t X]]]; discriminate X.
    + injection E as _ _ E. apply (H a b E). rewrite !zlen_cons in L. change (zlen (@nil byte)) with 0 in L. lia.
  - destruct a as [|x a]; cbn [app] in E.
    + rewrite <- E. intros [[t X]|[[t X]|[t X]]]; discriminate X.
    + injection E as _ E. apply (H a b E). rewrite !zlen_cons in L. change (zlen (@nil byte)) with 0 in L. lia.
  - destruct a as [|x a]; cbn [app] in E.
    + rewrite <- E. destruct C as [C|[C|C]]; try discriminate C. exact C.
    + injection E as _ E. apply (H a b E). rewrite !zlen_cons in L. change (zlen (@nil byte)) with 0 in L. lia.
  - cbn [app] in *. change (zlen (@nil byte)) with 0 in L. apply (H a b E). lia.
Qed.

Lemma enter_same s l : enter true s l = S_CRLF \/ enter true s l = S_CR -> enter true s l = s.
Proof.
  assert (D : match s with S_CRLF => dot_next s l = 0 \/ dot_next s l = 1
                         | S_CR => dot_next s l = 0 \/ dot_next s l = 2
                         | _ => dot_next s l = 0 end).
  { destruct s, l as [|c [|d l]]; cbn [dot_next]; auto;
      match goal with |- context [if ?x then _ else _] => destruct x end; auto. }
  unfold enter. destruct s; try destruct D as [D|D]; rewrite ?D; cbn; intros [H|H]; try discriminate H; reflexivity.
Qed.

Lemma app_inj_len {A} (a b c d : list A) : a ++ b = c ++ d -> zlen a = zlen c \/ zlen b = zlen d -> a = c /\ b = d.
Proof.
  intros E H. assert (L : length a = length c).
  { pose proof (f_equal (@length A) E) as X. rewrite !app_length in X. unfold zlen in H. lia. }
  clear H. revert c E L; induction a as [|x a IH]; intros [|y c] E L; try discriminate L; [auto|].
  injection E as -> E. injection L as L. destruct (IH c E L). subst. auto.
Qed.

Lemma w_ge n : 1 <= n -> 2 <= 2 ^ n.
Proof. intro. replace 2 with (2 ^ 1) at 1 by reflexivity. apply Z.pow_le_mono_r; lia. Qed.

Section Main.
Variables (K : kernel) (r e : bool) (n : Z) (P : dstate -> list byte -> Prop).
Hypothesis HK : kernel_ok_on P r e (2 ^ n) K.
Hypothesis P_fst : forall s l k, P s (l ++ k) -> P s l.
Hypothesis P_enter : forall s l, P s l -> P (enter r s l) l.
Hypothesis P_mode : forall s l k o s1 rst, P s (l ++ k) -> run_mode r e s l = (o, s1, E_NONE, rst) -> P s1 k.
Hypothesis Hre : e = true -> r = true.
Hypothesis Hn : 1 <= n.
Local Notation w := (2 ^ n).



(** The one case in which the last byte of the output is not counted: the text
    ends in an unescaped '=' followed by CR LF, and this CR LF is all that is left
    for the scalar decoder. *)
Definition short_by_one (s : dstate) (src : Z) (l : list byte) : Prop :=
  r = true /\ e = false /\ (src + zlen l - 2) mod w = 0 /\
  exists p, l = p ++ [CR; LF] /\ snd (run_raw s p) = S_EQ.

Lemma aligned_run B src dest l m s :
  src mod w = 0 -> dgeom B src (zlen l) dest -> bytes_at m src l -> P s l ->
  (e = false -> simple s /\ len_buffer r e w < zlen l) -> l <> [] ->
  exists m' o s' e' rst u, run_mode r e s l = (o, s', e', rst) /\
    simd_aligned K r e w B src dest (zlen l) s m =
      Ok ((e', src + zlen l - zlen rst, dest + zlen o - u, Some s'), m') /\
    bytes_at m' dest o /\ (forall q, ~ (dest <= q < dest + zlen l) -> m' q = m q) /\
    (u = 0 \/ u = 1) /\ (u = 1 <-> short_by_one s src l).
Proof.
  intros Ha G Hm HP Hs Hl. unfold simd_aligned. cbv zeta. pose proof (w_ge n Hn) as W.
  assert (LB : w - 1 <= len_buffer r e w <= w + 3) by (unfold len_buffer; destruct e, r; lia).
  destruct (len_buffer r e w <? zlen l) eqn:E0.
  2:{ (* no kernel call *)
    assert (HE : e = true). { destruct e; auto. destruct (Hs eq_refl). lia. }
    assert (HR := Hre HE).
    unfold simd_tail. rewrite (zlen_pos l Hl). cbn [negb].
    destruct (scalar_mode r e B src dest l m (Some s)) as (m' & o & s' & e' & rst & E & R & Q & F); auto.
    { split; [auto|discriminate]. }
    exists m', o, s', e', rst, 0. split; [exact E|]. split.
    { rewrite R. unfold uncounted. rewrite HE, andb_false_r. reflexivity. }
    split; [exact Q|]. split; [exact F|]. split; [auto|].
    split; [discriminate|]. intros (_ & X & _). congruence. }
  apply Z.ltb_lt in E0. pose proof (zlen_nonneg l) as L0. destruct G as [G1 G2 G3 G4 G5].
  (* the switch *)
  assert (SW : (exists e' s' rst, simd_switch r e B src s m = Ok (inl (e', src + zlen l - zlen rst, s'), m) /\
                  e = true /\ run_mode r e s l = ([], s', e', rst)) \/
               (simd_switch r e B src s m = Ok (inr (if r then dot_next s l else 0), m) /\
                (e = true -> s = S_NONE \/ s = S_EQ \/ ~ marker_at (state_text s ++ l)))).
  { destruct e eqn:Ee.
    - rewrite (Hre eq_refl) in *.
      destruct (switch_end B src s l m Hm) as [(e' & s' & rst & R & _ & Q)|(R & Q)]; try lia.
      { unfold len_buffer in E0. lia. }
      + left. exists e', s', rst. auto.
      + right. auto.
    - right. split; [|discriminate]. apply switch_noend; auto; lia. }
  destruct SW as [(e' & s' & rst & R & He & Q)|(R & Q)].
  { erewrite bind_ok by exact R. cbv iota beta. exists m, [], s', e', rst, 0.
    split; [exact Q|]. split; [unfold ret; change (zlen (@nil byte)) with 0; rewrite Z.add_0_r, Z.sub_0_r; reflexivity|].
    split; [cbn; auto|]. split; [auto|]. split; [auto|]. split; [discriminate|]. intros (_ & X & _). congruence. }
  erewrite bind_ok by exact R. cbv iota beta. clear R.
  rewrite align_down_pow2 by lia.
  set (dl := zlen l - len_buffer r e w + (w - 1) - (zlen l - len_buffer r e w + (w - 1)) mod w).
  assert (DM : dl mod w = 0).
  { subst dl. rewrite Zminus_mod, Zmod_mod, Z.sub_diag. reflexivity. }
  assert (DL : zlen l - len_buffer r e w <= dl < zlen l - len_buffer r e w + w).
  { pose proof (Z.mod_pos_bound (zlen l - len_buffer r e w + (w - 1)) w ltac:(lia)). subst dl. lia. }
  assert (DB : 0 < dl <= zlen l) by lia.
  assert (DW : w <= dl).
  { destruct (Z_le_gt_dec w dl); auto. rewrite Z.mod_small in DM by lia. lia. }
  clearbody dl.
  destruct (split_at l dl ltac:(lia)) as (d & look & El & Ed).
  assert (ZL : zlen l = zlen d + zlen look) by (rewrite El; apply zlen_app).
  pose proof (zlen_nonneg look) as LK.
  assert (LA : lookahead r e <= zlen look <= lookahead r e + w - 1).
  { unfold lookahead, len_buffer in *. destruct e; [rewrite (Hre eq_refl) in *|destruct r]; lia. }
  destruct (enter_ok r s l) as (En & Ef & Dn).
  destruct (HK B src dest d look (enter r s l) m) as (d1 & d2 & o & s1 & m1 & Hd & Hd2 & HR & HM & HC & HB & HF);
    try lia; [apply (P_fst _ d look); rewrite <- El; apply P_enter; exact HP|rewrite <- El; exact Hm|rewrite Ed; exact DM|rewrite <- El; exact En|].
  rewrite Ed, <- El, Ef, Dn in HC.
  pose proof (entry_simple _ _ _ En) as Es.
  assert (ST : run_mode r e s l = run_mode r e (enter r s l) l).
  { unfold run_mode. destruct e eqn:Ee.
    - rewrite (Hre eq_refl) in *. destruct (Q eq_refl) as [->|[->|X]]; [reflexivity|reflexivity|].
      apply settle_end; auto. unfold lookahead in LA. lia.
    - destruct (Hs eq_refl) as [Hs0 _]. destruct r.
      + rewrite <- settle_raw; auto. lia.
      + rewrite <- settle_plain; auto. }
  assert (KS : run_mode r e (enter r s l) (d1 ++ d2 ++ look) =
      prep4 o (run_mode r e (kernel_state (esc_flag s1) (dot_next s1 (d2 ++ look))) (d2 ++ look))).
  { apply kstep; auto.
    - rewrite app_assoc, <- Hd, <- El. exact En.
    - rewrite zlen_app. pose proof (zlen_nonneg d2). lia.
    - intro He. rewrite (app_assoc d1), <- Hd, <- El. apply extend_marker; auto.
      + rewrite El. apply HM. exact He.
      + rewrite (Hre He). destruct (enter true s l) eqn:E1; auto; try (rewrite (Hre He), E1 in Es; destruct Es).
        * right. right. rewrite <- E1, (enter_same s l) by auto. destruct (Q He) as [Y|[Y|Y]]; auto;
            rewrite Y in E1; cbn in E1; discriminate E1.
        * right. right. rewrite <- E1, (enter_same s l) by auto. destruct (Q He) as [Y|[Y|Y]]; auto;
            rewrite Y in E1; cbn in E1; discriminate E1. }
  rewrite (app_assoc d1), <- Hd, <- El, <- ST in KS.
  set (c := kernel_state (esc_flag s1) (dot_next s1 (d2 ++ look))) in *.
  assert (Z1 : zlen d = zlen d1 + zlen d2) by (rewrite Hd; apply zlen_app).
  pose proof (zlen_nonneg d1) as P1. pose proof (zlen_nonneg d2) as P2. pose proof (zlen_nonneg o) as P3.
  assert (OL : zlen o <= zlen d1).
  { destruct r.
    - pose proof (run_raw_len (enter true s l) d1) as X. rewrite HR in X. exact X.
    - pose proof (run_plain_len (enter false s l) d1) as X. rewrite HR in X. exact X. }
  erewrite bind_ok by exact HC. cbv iota beta.
  assert (RM : bytes_at m1 (src + zlen d1) (d2 ++ look)).
  { rewrite El, Hd, <- app_assoc in Hm. apply bytes_at_app in Hm. destruct Hm as [_ Hm].
    revert Hm. apply bytes_at_ext. intros q Hq. apply HF. rewrite zlen_app in Hq. lia. }
  assert (ZR : zlen l - zlen d1 = zlen (d2 ++ look)) by (rewrite zlen_app; lia).
  unfold simd_tail. fold c.
  destruct (zlen l - zlen d1 =? 0) eqn:E1; cbn [negb].
  - (* nothing left *)
    assert (N : d2 ++ look = []). { destruct (d2 ++ look); auto. rewrite zlen_cons in ZR. pose proof (zlen_nonneg l0). lia. }
    rewrite N in *.
    exists m1, o, c, E_NONE, [], 0. 
    split. { rewrite KS. unfold run_mode. destruct e, r; cbn; rewrite app_nil_r; reflexivity. }
    split. { unfold ret. change (zlen (@nil byte)) with 0. rewrite !Z.sub_0_r. replace (src + zlen d1) with (src + zlen l) by lia. reflexivity. }
    split; [exact HB|]. split; [intros q Hq; apply HF; lia|]. split; [auto|].
    split; [discriminate|]. intros (-> & -> & _ & p & Hp & _). exfalso.
    change (zlen (@nil byte)) with 0 in ZR. unfold lookahead in LA. lia.
  - destruct (scalar_mode r e B (src + zlen d1) (dest + zlen o) (d2 ++ look) m1 (Some c)) as
      (m2 & o2 & s2 & e2 & rst & R2 & C2 & B2 & F2).
    { intro. split; auto. discriminate. }
    { constructor; lia. }
    { exact RM. }
    cbn [start closes] in *. rewrite ZR.
    exists m2, (o ++ o2), s2, e2, rst, (uncounted r e (Some c) (d2 ++ look)).
    split. { rewrite KS, R2. reflexivity. }
    split. { rewrite C2, (zlen_app o o2). rewrite ZL, Z1, zlen_app.
      replace (src + zlen d1 + (zlen d2 + zlen look)) with (src + (zlen d1 + zlen d2 + zlen look)) by lia.
      rewrite (Z.add_assoc dest). reflexivity. }
    destruct (run_mode_len _ _ _ _ _ _ _ _ R2) as [L2 _].
    split. { apply bytes_at_app. split; [|exact B2].
      revert HB. apply bytes_at_ext. intros q Hq. apply F2. lia. }
    split. { intros q Hq. rewrite F2, HF; auto; lia. }
    split. { unfold uncounted. destruct (_ && _); auto. }
    unfold uncounted, short_by_one. destruct e; [rewrite andb_false_r; split; [discriminate|intros (_ & X & _); discriminate X]|].
    destruct r; [|cbn [andb]; split; [discriminate|intros (X & _); discriminate X]]. cbn [andb negb].
    rewrite (Hd2 eq_refl) in *. cbn [app] in *. rewrite app_nil_r in Hd. subst d1.
    unfold lookahead in LA.
    assert (SR : run_raw s d = (o, s1)).
    { rewrite (settle_raw s d) by (destruct (Hs eq_refl); auto; lia).
      rewrite <- HR. unfold enter. rewrite El, dot_next_app by lia. reflexivity. }
    split.
    + intro U. assert (LS : lost (Some c) look = true) by (destruct (lost (Some c) look); [reflexivity|discriminate U]).
      apply lost_two in LS; [|lia]. destruct LS as [Ec ->]. split; [reflexivity|]. split; [reflexivity|]. split.
      * rewrite ZL. change (zlen [CR; LF]) with 2. replace (src + (zlen d + 2) - 2) with (src + zlen d) by lia.
        rewrite Zplus_mod, Ha, Ed, DM. reflexivity.
      * exists d. split; [exact El|]. rewrite SR. cbn [snd]. apply kernel_state_eq in Ec. exact Ec.
    + intros (_ & _ & Hmod & p & Hp & Hq).
      assert (L2' : zlen look = 2).
      { assert (X : (zlen look - 2) mod w = 0).
        { replace (zlen look - 2) with ((src + zlen l - 2) - src - zlen d) by lia.
          rewrite (Zminus_mod _ (zlen d)), (Zminus_mod _ src), Hmod, Ha, Ed, DM. reflexivity. }
        destruct (Z_le_gt_dec (zlen look) 2); [lia|]. rewrite Z.mod_small in X by lia. lia. }
      assert (p = d /\ look = [CR; LF]) as [-> ->].
      { rewrite El in Hp. apply app_inj_len in Hp; [exact (conj (eq_sym (proj1 Hp)) (proj2 Hp))|right; exact L2']. }
      rewrite SR in Hq. cbn [snd] in Hq. subst s1.
      replace (lost (Some c) [CR; LF]) with true; [reflexivity|].
      symmetry. apply lost_two; [cbn; lia|]. split; [|reflexivity]. subst c. apply kernel_state_eq. reflexivity.
Qed.

(** The whole front-end. *)
Lemma simd_run_on B src dest data m state :
  dgeom B src (zlen data) dest -> bytes_at m src data ->
  (e = true -> state <> None) -> (e = false -> simple (start state)) ->
  (r = true -> e = false -> start state <> S_EQ) -> P (start state) data ->
  exists m' o s' e' rst u, run_mode r e (start state) data = (o, s', e', rst) /\
    do_decode_simd K r e w B src dest (zlen data) state m =
      Ok ((e', src + zlen data - zlen rst, dest + zlen o - u, closes state s'), m') /\
    bytes_at m' dest o /\ (forall q, ~ (dest <= q < dest + zlen data) -> m' q = m q) /\
    (u = 0 \/ u = 1) /\ (u = 1 <-> 2 * w < zlen data /\ short_by_one (start state) src data).
Proof.
  intros G Hm Hst Hsi Hne HP. unfold do_decode_simd. pose proof (w_ge n Hn) as W.
  assert (NL : forall l st, r = true -> e = false -> start st = start state -> lost st l = false).
  { intros l st Hr He Hs0. destruct st as [[]|]; try reflexivity. exfalso. apply (Hne Hr He). rewrite <- Hs0. reflexivity. }
  assert (UN : forall l st, start st = start state -> uncounted r e st l = 0).
  { intros l st Hs0. unfold uncounted. destruct r eqn:Er, e eqn:Ee; try reflexivity. rewrite NL; auto. }
  destruct (zlen data <=? w * 2) eqn:E0.
  { destruct (scalar_mode r e B src dest data m state) as (m' & o & s' & e' & rst & R & C & Q & F); auto.
    exists m', o, s', e', rst, 0. split; [exact R|]. split; [rewrite C, UN by auto; reflexivity|].
    split; [exact Q|]. split; [exact F|]. split; [auto|]. split; [discriminate|]. intros [X _]. lia. }
  apply Z.leb_gt in E0. cbv zeta.
  change (match state with Some s => s | None => S_CRLF end) with (start state).
  assert (DN : data <> []). { intros ->. change (zlen (@nil byte)) with 0 in E0. lia. }
  assert (FIN : forall m' o s' e' rst u, 
    (if negb (Z.land src (w - 1) =? 0)
     then
       '(e0, src', dest', st) <- do_decode_scalar r e B src dest (align_down w (src + (w - 1)) - src) (Some (start state)) ;;
       match e0, st with
       | E_NONE, Some s => simd_aligned K r e w B src' dest' (zlen data - (align_down w (src + (w - 1)) - src)) s
       | _, _ => ret (e0, src', dest', st)
       end
     else simd_aligned K r e w B src dest (zlen data) (start state)) m =
      Ok ((e', src + zlen data - zlen rst, dest + zlen o - u, Some s'), m') ->
    (u = 1 <-> short_by_one (start state) src data) ->
    u = 0 \/ u = 1 ->
    run_mode r e (start state) data = (o, s', e', rst) -> bytes_at m' dest o ->
    (forall q, ~ (dest <= q < dest + zlen data) -> m' q = m q) ->
    exists m' o s' e' rst u, run_mode r e (start state) data = (o, s', e', rst) /\
     ('(e0, src', dest', st) <-
       (if negb (Z.land src (w - 1) =? 0)
       then
       '(e0, src', dest', st) <- do_decode_scalar r e B src dest (align_down w (src + (w - 1)) - src) (Some (start state)) ;;
       match e0, st with
       | E_NONE, Some s => simd_aligned K r e w B src' dest' (zlen data - (align_down w (src + (w - 1)) - src)) s
       | _, _ => ret (e0, src', dest', st)
       end
     else simd_aligned K r e w B src dest (zlen data) (start state)) ;;
    ret (e0, src', dest', match state with Some _ => st | None => None end)) m =
      Ok ((e', src + zlen data - zlen rst, dest + zlen o - u, closes state s'), m') /\
    bytes_at m' dest o /\ (forall q, ~ (dest <= q < dest + zlen data) -> m' q = m q) /\
    (u = 0 \/ u = 1) /\ (u = 1 <-> 2 * w < zlen data /\ short_by_one (start state) src data)).
  { intros m' o s' e' rst u X1 X2 X3 X4 X5 X6. exists m', o, s', e', rst, u.
    split; [exact X4|]. split. { erewrite bind_ok by exact X1. destruct state; reflexivity. }
    split; [exact X5|]. split; [exact X6|]. split; [exact X3|]. rewrite X2. split; [|tauto]. intro. split; [lia|auto]. }
  pose proof (zlen_nonneg data) as ZD.
  rewrite land_pow2, align_down_pow2 in * by lia.
  destruct (src mod w =? 0) eqn:E1; cbn [negb] in FIN |- *.
  - apply Z.eqb_eq in E1.
    destruct (aligned_run B src dest data m (start state)) as (m' & o & s' & e' & rst & u & X1 & X2 & X3 & X4 & X5 & X6); auto.
    { intro He. split; [auto|]. unfold len_buffer. rewrite He. destruct r; lia. }
    eapply FIN; eauto.
  - apply Z.eqb_neq in E1.
    pose proof (Z.mod_pos_bound (src + (w - 1)) w ltac:(lia)) as MB.
    set (amount := src + (w - 1) - (src + (w - 1)) mod w - src) in *.
    assert (AM : (src + amount) mod w = 0).
    { subst amount. replace (src + (src + (w - 1) - (src + (w - 1)) mod w - src)) with ((src + (w - 1)) - (src + (w - 1)) mod w) by lia.
      rewrite Zminus_mod, Zmod_mod, Z.sub_diag. reflexivity. }
    assert (AB : 0 <= amount <= w - 1) by (subst amount; lia). clearbody amount.
    destruct (split_at data amount ltac:(lia)) as (a & l & El & Ea).
    assert (ZL : zlen data = zlen a + zlen l) by (rewrite El; apply zlen_app).
    pose proof (zlen_nonneg a). pose proof (zlen_nonneg l).
    assert (Hma : bytes_at m src a /\ bytes_at m (src + zlen a) l) by (rewrite El in Hm; apply bytes_at_app in Hm; exact Hm).
    destruct Hma as [Hma Hml]. destruct G as [G1 G2 G3 G4 G5].
    destruct (scalar_mode r e B src dest a m (Some (start state))) as (m1 & o1 & s1 & e1 & rst1 & R1 & C1 & Q1 & F1); auto.
    { intro. split; auto. discriminate. }
    { constructor; lia. }
    cbn [start closes] in *. rewrite UN, Z.sub_0_r, Ea in C1 by reflexivity.
    destruct (run_mode_len _ _ _ _ _ _ _ _ R1) as [L1 L1'].
    pose proof (run_mode_app r e (start state) a l) as RA. rewrite <- El, R1 in RA.
    assert (D : e1 = E_NONE \/ e1 <> E_NONE) by (destruct e1; auto; right; discriminate).
    destruct D as [-> |D].
    + assert (Hml1 : bytes_at m1 (src + zlen a) l).
      { revert Hml. apply bytes_at_ext. intros q Hq. apply F1. lia. }
      assert (rst1 = []) as ->.
      { unfold run_mode in R1. destruct e; [eapply run_end_done; exact R1|].
        destruct (if r then run_raw (start state) a else run_plain (start state) a). congruence. }
      change (zlen (@nil byte)) with 0 in *. rewrite Z.sub_0_r in C1.
      assert (LN : l <> []). { intros ->. change (zlen (@nil byte)) with 0 in ZL. lia. }
      pose proof (zlen_nonneg o1).
      destruct (aligned_run B (src + zlen a) (dest + zlen o1) l m1 s1) as
        (m' & o & s' & e' & rst & u & X1 & X2 & X3 & X4 & X5 & X6); auto.
      { rewrite Ea. exact AM. }
      { constructor; lia. }
      { rewrite El in HP. exact (P_mode _ _ _ _ _ _ HP R1). }
      { intro He. split.
        - unfold run_mode in R1. rewrite He in R1. specialize (Hsi He). destruct r.
          + pose proof (run_raw_simple _ a Hsi) as X. destruct (run_raw (start state) a). injection R1 as -> ->. exact X.
          + destruct a as [|x a].
            * cbn in R1. injection R1 as _ <-. exact Hsi.
            * pose proof (run_plain_states (enter false (start state) (x :: a)) (x :: a)) as X.
              rewrite <- settle_plain in X by (auto; left; discriminate).
              destruct (run_plain (start state) (x :: a)). injection R1 as -> ->. cbn [snd] in X.
              destruct X as [-> | ->]; try exact I. unfold enter. destruct (start state); cbn; auto.
        - unfold len_buffer. rewrite He. destruct r; lia. }
      rewrite X1 in RA. cbn [prep4] in RA.
      apply (FIN m' (o1 ++ o) s' e' rst u).
      * erewrite bind_ok by exact C1. cbv iota beta.
        replace (zlen data - amount) with (zlen l) by lia. rewrite <- Ea, X2. rewrite (zlen_app o1 o), ZL.
        rewrite !Z.add_assoc. reflexivity.
      * rewrite X6. unfold short_by_one. rewrite ZL, Z.add_assoc.
        split; intros (Hr & He & Hmod & p & Hp & Hq); (split; [exact Hr|]; split; [exact He|]; split; [exact Hmod|]).
        { exists (a ++ p). rewrite El, Hp, app_assoc. split; [reflexivity|].
          rewrite run_raw_app. unfold run_mode in R1. rewrite He, Hr in R1.
          destruct (run_raw (start state) a) as [oo ss]. injection R1 as -> ->. cbn [prep fst snd]. exact Hq. }
        { assert (P2 : exists p2, p = a ++ p2 /\ l = p2 ++ [CR; LF]).
          { assert (LL : 2 <= zlen l) by lia.
            destruct (split_at l (zlen l - 2) ltac:(lia)) as (p2 & t & E2 & E3).
            rewrite El, E2, app_assoc in Hp. apply app_inj_len in Hp.
            - destruct Hp as [Hp1 Hp2]. exists p2. rewrite Hp1, E2, Hp2. auto.
            - right. rewrite E2, zlen_app in E3. change (zlen [CR; LF]) with 2. lia. }
          destruct P2 as (p2 & -> & E2). exists p2. split; [exact E2|].
          rewrite run_raw_app in Hq. unfold run_mode in R1. rewrite He, Hr in R1.
          destruct (run_raw (start state) a) as [oo ss]. injection R1 as -> ->. cbn [prep fst snd] in Hq. exact Hq. }
      * exact X5.
      * exact RA.
      * apply bytes_at_app. split; [|exact X3]. revert Q1. apply bytes_at_ext. intros q Hq. apply X4. lia.
      * intros q Hq. rewrite X4, F1; auto; lia.
    + assert (RA' : run_mode r e (start state) data = (o1, s1, e1, rst1 ++ l)) by (rewrite RA; destruct e1; congruence).
      assert (He : e = true).
      { unfold run_mode in R1. destruct e; auto. exfalso.
        destruct (if r then run_raw (start state) a else run_plain (start state) a). congruence. }
      apply (FIN m1 o1 s1 e1 (rst1 ++ l) 0).
      * erewrite bind_ok by exact C1. cbv iota beta. rewrite zlen_app, ZL, Z.sub_0_r.
        replace (src + (zlen a + zlen l) - (zlen rst1 + zlen l)) with (src + amount - zlen rst1) by lia.
        destruct e1; try congruence; reflexivity.
      * split; [discriminate|]. intros (_ & X & _). congruence.
      * auto.
      * exact RA'.
      * exact Q1.
      * intros q Hq. apply F1. lia.
Qed.
End Main.

Lemma kernel_ok_on_true r e w K : kernel_ok r e w K -> kernel_ok_on (fun _ _ => True) r e w K.
Proof. intros H B src dest d look s m _. apply H. Qed.

Lemma simd_run (K : kernel) (r e : bool) (n : Z) : kernel_ok r e (2 ^ n) K -> (e = true -> r = true) -> 1 <= n ->
  forall B src dest data m state,
  dgeom B src (zlen data) dest -> bytes_at m src data ->
  (e = true -> state <> None) -> (e = false -> simple (start state)) ->
  (r = true -> e = false -> start state <> S_EQ) ->
  exists m' o s' e' rst u, run_mode r e (start state) data = (o, s', e', rst) /\
    do_decode_simd K r e (2 ^ n) B src dest (zlen data) state m =
      Ok ((e', src + zlen data - zlen rst, dest + zlen o - u, closes state s'), m') /\
    bytes_at m' dest o /\ (forall q, ~ (dest <= q < dest + zlen data) -> m' q = m q) /\
    (u = 0 \/ u = 1) /\ (u = 1 <-> 2 * 2 ^ n < zlen data /\ short_by_one r e n (start state) src data).
Proof.
  intros HK Hre Hn B src dest data m state H1 H2 H3 H4 H5.
  apply (simd_run_on K r e n (fun _ _ => True)); auto. apply kernel_ok_on_true. exact HK.
Qed.
