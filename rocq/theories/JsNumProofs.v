(** Rounding to binary64: relative error and exactness on integers; the sizes of minSize and
    maxSize computed that way. *)
From Verif Require Import Base BaseLemmas EncSpec EncProofs EncEnd EncSize EncNode EncNodeSpec EncNodeProofs JsNum.
From Coq Require Import QArith Qround Qpower Lqa Lia ZifyBool.
Open Scope Z_scope.

Notation u := (1 # 9007199254740992)%Q. (* 2^-53 *)

Lemma nearest_err x : (inject_Z (nearest x) - x <= 1 # 2)%Q /\ (x - inject_Z (nearest x) <= 1 # 2)%Q.
Proof.
  unfold nearest. pose proof (Qfloor_le x) as A. pose proof (Qlt_floor x) as B. rewrite inject_Z_plus in B. change (inject_Z 1) with 1%Q in B.
  destruct (Qcompare_spec (x - inject_Z (Qfloor x)) (1 # 2)) as [C|C|C].
  - destruct (Z.even (Qfloor x)); rewrite ?inject_Z_plus; change (inject_Z 1) with 1%Q; lra.
  - lra.
  - rewrite inject_Z_plus. change (inject_Z 1) with 1%Q. lra.
Qed.

Lemma nearest_int z : nearest (inject_Z z) = z.
Proof.
  destruct (nearest_err (inject_Z z)) as [A B]. set (k := nearest (inject_Z z)) in *.
  destruct (Z.lt_trichotomy k z) as [H|[H|H]]; [|exact H|]; exfalso.
  - assert (k + 1 <= z) as G by lia. rewrite Zle_Qle, inject_Z_plus in G. change (inject_Z 1) with 1%Q in G. lra.
  - assert (z + 1 <= k) as G by lia. rewrite Zle_Qle, inject_Z_plus in G. change (inject_Z 1) with 1%Q in G. lra.
Qed.

Lemma nearest_compat x y : (x == y)%Q -> nearest x = nearest y.
Proof.
  intro E. unfold nearest. assert (F : Qfloor x = Qfloor y) by (apply Qfloor_comp, E). rewrite F.
  replace (Qcompare (x - inject_Z (Qfloor y)) (1 # 2)) with (Qcompare (y - inject_Z (Qfloor y)) (1 # 2)); [reflexivity|].
  apply Qcompare_comp; [rewrite E|]; reflexivity.
Qed.

Lemma pow2_pos e : (0 < pow2 e)%Q.
Proof.
  assert (A : (0 <= pow2 e)%Q) by (apply Qpower_pos; discriminate).
  assert (B : ~ (pow2 e == 0)%Q) by (apply Qpower_not_0; intro H; discriminate H). lra.
Qed.

Lemma pow2_add a b : (pow2 (a + b) == pow2 a * pow2 b)%Q.
Proof. apply Qpower_plus. intro H. discriminate H. Qed.

Lemma pow2_Z e : 0 <= e -> (pow2 e == inject_Z (2 ^ e))%Q.
Proof. intro H. unfold pow2. change 2%Q with (inject_Z 2). rewrite Zpower_Qpower by exact H. reflexivity. Qed.

Lemma ilog_le x : (0 < x)%Q -> (pow2 (ilog x) <= x)%Q.
Proof.
  intro H. unfold ilog. set (e := Z.log2 (Qnum x) - Z.log2 (Zpos (Qden x))).
  destruct (Qle_bool (pow2 e) x) eqn:E; [apply Qle_bool_iff, E|]. clear E.
  destruct x as [a b]. unfold Qlt in H. cbn [Qnum Qden] in *. rewrite Z.mul_0_l, Z.mul_1_r in H.
  pose proof (Z.log2_spec a H) as [A _]. pose proof (Z.log2_spec (Zpos b) ltac:(reflexivity)) as [_ B].
  pose proof (Z.log2_nonneg a). pose proof (Z.log2_nonneg (Zpos b)).
  replace (e - 1) with (Z.log2 a + - Z.succ (Z.log2 (Zpos b))) by lia. clear e. rewrite pow2_add.
  set (k := Z.succ (Z.log2 (Zpos b))) in *. assert (K : (pow2 k * pow2 (- k) == 1)%Q) by (rewrite <- pow2_add, Z.add_opp_diag_r; reflexivity).
  rewrite pow2_Z by lia. pose proof (pow2_pos (- k)) as P. rewrite pow2_Z in K by lia.
  assert (X : (a # b == inject_Z a * / inject_Z (Zpos b))%Q) by (apply Qmake_Qdiv).
  apply (Qle_trans _ (inject_Z a * pow2 (- k))).
  - apply Qmult_le_compat_r; [rewrite <- Zle_Qle; exact A|lra].
  - rewrite X, (Qmult_comm (inject_Z a)), (Qmult_comm (inject_Z a)). apply Qmult_le_compat_r; [|change 0%Q with (inject_Z 0); rewrite <- Zle_Qle; lia].
    assert (BB : (0 < inject_Z (Zpos b))%Q) by reflexivity.
    assert (BK : (inject_Z (Zpos b) <= inject_Z (2 ^ k))%Q) by (rewrite <- Zle_Qle; lia).
    apply (Qmult_le_r _ _ (inject_Z (Zpos b)) BB). rewrite (Qmult_comm (/ _)), Qmult_inv_r by (intro F; rewrite F in BB; discriminate BB).
    rewrite <- K, (Qmult_comm (pow2 (- k))). apply Qmult_le_compat_r; [exact BK|lra].
Qed.

(** Below 2^-1022 there is less precision; not needed. *)
Lemma ilog_max x : (pow2 (-1022) <= x)%Q -> (pow2 (Z.max (ilog x) (-1022)) <= x)%Q.
Proof.
  intro H. assert (0 < x)%Q by (pose proof (pow2_pos (-1022)); lra). destruct (Z.max_spec (ilog x) (-1022)) as [[_ ->]|[_ ->]]; [exact H|].
  apply ilog_le. assumption.
Qed.

Lemma fl_err x : (pow2 (-1022) <= x)%Q -> (fl x - x <= x * u)%Q /\ (x - fl x <= x * u)%Q.
Proof.
  intro H. assert (P : (0 < x)%Q) by (pose proof (pow2_pos (-1022)); lra).
  unfold fl. destruct (Qcompare_spec x 0) as [C|C|C]; try lra. unfold fl_pos. cbv zeta.
  pose proof (ilog_max x H) as L. set (e := Z.max (ilog x) (-1022)) in *.
  destruct (nearest_err (x * pow2 (52 - e))) as [A B]. set (m := inject_Z (nearest (x * pow2 (52 - e)))) in *.
  assert (K : (pow2 (52 - e) * pow2 (e - 52) == 1)%Q) by (rewrite <- pow2_add; replace (52 - e + (e - 52)) with 0 by lia; reflexivity).
  assert (D : (pow2 (e - 52) == pow2 e * (1 # 4503599627370496))%Q).
  { replace (e - 52) with (e + (-52)) by lia. rewrite pow2_add. reflexivity. }
  pose proof (pow2_pos (e - 52)) as Q1.
  assert (X : (x == x * pow2 (52 - e) * pow2 (e - 52))%Q) by (rewrite <- Qmult_assoc, K, Qmult_1_r; reflexivity).
  set (w := (x * pow2 (52 - e))%Q) in *. set (t := pow2 (e - 52)) in *.
  assert (A' : ((m - w) * t <= (1 # 2) * t)%Q) by (apply Qmult_le_compat_r; lra).
  assert (B' : ((w - m) * t <= (1 # 2) * t)%Q) by (apply Qmult_le_compat_r; lra).
  set (mt := (m * t)%Q) in *. set (wt := (w * t)%Q) in *.
  assert (E1 : ((m - w) * t == mt - wt)%Q) by (subst mt wt; ring). assert (E2 : ((w - m) * t == wt - mt)%Q) by (subst mt wt; ring).
  rewrite E1 in A'. rewrite E2 in B'. lra.
Qed.

Lemma fl_0 x : (x == 0)%Q -> (fl x == 0)%Q.
Proof. intro H. unfold fl. destruct (Qcompare_spec x 0); lra. Qed.

Lemma fl_int x z : (x == inject_Z z)%Q -> 0 <= z < 2 ^ 53 -> (fl x == inject_Z z)%Q.
Proof.
  intros E H. destruct (Z.eq_dec z 0) as [->|N]; [apply fl_0; rewrite E; reflexivity|].
  assert (P : (0 < x)%Q) by (rewrite E; change 0%Q with (inject_Z 0); rewrite <- Zlt_Qlt; lia).
  unfold fl. destruct (Qcompare_spec x 0) as [C|C|C]; try lra. unfold fl_pos. cbv zeta.
  pose proof (ilog_le x P) as L. set (e := Z.max (ilog x) (-1022)) in *.
  assert (e <= 52).
  { subst e. destruct (Z_le_gt_dec (ilog x) 52) as [|G]; [lia|]. exfalso.
    assert (pow2 53 <= pow2 (ilog x))%Q as M by (rewrite !pow2_Z, <- Zle_Qle by lia; apply Z.pow_le_mono_r; lia).
    assert (inject_Z z < pow2 53)%Q as M2 by (rewrite pow2_Z, <- Zlt_Qlt by lia; apply H). lra. }
  rewrite (nearest_compat _ (inject_Z (z * 2 ^ (52 - e)))) by (rewrite inject_Z_mult, E, pow2_Z by lia; reflexivity).
  rewrite nearest_int, inject_Z_mult, <- pow2_Z by lia. rewrite <- Qmult_assoc, <- pow2_add.
  replace (52 - e + (e - 52)) with 0 by lia. change (pow2 0) with 1%Q. ring.
Qed.

Lemma fl_ge1 x : (1 <= x)%Q -> (fl x - x <= x * u)%Q /\ (x - fl x <= x * u)%Q.
Proof. intro H. apply fl_err. apply (Qle_trans _ 1); [vm_compute; discriminate|exact H]. Qed.

Lemma fl_small x : (pow2 (-60) <= x)%Q -> (fl x - x <= x * u)%Q /\ (x - fl x <= x * u)%Q.
Proof. intro H. apply fl_err. apply (Qle_trans _ (pow2 (-60))); [vm_compute; discriminate|exact H]. Qed.

(** The quotient of two integers below 2^53, rounded and cut off, is the integer quotient. *)
Lemma floor_div x y a b : (x == inject_Z a)%Q -> (y == inject_Z b)%Q -> 0 <= a < 2 ^ 53 -> 1 <= b < 2 ^ 53 -> Qfloor (js_div x y) = a / b.
Proof.
  intros Ex Ey Ha Hb. unfold js_div.
  assert (B0 : (0 < inject_Z b)%Q) by (change 0%Q with (inject_Z 0); rewrite <- Zlt_Qlt; lia).
  destruct (Z.eq_dec (a mod b) 0) as [M|M].
  - assert (D : a = b * (a / b)) by (pose proof (Z.div_mod a b ltac:(lia)); lia).
    assert (Q0 : 0 <= a / b) by (apply Z.div_pos; lia).
    assert (E : (fl (x / y) == inject_Z (a / b))%Q).
    { apply fl_int; [|split; [exact Q0|nia]]. rewrite Ex, Ey, D at 1. rewrite inject_Z_mult. field. intro F. rewrite F in B0. discriminate B0. }
    rewrite (Qfloor_comp _ _ E). apply Qfloor_Z.
  - pose proof (Z.div_mod a b ltac:(lia)) as D. pose proof (Z.mod_pos_bound a b ltac:(lia)) as R.
    set (q := a / b) in *. set (r := a mod b) in *.
    assert (Q0 : 0 <= q) by (apply Z.div_pos; lia).
    set (z := (x / y)%Q). assert (Z : (z * inject_Z b == inject_Z a)%Q).
    { subst z. rewrite Ex, Ey. field. intro F. rewrite F in B0. discriminate B0. }
    assert (A1 : (1 <= inject_Z a)%Q) by (change 1%Q with (inject_Z 1); rewrite <- Zle_Qle; nia).
    assert (A2 : (inject_Z a < 9007199254740992)%Q) by (change 9007199254740992%Q with (inject_Z (2 ^ 53)); rewrite <- Zlt_Qlt; lia).
    assert (B2 : (inject_Z b < 9007199254740992)%Q) by (change 9007199254740992%Q with (inject_Z (2 ^ 53)); rewrite <- Zlt_Qlt; lia).
    assert (S : (pow2 (-60) <= z)%Q).
    { destruct (Qlt_le_dec z (pow2 (-60))) as [G|G]; [exfalso|exact G].
      assert (z * inject_Z b < pow2 (-60) * 9007199254740992)%Q; [|change (pow2 (-60)) with (1 # 1152921504606846976)%Q in *; lra].
      assert (T1 : (z * inject_Z b <= pow2 (-60) * inject_Z b)%Q) by (apply Qmult_le_compat_r; lra).
      change (pow2 (-60)) with (1 # 1152921504606846976)%Q in *. lra. }
    destruct (fl_small z S) as [F1 F2]. set (f := fl z) in *.
    (* the error, times b, is below 1 *)
    assert (F1' : ((f - z) * inject_Z b <= z * u * inject_Z b)%Q) by (apply Qmult_le_compat_r; lra).
    assert (F2' : ((z - f) * inject_Z b <= z * u * inject_Z b)%Q) by (apply Qmult_le_compat_r; lra).
    assert (E0 : (z * u * inject_Z b == inject_Z a * u)%Q) by (rewrite <- Z; ring).
    assert (E1 : ((f - z) * inject_Z b == f * inject_Z b - inject_Z a)%Q) by (rewrite <- Z; ring).
    assert (E2 : ((z - f) * inject_Z b == inject_Z a - f * inject_Z b)%Q) by (rewrite <- Z; ring).
    rewrite E0 in F1', F2'. rewrite E1 in F1'. rewrite E2 in F2'.
    assert (U : (inject_Z a * u < 1)%Q) by lra.
    assert (Da : (inject_Z a == inject_Z b * inject_Z q + inject_Z r)%Q) by (rewrite D at 1; rewrite inject_Z_plus, inject_Z_mult; reflexivity).
    assert (R1 : (1 <= inject_Z r)%Q) by (change 1%Q with (inject_Z 1); rewrite <- Zle_Qle; lia).
    assert (R2 : (inject_Z r <= inject_Z b - 1)%Q).
    { assert (r + 1 <= b) as G by lia. rewrite Zle_Qle, inject_Z_plus in G. change (inject_Z 1) with 1%Q in G. lra. }
    assert (LO : (inject_Z q <= f)%Q).
    { apply (Qmult_le_r _ _ (inject_Z b) B0). rewrite (Qmult_comm (inject_Z q)). lra. }
    assert (HI : (f < inject_Z (q + 1))%Q).
    { apply (Qmult_lt_r _ _ (inject_Z b) B0). rewrite inject_Z_plus. change (inject_Z 1) with 1%Q.
      assert (T : ((inject_Z q + 1) * inject_Z b == inject_Z b * inject_Z q + inject_Z b)%Q) by ring. rewrite T. lra. }
    apply Qfloor_resp_le in LO. rewrite Qfloor_Z in LO.
    assert (Qfloor f < q + 1); [|lia]. rewrite Zlt_Qlt. pose proof (Qfloor_le f). lra.
Qed.

Lemma add_int x y a b : (x == inject_Z a)%Q -> (y == inject_Z b)%Q -> 0 <= a + b < 2 ^ 53 -> (js_add x y == inject_Z (a + b))%Q.
Proof. intros E F H. apply fl_int; [rewrite E, F, inject_Z_plus; reflexivity|exact H]. Qed.
Lemma mul_int x y a b : (x == inject_Z a)%Q -> (y == inject_Z b)%Q -> 0 <= a * b < 2 ^ 53 -> (js_mul x y == inject_Z (a * b))%Q.
Proof. intros E F H. apply fl_int; [rewrite E, F, inject_Z_mult; reflexivity|exact H]. Qed.

Lemma Qeq_bool_Z a : Qeq_bool (inject_Z a) 0 = (a =? 0).
Proof.
  destruct (a =? 0) eqn:E.
  - apply Z.eqb_eq in E. subst. reflexivity.
  - destruct (Qeq_bool (inject_Z a) 0) eqn:F; [|reflexivity]. apply Qeq_bool_iff in F. unfold Qeq, inject_Z in F. cbn [Qnum Qden] in F. lia.
Qed.

Definition zline (L : Z) : Z := if L =? 0 then 128 else L.
Lemma js_line_Z L : js_line (inject_Z L) = inject_Z (zline L).
Proof. unfold js_line, zline. rewrite Qeq_bool_Z. destruct (L =? 0); reflexivity. Qed.

Lemma num_min n L : 0 <= n < 2 ^ 51 -> 0 <= L < 2 ^ 53 -> (num_minSize (inject_Z n) (inject_Z L) == inject_Z (js_minSize n L))%Q.
Proof.
  intros Hn HL. unfold num_minSize, js_minSize. rewrite Qeq_bool_Z. destruct (n =? 0) eqn:E; [reflexivity|].
  rewrite js_line_Z. fold (zline L). assert (HL' : 1 <= zline L < 2 ^ 53) by (unfold zline; destruct (L =? 0) eqn:EL; lia).
  assert (D : 0 <= n / zline L <= n) by (split; [apply Z.div_pos; lia|apply Z.div_le_upper_bound; nia]).
  apply add_int; [reflexivity| |lia].
  apply (mul_int _ _ 2); [reflexivity| |lia]. unfold js_floor. rewrite (floor_div _ _ n (zline L)); [reflexivity|reflexivity|reflexivity|lia|lia].
Qed.

Lemma num_max_k n L k r : 0 <= n < 2 ^ 50 -> 0 <= L < 2 ^ 53 -> 1 <= k <= 2 -> (r == inject_Z k)%Q ->
  (let chars := js_mul (inject_Z n) r in
   js_add (js_add (js_add (js_ceil chars) (js_mul 2 (js_floor (js_div chars (js_line (inject_Z L)))))) 2) (inject_Z 64)
   == inject_Z (n * k + 2 * ((n * k) / zline L) + 2 + 64))%Q.
Proof.
  intros Hn HL Hk Er. cbv zeta. rewrite js_line_Z. assert (HL' : 1 <= zline L < 2 ^ 53) by (unfold zline; destruct (L =? 0) eqn:EL; lia).
  assert (C : (js_mul (inject_Z n) r == inject_Z (n * k))%Q) by (apply mul_int; [reflexivity|exact Er|nia]).
  set (c := js_mul (inject_Z n) r) in *.
  assert (D : 0 <= n * k / zline L <= n * k) by (split; [apply Z.div_pos; nia|apply Z.div_le_upper_bound; nia]).
  assert (NK : 0 <= n * k <= 2 * n) by nia.
  apply add_int; [|reflexivity|lia]. apply add_int; [|reflexivity|lia]. apply add_int; [| |lia].
  - unfold js_ceil. rewrite (Qceiling_comp _ _ C), Qceiling_Z. reflexivity.
  - apply (mul_int _ _ 2); [reflexivity| |lia]. unfold js_floor. rewrite (floor_div _ _ (n * k) (zline L)); [reflexivity|exact C|reflexivity|lia|lia].
Qed.

Lemma num_max n L : 0 <= n < 2 ^ 50 -> 0 <= L < 2 ^ 53 ->
  exists s, num_maxSize (inject_Z n) (inject_Z L) None = Some s /\ (s == inject_Z (js_maxSize n L))%Q.
Proof.
  intros Hn HL. unfold num_maxSize, js_maxSize. rewrite Qeq_bool_Z. destruct (n =? 0) eqn:E; [eexists; split; reflexivity|].
  change (negb (Qle_bool 1 (inject_Z 2)) || negb (Qle_bool (inject_Z 2) 2)) with false. cbv iota.
  eexists. split; [reflexivity|]. apply (num_max_k n L 2); try lia. reflexivity.
Qed.

Lemma num_max1 n L : 0 <= n < 2 ^ 50 -> 0 <= L < 2 ^ 53 ->
  exists s, num_maxSize (inject_Z n) (inject_Z L) (Some 1%Q) = Some s /\ (s == inject_Z (js_maxSize n L))%Q.
Proof.
  intros Hn HL. unfold num_maxSize, js_maxSize. rewrite Qeq_bool_Z. destruct (n =? 0) eqn:E; [eexists; split; reflexivity|].
  change (negb (Qle_bool 1 (js_add 1 1)) || negb (Qle_bool (js_add 1 1) 2)) with false. cbv iota.
  eexists. split; [reflexivity|]. apply (num_max_k n L 2); try lia. reflexivity.
Qed.

Lemma num_max0 n L : 0 <= n < 2 ^ 50 -> 0 <= L < 2 ^ 53 ->
  exists s, num_maxSize (inject_Z n) (inject_Z L) (Some 0%Q) = Some s /\ (s == inject_Z (js_maxSize0 n L))%Q.
Proof.
  intros Hn HL. unfold num_maxSize, js_maxSize0. rewrite Qeq_bool_Z. destruct (n =? 0) eqn:E; [eexists; split; reflexivity|].
  change (negb (Qle_bool 1 (js_add 0 1)) || negb (Qle_bool (js_add 0 1) 2)) with false. cbv iota.
  eexists. split; [reflexivity|]. apply (num_max_k n L 1); try lia. reflexivity.
Qed.

(** ** maxSize with an escape ratio *)

Definition escapes (o : list byte) : Z := zlen (filter (beq EQS) o).

Lemma escapes_app a b : escapes (a ++ b) = escapes a + escapes b.
Proof. unfold escapes. rewrite filter_app, zlen_app. reflexivity. Qed.

Lemma escapes_char f l c : zlen (enc_char f l c) = 1 + escapes (enc_char f l c).
Proof. destruct f, l, c; vm_compute; reflexivity. Qed.

Lemma yenc_escapes L fin data : forall col,
  zlen (yenc L fin col data) = zlen data + escapes (yenc L fin col data) + 2 * breaks L fin col data.
Proof.
  induction data as [|c t IH]; intro col; [reflexivity|]. rewrite yenc_cons. cbn [breaks]. cbv zeta. rewrite (zlen_cons c t). destruct (L <=? col).
  - rewrite !zlen_cons, zlen_app. change (CR :: LF :: ?x) with ([CR; LF] ++ x). rewrite !escapes_app. change (escapes [CR; LF]) with 0.
    rewrite IH. pose proof (escapes_char true false c). lia.
  - rewrite zlen_app, escapes_app, IH. match goal with |- context [enc_char ?f ?g c] => pose proof (escapes_char f g c) end. lia.
Qed.

Lemma breaks_escapes L fin data : 1 <= L -> forall col, 0 <= col ->
  breaks L fin col data * L <= col + zlen data + escapes (yenc L fin col data).
Proof.
  intro HL. induction data as [|c t IH]; intros col Hc; [cbn; lia|]. rewrite yenc_cons. cbn [breaks]. cbv zeta. rewrite (zlen_cons c t). destruct (L <=? col) eqn:E.
  - change (CR :: LF :: ?x) with ([CR; LF] ++ x). rewrite !escapes_app. change (escapes [CR; LF]) with 0.
    pose proof (escapes_char true false c). pose proof (enc_char_len true false c).
    specialize (IH (zlen (enc_char true false c)) ltac:(lia)). rewrite Z.mul_add_distr_r. lia.
  - rewrite escapes_app. match goal with |- context [enc_char ?f ?g c] => pose proof (escapes_char f g c); pose proof (enc_char_len f g c);
      specialize (IH (col + zlen (enc_char f g c)) ltac:(lia)) end. lia.
Qed.

Lemma inject_pred z : (inject_Z (z - 1) == inject_Z z - 1)%Q.
Proof. unfold Z.sub. rewrite inject_Z_plus. reflexivity. Qed.

Lemma num_max_ratio data L col r s : data <> [] -> 1 <= L < 2 ^ 53 -> 0 <= col < L -> zlen data < 2 ^ 50 ->
  num_maxSize (inject_Z (zlen data)) (inject_Z L) (Some r) = Some s ->
  (inject_Z (escapes (yenc L true col data)) <= r * inject_Z (zlen data))%Q ->
  (inject_Z (zlen (yenc L true col data) + 62) <= s)%Q.
Proof.
  intros Hd HL Hc Hn H K. pose proof (yenc_escapes L true data col) as E1. pose proof (breaks_escapes L true data ltac:(lia) col ltac:(lia)) as E2.
  destruct (breaks_upper L true col data ltac:(lia) ltac:(lia)) as [E3 _]. rewrite E1. clear E1.
  set (k := escapes _) in *. set (b := breaks _ _ _ _) in *. set (n := zlen data) in *.
  assert (K0 : 0 <= k) by apply zlen_nonneg. assert (N1 : 1 <= n) by (subst n; destruct data; [congruence|rewrite zlen_cons; pose proof (zlen_nonneg data); lia]).
  clearbody k b n. unfold num_maxSize in H. rewrite Qeq_bool_Z in H. destruct (n =? 0) eqn:F; [lia|]. rewrite js_line_Z in H.
  assert (zline L = L) as ZL by (unfold zline; destruct (L =? 0) eqn:?; lia). rewrite ZL in H.
  set (r1 := js_add r 1) in *. destruct (negb (Qle_bool 1 r1) || negb (Qle_bool r1 2)) eqn:G; [discriminate H|].
  apply orb_false_iff in G. destruct G as [G1 G2]. apply negb_false_iff, Qle_bool_iff in G1. apply negb_false_iff, Qle_bool_iff in G2.
  cbv zeta in H. injection H as <-.
  assert (QN1 : (1 <= inject_Z n)%Q) by (change 1%Q with (inject_Z 1); rewrite <- Zle_Qle; lia).
  assert (QN2 : (inject_Z n < 1125899906842624)%Q) by (change 1125899906842624%Q with (inject_Z (2 ^ 50)); rewrite <- Zlt_Qlt; lia).
  assert (QK : (0 <= inject_Z k)%Q) by (change 0%Q with (inject_Z 0); rewrite <- Zle_Qle; lia).
  assert (R0 : (0 <= r)%Q).
  { destruct (Qlt_le_dec r 0) as [X|X]; [exfalso|exact X]. assert (0 < (- r) * inject_Z n)%Q by (apply Qmult_lt_0_compat; lra).
    assert (T : ((- r) * inject_Z n == - (r * inject_Z n))%Q) by ring. rewrite T in H. lra. }
  destruct (fl_ge1 (r + 1)%Q ltac:(lra)) as [_ A1]. fold (js_add r 1) in A1. fold r1 in A1.
  (* the characters *)
  assert (T0 : (inject_Z (n + k) <= (r + 1) * inject_Z n)%Q).
  { rewrite inject_Z_plus. assert (((r + 1) * inject_Z n == r * inject_Z n + inject_Z n)%Q) as -> by ring. lra. }
  assert (T1 : ((r + 1) * inject_Z n * (1 - u) <= r1 * inject_Z n)%Q).
  { assert (((r + 1) * inject_Z n * (1 - u) == ((r + 1) * (1 - u)) * inject_Z n)%Q) as -> by ring. apply Qmult_le_compat_r; lra. }
  assert (T2 : (inject_Z n <= r1 * inject_Z n)%Q).
  { rewrite <- (Qmult_1_l (inject_Z n)) at 1. apply Qmult_le_compat_r; lra. }
  assert (T3 : (r1 * inject_Z n <= 2 * inject_Z n)%Q) by (apply Qmult_le_compat_r; lra).
  assert (XX : (js_mul (inject_Z n) r1 - r1 * inject_Z n <= r1 * inject_Z n * u)%Q /\ (r1 * inject_Z n - js_mul (inject_Z n) r1 <= r1 * inject_Z n * u)%Q).
  { unfold js_mul. assert (C : (inject_Z n * r1 == r1 * inject_Z n)%Q) by ring. destruct (fl_ge1 (inject_Z n * r1)%Q) as [B1 B2]; [rewrite C; lra|].
    set (f := fl _) in *. rewrite C in B1, B2. split; assumption. }
  set (X := js_mul (inject_Z n) r1) in *. destruct XX as [X1 X2]. set (w := (r1 * inject_Z n)%Q) in *. set (v := ((r + 1) * inject_Z n)%Q) in *. clearbody X w v.
  assert (XL : (inject_Z (n + k) * (1 - 2 * u) <= X)%Q) by lra.
  assert (NK : (inject_Z (n + k) < 2251799813685249)%Q) by lra.
  assert (XLO : (inject_Z (n + k) - (5 # 8) <= X)%Q) by lra.
  assert (XHI : (X <= 2251799813685249)%Q) by lra.
  (* rounded up *)
  assert (CE : n + k <= Qceiling X <= 2251799813685249).
  { split.
    - assert (n + k - 1 < Qceiling X); [|lia]. rewrite Zlt_Qlt. pose proof (Qle_ceiling X). rewrite inject_pred. lra.
    - change 2251799813685249 with (Qceiling 2251799813685249). apply Qceiling_resp_le, XHI. }
  (* the quotient *)
  assert (L0 : (0 < inject_Z L)%Q) by (change 0%Q with (inject_Z 0); rewrite <- Zlt_Qlt; lia).
  assert (L1 : (1 <= inject_Z L)%Q) by (change 1%Q with (inject_Z 1); rewrite <- Zle_Qle; lia).
  assert (L2 : (inject_Z L < 9007199254740992)%Q) by (change 9007199254740992%Q with (inject_Z (2 ^ 53)); rewrite <- Zlt_Qlt; lia).
  assert (N0 : (1 <= inject_Z (n + k))%Q) by (change 1%Q with (inject_Z 1); rewrite <- Zle_Qle; lia).
  set (z := (X / inject_Z L)%Q). assert (Z : (z * inject_Z L == X)%Q) by (subst z; field; intro Y; rewrite Y in L0; discriminate L0).
  assert (S : (pow2 (-60) <= z)%Q).
  { destruct (Qlt_le_dec z (pow2 (-60))) as [Y|Y]; [exfalso|exact Y].
    assert (Y1 : (z * inject_Z L <= pow2 (-60) * inject_Z L)%Q) by (apply Qmult_le_compat_r; lra).
    change (pow2 (-60)) with (1 # 1152921504606846976)%Q in *. lra. }
  unfold js_div. fold z. destruct (fl_small z S) as [F1 F2]. set (f := fl z) in *. clearbody f.
  assert (F1' : ((f - z) * inject_Z L <= z * u * inject_Z L)%Q) by (apply Qmult_le_compat_r; lra).
  assert (F2' : ((z - f) * inject_Z L <= z * u * inject_Z L)%Q) by (apply Qmult_le_compat_r; lra).
  assert (Z0 : (z * u * inject_Z L == X * u)%Q) by (rewrite <- Z; ring).
  assert (Z1 : ((f - z) * inject_Z L == f * inject_Z L - X)%Q) by (rewrite <- Z; ring).
  assert (Z2 : ((z - f) * inject_Z L == X - f * inject_Z L)%Q) by (rewrite <- Z; ring).
  rewrite Z0, Z1 in F1'. rewrite Z0, Z2 in F2'.
  pose proof (Qfloor_le f) as FL. pose proof (Qlt_floor f) as FU.
  assert (FF : (n + k) / L - 1 <= Qfloor f).
  { assert ((n + k - 1) / L <= Qfloor f).
    - pose proof (Z.mul_div_le (n + k - 1) L ltac:(lia)) as M. set (q := (n + k - 1) / L) in *.
      assert (q < Qfloor f + 1); [|lia]. rewrite Zlt_Qlt.
      assert (QQ : (inject_Z q <= f)%Q); [|lra]. apply (Qmult_le_r _ _ (inject_Z L) L0).
      rewrite Zle_Qle in M. rewrite inject_Z_mult in M. rewrite inject_pred in M.
      rewrite (Qmult_comm (inject_Z q)). lra.
    - assert ((n + k) / L <= (n + k - 1) / L + 1); [|lia]. rewrite <- Z.div_add by lia. apply Z.div_le_mono; lia. }
  assert (FP : 0 <= Qfloor f <= 2251799813685250).
  { split.
    - change 0 with (Qfloor 0). apply Qfloor_resp_le. pose proof (pow2_pos (-60)). lra.
    - rewrite Zle_Qle. change (inject_Z 2251799813685250) with 2251799813685250%Q. assert (f <= 2251799813685250)%Q; [|lra].
      apply (Qmult_le_r _ _ (inject_Z L) L0). lra. }
  assert (BB : b <= 1 + (n + k) / L).
  { assert ((b - 1) <= (n + k) / L); [|lia]. apply Z.div_le_lower_bound; nia. }
  assert (SUM : (js_add (js_add (js_add (js_ceil X) (js_mul 2 (js_floor f))) 2) (inject_Z 64) == inject_Z (Qceiling X + 2 * Qfloor f + 2 + 64))%Q).
  { apply add_int; [|reflexivity|lia]. apply add_int; [|reflexivity|lia]. apply add_int; [reflexivity| |lia]. apply (mul_int _ _ 2); [reflexivity|reflexivity|lia]. }
  rewrite SUM, <- Zle_Qle. lia.
Qed.

(** Which ratios are accepted. *)
Lemma nearest_ge z x : (inject_Z z <= x)%Q -> z <= nearest x.
Proof.
  intro H. destruct (nearest_err x) as [A B]. destruct (Z_le_gt_dec z (nearest x)) as [|G]; [assumption|exfalso].
  assert (F : nearest x <= z - 1) by lia. rewrite Zle_Qle, inject_pred in F. lra.
Qed.
Lemma nearest_le z x : (x <= inject_Z z)%Q -> nearest x <= z.
Proof.
  intro H. destruct (nearest_err x) as [A B]. destruct (Z_le_gt_dec (nearest x) z) as [|G]; [assumption|exfalso].
  assert (F : z <= nearest x - 1) by lia. rewrite Zle_Qle, inject_pred in F. lra.
Qed.

Lemma fl_1_2 x : (1 <= x)%Q -> (x <= 2)%Q -> (1 <= fl x)%Q /\ (fl x <= 2)%Q.
Proof.
  intros A B. destruct (Qeq_dec x 2) as [E|E].
  { assert (F : (fl x == inject_Z 2)%Q) by (apply fl_int; [exact E|lia]). rewrite F. split; vm_compute; discriminate. }
  unfold fl. destruct (Qcompare_spec x 0) as [C|C|C]; try lra. unfold fl_pos. cbv zeta.
  assert (L : (pow2 (-1022) <= x)%Q) by (apply (Qle_trans _ 1); [vm_compute; discriminate|exact A]). apply ilog_max in L. set (e := Z.max (ilog x) (-1022)) in *.
  assert (He : e <= 0).
  { destruct (Z_le_gt_dec e 0) as [|G]; [assumption|exfalso].
    replace e with (1 + (e - 1)) in L by lia. rewrite pow2_add in L. change (pow2 1) with 2%Q in L.
    assert (1 <= pow2 (e - 1))%Q; [|apply E; lra]. rewrite pow2_Z by lia. change 1%Q with (inject_Z 1). rewrite <- Zle_Qle.
    assert (0 < 2 ^ (e - 1)) by (apply Z.pow_pos_nonneg; lia). lia. }
  set (y := (x * pow2 (52 - e))%Q).
  assert (P : (0 < pow2 (52 - e))%Q) by apply pow2_pos.
  assert (P' : (0 < pow2 (e - 52))%Q) by apply pow2_pos.
  assert (I : (pow2 (52 - e) * pow2 (e - 52) == 1)%Q) by (rewrite <- pow2_add; replace (52 - e + (e - 52)) with 0 by lia; reflexivity).
  assert (Z1 : 2 ^ (52 - e) <= nearest y).
  { apply nearest_ge. rewrite <- pow2_Z by lia. unfold y. nra. }
  assert (Z2 : nearest y <= 2 * 2 ^ (52 - e)).
  { apply nearest_le. rewrite inject_Z_mult, <- pow2_Z by lia. unfold y. change (inject_Z 2) with 2%Q. nra. }
  rewrite Zle_Qle, <- pow2_Z in Z1 by lia. rewrite Zle_Qle, inject_Z_mult, <- pow2_Z in Z2 by lia. change (inject_Z 2) with 2%Q in Z2.
  split; nra.
Qed.

Lemma fl_lt_1 x : (x <= 1 - pow2 (-52))%Q -> (fl x < 1)%Q.
Proof.
  intro H. assert (U : (0 < pow2 (-52))%Q) by apply pow2_pos. destruct (Qlt_le_dec x (pow2 (-1022))) as [S|S].
  - unfold fl. destruct (Qcompare_spec x 0) as [C|C|C]; [lra| |].
    + unfold fl_pos. cbv zeta. set (e := Z.max (ilog (- x)) (-1022)).
      assert (0 <= nearest (- x * pow2 (52 - e))).
      { apply nearest_ge. assert (0 < pow2 (52 - e))%Q by apply pow2_pos. change (inject_Z 0) with 0%Q. nra. }
      assert (0 < pow2 (e - 52))%Q by apply pow2_pos. rewrite Zle_Qle in H0. change (inject_Z 0) with 0%Q in H0. nra.
    + unfold fl_pos. cbv zeta. assert (L := ilog_le x C). assert (E : Z.max (ilog x) (-1022) = -1022).
      { destruct (Z_le_gt_dec (ilog x) (-1022)) as [|G]; [lia|exfalso].
        assert (X : (pow2 (-1022) <= pow2 (ilog x))%Q); [|lra].
        replace (ilog x) with (-1022 + (ilog x + 1022)) by lia. rewrite pow2_add.
        assert (1 <= pow2 (ilog x + 1022))%Q.
        { rewrite pow2_Z by lia. change 1%Q with (inject_Z 1). rewrite <- Zle_Qle. assert (0 < 2 ^ (ilog x + 1022)) by (apply Z.pow_pos_nonneg; lia). lia. }
        assert (0 < pow2 (-1022))%Q by apply pow2_pos. nra. }
      rewrite E. assert (N : nearest (x * pow2 (52 - -1022)) <= 2 ^ 52).
      { apply nearest_le. rewrite <- pow2_Z by lia. assert (0 < pow2 (52 - -1022))%Q by apply pow2_pos.
        assert (I : (pow2 (-1022) * pow2 (52 - -1022) == pow2 52)%Q) by (rewrite <- pow2_add; reflexivity). nra. }
      rewrite Zle_Qle, <- pow2_Z in N by lia. assert (0 < pow2 (-1022 - 52))%Q by apply pow2_pos.
      assert (I : (pow2 52 * pow2 (-1022 - 52) == pow2 (-1022))%Q) by (rewrite <- pow2_add; reflexivity).
      assert (pow2 (-1022) < 1)%Q by (vm_compute; reflexivity). nra.
  - destruct (fl_err x S) as [A _]. change (pow2 (-52)) with (1 # 4503599627370496)%Q in *. lra.
Qed.

Lemma ratio_accepted n L r : (0 <= r)%Q -> (r <= 1)%Q -> exists s, num_maxSize n L (Some r) = Some s.
Proof.
  intros A B. unfold num_maxSize. destruct (Qeq_bool n 0); [eexists; reflexivity|]. unfold js_add at 1 2.
  destruct (fl_1_2 (r + 1)) as [C D]; [lra|lra|]. apply Qle_bool_iff in C. apply Qle_bool_iff in D. rewrite C, D. eexists. reflexivity.
Qed.

Lemma ratio_rejected n L r : ~ (n == 0)%Q -> (r <= - pow2 (-52))%Q \/ (1 + pow2 (-51) <= r)%Q -> num_maxSize n L (Some r) = None.
Proof.
  intros N H. unfold num_maxSize. destruct (Qeq_bool n 0) eqn:E; [apply Qeq_bool_iff in E; contradiction|]. unfold js_add at 1 2.
  destruct H as [H|H].
  - assert (F : (fl (r + 1) < 1)%Q) by (apply fl_lt_1; lra).
    destruct (Qle_bool 1 (fl (r + 1))) eqn:G; [apply Qle_bool_iff in G; lra|reflexivity].
  - change (pow2 (-51)) with (1 # 2251799813685248)%Q in H. destruct (fl_ge1 (r + 1)) as [_ A]; [lra|].
    destruct (Qle_bool (fl (r + 1)) 2) eqn:G; [apply Qle_bool_iff in G; lra|]. rewrite orb_true_r. reflexivity.
Qed.
