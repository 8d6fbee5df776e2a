(** The front-end of the SIMD decoders on either byte order compared with the little-endian model. *)
From Verif Require Import Base BaseLemmas DecSpec DecModel DecNode DecText DecProofs DecGrow DecSimdModel DecSimdProofs DecSimdMain EndianModel DecEndianModel.
From Coq Require Import ZifyBool.
Open Scope Z_scope.

Lemma beq_bz x c : beq x c = (bz x =? bz c).
Proof. destruct (beq_spec x c) as [->|N]; [lia|]. assert (bz x <> bz c) by (intro E; apply N, bz_inj, E). lia. Qed.

Lemma o_is16_eq o B a c d m : In (c, d) [(CR, LF); (EQS, YY); (LF, DOT)] -> o_is16 o B a c d m = is16 B a c d m.
Proof.
  intro H. unfold o_is16, o_word16, is16, bind, load, ret. destruct (can_read B a); [|reflexivity]. destruct (can_read B (a + 1)); [|reflexivity].
  do 2 f_equal. rewrite !beq_bz. pose proof (bz_range (m a)). pose proof (bz_range (m (a + 1))).
  destruct H as [H|[H|[H|[]]]]; injection H as <- <-; destruct o;
    match goal with |- context [o_pack16 ?u ?x ?y] => let v := eval vm_compute in (o_pack16 u x y) in change (o_pack16 u x y) with v end;
    repeat match goal with |- context [bz ?c] => let v := eval vm_compute in (bz c) in match v with Z0 => idtac | Zpos _ => idtac end; change (bz c) with v end; lia.
Qed.
Lemma is24_little B a m : o_is24 Little B a LF EQS YY m = is24 B a LF EQS YY m.
Proof.
  unfold o_is24, o_word32, is24, bind, load, ret. destruct (can_read B a); [|reflexivity]. destruct (can_read B (a + 1)); [|reflexivity].
  destruct (can_read B (a + 2)); [|reflexivity]. destruct (can_read B (a + 3)); [|reflexivity].
  do 2 f_equal. rewrite !beq_bz. pose proof (bz_range (m a)). pose proof (bz_range (m (a + 1))). pose proof (bz_range (m (a + 2))). pose proof (bz_range (m (a + 3))).
  change 16777215 with (Z.ones 24). rewrite Z.land_ones by lia. change (o_pack32 Little (bz LF) (bz EQS) (bz YY) 0) with 7945482. change (2 ^ 24) with 16777216.
  change (bz LF) with 10. change (bz EQS) with 61. change (bz YY) with 121.
  revert H H0 H1 H2. generalize (bz (m a)), (bz (m (a + 1))), (bz (m (a + 2))), (bz (m (a + 3))). intros x y z w Hx Hy Hz Hw.
  assert (E : (x + 256 * y + 65536 * z + 16777216 * w) mod 16777216 = x + 256 * y + 65536 * z).
  { rewrite (Z.mul_comm 16777216 w), Z.mod_add by lia. apply Z.mod_small. lia. }
  rewrite E.
  lia.
Qed.
(** The masked word is below 2^24, the packed one is not. *)
Lemma is24_big B a m : o_is24 Big B a LF EQS YY m = (_ <- is24 B a LF EQS YY ;; ret false) m.
Proof.
  unfold o_is24, o_word32, is24, bind, load, ret. destruct (can_read B a); [|reflexivity]. destruct (can_read B (a + 1)); [|reflexivity].
  destruct (can_read B (a + 2)); [|reflexivity]. destruct (can_read B (a + 3)); [|reflexivity].
  do 2 f_equal. match goal with |- (Z.land ?w _ =? _) = _ => generalize w end. intro w.
  change 16777215 with (Z.ones 24). rewrite Z.land_ones by lia. change (o_pack32 Big (bz LF) (bz EQS) (bz YY) 0) with 171800832.
  pose proof (Z.mod_pos_bound w (2 ^ 24) ltac:(lia)). lia.
Qed.

Lemma bind_ext {A C} (x y : M A) (f g : A -> M C) m : x m = y m -> (forall a m', y m = Ok (a, m') -> f a m' = g a m') -> bind x f m = bind y g m.
Proof. intros E H. unfold bind. rewrite E. destruct (y m) as [[a m']| |]; auto. Qed.
Lemma andm_ext b x y m : (b = true -> x m = y m) -> andm b x m = andm b y m.
Proof. intro H. destruct b; auto. Qed.

Ltac in3 := first [left; reflexivity | right; left; reflexivity | right; right; left; reflexivity].
Lemma is16_mem B a c d m b m' : is16 B a c d m = Ok (b, m') -> m' = m.
Proof. unfold is16, bind, load, ret. destruct (can_read B a), (can_read B (a + 1)); intro E; try discriminate. injection E as _ <-. reflexivity. Qed.
Lemma andm_mem u B a c d m b m' : andm u (is16 B a c d) m = Ok (b, m') -> m' = m.
Proof. destruct u; [apply is16_mem|]. intro E. injection E as _ <-. reflexivity. Qed.

(** The switch is the same but for the comparison of line 87. *)
Lemma switch_eq o r e B src s m : (s = S_CR -> e = true -> o_is24 o B src LF EQS YY m = is24 B src LF EQS YY m) ->
  o_switch o r e B src s m = simd_switch r e B src s m.
Proof.
  intro H. unfold o_switch, simd_switch. destruct s; try reflexivity.
  - (* CRLF *)
    apply bind_ext; [reflexivity|]. intros c m1 _. destruct c.
    + apply bind_ext; [apply andm_ext; intros _; apply o_is16_eq; in3|]. intros b m2 _. destruct b; [reflexivity|].
      apply bind_ext; [apply andm_ext; intros _; apply o_is16_eq; in3|]. reflexivity.
    + apply bind_ext; [apply andm_ext; intros _; apply o_is16_eq; in3|]. reflexivity.
  - (* CR *)
    apply bind_ext; [apply andm_ext; intros _; apply o_is16_eq; in3|]. intros c m1 E1. apply andm_mem in E1. subst m1. destruct c.
    + apply bind_ext; [apply andm_ext; intros _; apply o_is16_eq; in3|]. intros b m1 E1. apply andm_mem in E1. subst m1. destruct b; [reflexivity|].
      apply bind_ext; [apply andm_ext; intros _; apply o_is16_eq; in3|]. reflexivity.
    + apply bind_ext; [apply andm_ext; auto|]. reflexivity.
  - (* CRLFDT *)
    apply bind_ext; [apply andm_ext; intros _; apply o_is16_eq; in3|]. intros b m2 _. destruct b; [reflexivity|].
    apply bind_ext; [apply andm_ext; intros _; apply o_is16_eq; in3|]. reflexivity.
Qed.

Lemma aligned_eq o K r e w B src dest len s m : (s = S_CR -> e = true -> o_is24 o B src LF EQS YY m = is24 B src LF EQS YY m) ->
  o_simd_aligned o K r e w B src dest len s m = simd_aligned K r e w B src dest len s m.
Proof.
  intro H. unfold o_simd_aligned, simd_aligned. cbv zeta. destruct (_ <? _); [|reflexivity].
  apply bind_ext; [apply switch_eq; exact H|]. reflexivity.
Qed.

Lemma decode_same o K r e w B src dest len st m : (forall a m, e = true -> o_is24 o B a LF EQS YY m = is24 B a LF EQS YY m) ->
  o_decode_simd o K r e w B src dest len st m = do_decode_simd K r e w B src dest len st m.
Proof.
  intro H. unfold o_decode_simd, do_decode_simd. destruct (_ <=? _); [reflexivity|]. cbv zeta.
  apply bind_ext; [|reflexivity]. destruct (negb _); [|apply aligned_eq; auto].
  apply bind_ext; [reflexivity|]. intros [[[e1 s1] d1] st1] m1 _. destruct e1, st1; try reflexivity. apply aligned_eq. auto.
Qed.
Lemma decode_aligned_same o K r e w B src dest len st m : Z.land src (w - 1) = 0 ->
  (st = Some S_CR -> e = true -> o_is24 o B src LF EQS YY m = is24 B src LF EQS YY m) ->
  o_decode_simd o K r e w B src dest len st m = do_decode_simd K r e w B src dest len st m.
Proof.
  intros Ha H. unfold o_decode_simd, do_decode_simd. destruct (_ <=? _); [reflexivity|]. cbv zeta.
  apply bind_ext; [|reflexivity]. rewrite Ha. cbn [negb Z.eqb]. apply aligned_eq. intros E. apply H. destruct st; [congruence|discriminate].
Qed.
Lemma is24_no B a m : ~ (m a = LF /\ m (a + 1) = EQS /\ m (a + 2) = YY) -> o_is24 Big B a LF EQS YY m = is24 B a LF EQS YY m.
Proof.
  intro N. rewrite is24_big. unfold is24, bind, load, ret. destruct (can_read B a); [|reflexivity]. destruct (can_read B (a + 1)); [|reflexivity].
  destruct (can_read B (a + 2)); [|reflexivity]. destruct (can_read B (a + 3)); [|reflexivity].
  do 2 f_equal. destruct (beq_spec (m a) LF), (beq_spec (m (a + 1)) EQS), (beq_spec (m (a + 2)) YY); try reflexivity. tauto.
Qed.
Lemma switch_missed r B src m : rlo B <= src -> src + 4 <= rhi B -> m src = LF -> m (src + 1) = EQS -> m (src + 2) = YY ->
  o_switch Big r true B src S_CR m = Ok (inr 0, m).
Proof.
  intros H1 H2 E0 E1 E2. unfold o_switch.
  assert (R : forall k, 0 <= k < 4 -> can_read B (src + k) = true) by (intros; unfold can_read; lia).
  pose proof (R 0 ltac:(lia)) as R0. pose proof (R 1 ltac:(lia)) as R1. pose proof (R 2 ltac:(lia)) as R2. pose proof (R 3 ltac:(lia)) as R3. rewrite Z.add_0_r in R0.
  assert (A : andm r (o_is16 Big B src LF DOT) m = Ok (false, m)).
  { destruct r; [|reflexivity]. cbn [andm]. rewrite o_is16_eq by in3. unfold is16, bind, load, ret. rewrite R0, R1, E0, E1. reflexivity. }
  unfold bind at 1. rewrite A. cbn [andm]. unfold bind at 1. rewrite is24_big. unfold is24, bind, load, ret. rewrite R0, R1, R2, R3. reflexivity.
Qed.

(** Sources that need not be aligned. *)
Lemma is24_text B a m l : bytes_at m a l -> 3 <= zlen l -> ~ (exists u, l = [LF; EQS; YY] ++ u) ->
  o_is24 Big B a LF EQS YY m = is24 B a LF EQS YY m.
Proof.
  intros Hm Hl N. apply is24_no. intros (E0 & E1 & E2). apply N.
  destruct l as [|x [|y [|z u]]]; try (exfalso; revert Hl; clear; rewrite ?zlen_cons; change (zlen (@nil byte)) with 0; lia).
  destruct Hm as (X & Y & Z & _). replace (a + 1 + 1) with (a + 2) in Z by lia. exists u. cbn [app]. congruence.
Qed.
Lemma decode_anywhere K B n src dest data s m : 1 <= n -> dgeom B src (zlen data) dest -> bytes_at m src data ->
  ~ (exists t u, data = t ++ [LF; EQS; YY] ++ u /\ zlen t < 2 ^ n /\ (src + zlen t) mod 2 ^ n = 0) ->
  o_decode_simd Big K true true (2 ^ n) B src dest (zlen data) (Some s) m = do_decode_simd K true true (2 ^ n) B src dest (zlen data) (Some s) m.
Proof.
  intros Hn G Hm N. unfold o_decode_simd, do_decode_simd. destruct (zlen data <=? 2 ^ n * 2) eqn:EL; [reflexivity|]. cbv zeta.
  pose proof (w_ge n Hn) as W. set (w := 2 ^ n) in *.
  apply bind_ext; [|reflexivity].
  assert (LM : Z.land src (w - 1) = src mod w). { subst w. rewrite <- Z.land_ones by lia. f_equal. rewrite Z.ones_equiv. lia. }
  rewrite LM. destruct (src mod w =? 0) eqn:E1; cbn [negb].
  - apply aligned_eq. intros _ _. apply (is24_text B src m data Hm); [lia|]. intros [u ->]. apply N. exists [], u.
    split; [reflexivity|]. change (zlen (@nil byte)) with 0. rewrite Z.add_0_r. lia.
  - unfold w. rewrite align_down_pow2 by lia. fold w.
    pose proof (Z.mod_pos_bound (src + (w - 1)) w ltac:(lia)) as MB.
    set (amount := src + (w - 1) - (src + (w - 1)) mod w - src) in *.
    assert (AM : (src + amount) mod w = 0).
    { subst amount. replace (src + (src + (w - 1) - (src + (w - 1)) mod w - src)) with ((src + (w - 1)) - (src + (w - 1)) mod w) by lia.
      rewrite Zminus_mod, Zmod_mod, Z.sub_diag. reflexivity. }
    assert (AB : 0 <= amount <= w - 1) by (subst amount; lia). clearbody amount.
    destruct (split_at data amount ltac:(lia)) as (a & l & El & Ea).
    assert (ZL : zlen data = zlen a + zlen l) by (rewrite El; apply zlen_app).
    pose proof (zlen_nonneg a). pose proof (zlen_nonneg l).
    assert (Hma : bytes_at m src a /\ bytes_at m (src + zlen a) l) by (rewrite El in Hm; apply bytes_at_app in Hm; exact Hm).
    destruct Hma as [Hma Hml]. destruct G as [G1 G2 G3 G4 G5].
    destruct (scalar_mode true true B src dest a m (Some s)) as (m1 & o1 & s1 & e1 & rst1 & R1 & C1 & Q1 & F1); auto.
    { intro. split; auto. discriminate. }
    { constructor; lia. }
    rewrite Ea in C1. unfold bind. rewrite C1. cbv beta iota. destruct e1; try reflexivity. cbn [closes]. cbv iota.
    cbn [start run_mode] in R1. apply run_end_done in R1 as ->. change (zlen (@nil byte)) with 0. rewrite Z.sub_0_r.
    apply aligned_eq. intros _ _. apply (is24_text B (src + amount) m1 l).
    { rewrite <- Ea. revert Hml. apply bytes_at_ext. intros q Hq. apply F1. lia. }
    { lia. }
    intros [u ->]. apply N. exists a, u. rewrite Ea. split; [exact El|]. split; [lia|exact AM].
Qed.
