(** Proofs about the ARM CRC code. *)
From Verif Require Import Base BaseLemmas CrcSpec CrcLin CrcModel CrcAlg CrcProofs CrcMul CrcNodeProofs ClmulModel ClmulProofs
  ClmulMul MulLoop ArmModel CrcIsaProofs.
From Coq Require Import NArith Lia ZifyN ZifyBool ZifyNat.
Open Scope N_scope.
Ltac Zify.zify_post_hook ::= Z.to_euclidean_division_equations.

Lemma insn_ok bits acc d : crc32_insn bits acc d = times_x bits (acc ⊕ d). Proof. reflexivity. Qed.
Local Opaque N.lxor N.land N.shiftl N.shiftr times_x crc32_insn.

(** ** The bytes *)
Section Bytes.
Context (B : bufs) (m : mem).
Lemma feed_ok p c l r : readable B m p (l ++ r) ->
  crc_feed B (length l) (p, c) m = Ok ((p + zlen l, crc_bytes c l)%Z, m) /\ readable B m (p + zlen l) r.
Proof.
  intro H. apply readable_app in H. destruct H as [H1 H2]. split; [|exact H2]. unfold crc_feed. cbn [fst snd].
  erewrite bind_ok by (apply loadu_ok; exact H1). unfold ret. rewrite insn_ok, crc_bytes_le. reflexivity.
Qed.
Lemma feeds_ok n : (0 < n)%nat -> forall k p c l, readable B m p l -> (Z.of_nat (n * k) <= zlen l)%Z ->
  exists d r, l = d ++ r /\ zlen d = Z.of_nat (n * k) /\ readable B m (p + zlen d) r /\
    crc_feeds k B n (p, c) m = Ok ((p + zlen d, crc_bytes c d)%Z, m).
Proof.
  intro Hn. induction k as [|k IH]; intros p c l H L.
  - exists [], l. change (zlen (@nil byte)) with 0%Z. rewrite Z.add_0_r. repeat split; try apply H. lia.
  - destruct (cut l (Z.of_nat n) ltac:(lia)) as (a & b & -> & Ha).
    assert (La : length a = n) by (unfold zlen in Ha; lia).
    destruct (feed_ok p c a b H) as [F1 F2]. rewrite La in F1. rewrite zlen_app in L.
    destruct (IH (p + zlen a)%Z (crc_bytes c a) b F2 ltac:(lia)) as (d & r & -> & Hd & R & E).
    exists (a ++ d), r. rewrite zlen_app, app_assoc, crc_bytes_app, Z.add_assoc. conjs; [reflexivity|lia|exact R|].
    cbn [crc_feeds]. erewrite bind_ok by exact F1. exact E.
Qed.

(** What the parts of the computation do: they consume [d] of [d ++ r]. *)
Lemma align_ok n p c l : (0 < n)%nat -> readable B m p l -> (Z.of_nat n <= zlen l)%Z ->
  exists d r, l = d ++ r /\ (zlen d <= Z.of_nat n)%Z /\ readable B m (p + zlen d) r /\
    align_step B n (p, c, zlen l) m = Ok ((p + zlen d, crc_bytes c d, zlen r)%Z, m).
Proof.
  intros Hn H L. unfold align_step. destruct (Z.land p (Z.of_nat n) =? 0)%Z.
  - exists [], l. change (zlen (@nil byte)) with 0%Z. rewrite Z.add_0_r. conjs; [reflexivity|lia|exact H|reflexivity].
  - destruct (cut l (Z.of_nat n) ltac:(lia)) as (a & b & -> & Ha).
    assert (La : length a = n) by (unfold zlen in Ha; lia).
    destruct (feed_ok p c a b H) as [F1 F2]. rewrite La in F1. exists a, b. conjs; [reflexivity|lia|exact F2|].
    erewrite bind_ok by exact F1. cbv beta iota. unfold ret. rewrite zlen_app, Ha.
    replace (Z.of_nat n + zlen b - Z.of_nat n)%Z with (zlen b) by lia. reflexivity.
Qed.
Lemma loop_ok a64 fuel : forall p c l, readable B m p l -> (zlen l <= Z.of_nat fuel)%Z ->
  exists d r, l = d ++ r /\ (zlen r < 8 * Z.of_nat (WS a64))%Z /\ readable B m (p + zlen d) r /\
    arm_loop a64 fuel B (p, c) (zlen l) m = Ok ((p + zlen d, crc_bytes c d, zlen r - 8 * Z.of_nat (WS a64))%Z, m).
Proof.
  assert (W : (0 < WS a64)%nat) by (destruct a64; cbn; lia).
  assert (E8 : (Z.of_nat (WS a64 * 8) = Z.of_nat (WS a64) * 8)%Z) by lia.
  induction fuel as [|fuel IH]; intros p c l H L; cbn [arm_loop]; cbv zeta;
    (destruct (Z.leb_spec 0 (zlen l - Z.of_nat (WS a64) * 8)) as [G|G];
    [|exists [], l; change (zlen (@nil byte)) with 0%Z; rewrite Z.add_0_r; conjs; [reflexivity|lia|exact H|];
      unfold ret; rewrite Z.mul_comm; reflexivity]).
  - lia.
  - destruct (feeds_ok (WS a64) W 8 p c l H ltac:(lia)) as (d & r & -> & Hd & R & F).
    rewrite zlen_app in *. destruct (IH (p + zlen d)%Z (crc_bytes c d) r R ltac:(lia)) as (d' & r' & -> & Hr & R' & F').
    exists (d ++ d'), r'. rewrite !zlen_app, app_assoc, crc_bytes_app, Z.add_assoc. conjs; [reflexivity|exact Hr|exact R'|].
    erewrite bind_ok by exact F. rewrite zlen_app in F'.
    replace (zlen d + (zlen d' + zlen r') - Z.of_nat (WS a64) * 8)%Z with (zlen d' + zlen r')%Z by lia. exact F'.
Qed.
Lemma land_bit len j : (0 <= j)%Z -> (Z.land len (2 ^ j) =? 0)%Z = negb (Z.testbit len j).
Proof.
  intro Hj. destruct (Z.testbit len j) eqn:T; cbn [negb].
  - apply Z.eqb_neq. intro E. assert (F : Z.testbit (Z.land len (2 ^ j)) j = true).
    { rewrite Z.land_spec, T, Z.pow2_bits_true by lia. reflexivity. }
    rewrite E, Z.bits_0 in F. discriminate.
  - apply Z.eqb_eq. apply Z.bits_inj'. intros i Hi. rewrite Z.land_spec, Z.bits_0, Z.pow2_bits_eqb by lia.
    destruct (Z.eqb_spec j i) as [<-|]; [rewrite T|rewrite andb_false_r]; reflexivity.
Qed.
Lemma tail_ok k n j len p c l : (0 < n)%nat -> (Z.of_nat (n * k) = 2 ^ j)%Z -> (0 <= j)%Z -> readable B m p l ->
  (zlen l < 2 * 2 ^ j)%Z -> (exists q, len = zlen l + q * (2 * 2 ^ j))%Z ->
  exists d r, l = d ++ r /\ (zlen r < 2 ^ j)%Z /\ (exists q, len = zlen r + q * 2 ^ j)%Z /\ readable B m (p + zlen d) r /\
    tail_step k B n len (p, c) m = Ok ((p + zlen d, crc_bytes c d)%Z, m).
Proof.
  intros Hn Hk Hj H L [q Hq]. unfold tail_step.
  replace (Z.of_nat n * Z.of_nat k)%Z with (2 ^ j)%Z by lia. rewrite land_bit by exact Hj.
  pose proof (Z.pow_pos_nonneg 2 j ltac:(lia) Hj) as Hp. pose proof (zlen_nonneg l) as Hz.
  assert (T : Z.testbit len j = (2 ^ j <=? zlen l)%Z).
  { rewrite Z.testbit_odd, Z.shiftr_div_pow2 by exact Hj. subst len.
    replace (zlen l + q * (2 * 2 ^ j))%Z with (zlen l + (2 * q) * 2 ^ j)%Z by lia. rewrite Z.div_add by lia.
    rewrite Z.odd_add_mul_2. destruct (Z.leb_spec (2 ^ j) (zlen l)) as [G|G].
    - replace (zlen l / 2 ^ j)%Z with 1%Z; [reflexivity|]. apply (Z.div_unique _ _ _ (zlen l - 2 ^ j)); lia.
    - rewrite Z.div_small by lia. reflexivity. }
  rewrite T. destruct (Z.leb_spec (2 ^ j) (zlen l)) as [G|G]; cbn [negb].
  - destruct (feeds_ok n Hn k p c l H ltac:(lia)) as (d & r & -> & Hd & R & F). rewrite zlen_app in *.
    exists d, r. conjs; [reflexivity|lia| |exact R|exact F]. exists (2 * q + 1)%Z. subst len. lia.
  - exists [], l. change (zlen (@nil byte)) with 0%Z. rewrite Z.add_0_r. conjs; [reflexivity|lia| |exact H|reflexivity].
    exists (2 * q)%Z. subst len. lia.
Qed.

Theorem arm_calc_ok a64 c src data : readable B m src data ->
  arm_crc_calc a64 c B src (zlen data) m = Ok (crc_bytes c data, m).
Proof.
  intro H. unfold arm_crc_calc.
  (* alignment *)
  match goal with |- bind ?e ?k m = _ =>
    assert (S1 : exists d r, data = d ++ r /\ readable B m (src + zlen d) r /\ e m = Ok ((src + zlen d, crc_bytes c d, zlen r)%Z, m)) end.
  { destruct (Z.leb_spec 16 (zlen data)) as [L|L].
    - destruct (align_ok 1 src c data ltac:(lia) H ltac:(lia)) as (d1 & r1 & -> & L1 & R1 & E1).
      rewrite zlen_app in L. erewrite bind_ok by exact E1. clear E1.
      destruct (align_ok 2 _ (crc_bytes c d1) r1 ltac:(lia) R1 ltac:(lia)) as (d2 & r2 & -> & L2 & R2 & E2).
      rewrite zlen_app in L. erewrite bind_ok by exact E2. clear E2. destruct a64.
      + destruct (align_ok 4 _ (crc_bytes (crc_bytes c d1) d2) r2 ltac:(lia) R2 ltac:(lia)) as (d3 & r3 & -> & L3 & R3 & E3).
        exists (d1 ++ d2 ++ d3), r3. rewrite zlen_app in E3. rewrite !zlen_app, !crc_bytes_app, <- !app_assoc, !Z.add_assoc.
        conjs; [reflexivity|exact R3|exact E3].
      + exists (d1 ++ d2), r2. rewrite !zlen_app, !crc_bytes_app, <- !app_assoc, !Z.add_assoc.
        conjs; [reflexivity|exact R2|reflexivity].
    - exists [], data. change (zlen (@nil byte)) with 0%Z. rewrite Z.add_0_r. conjs; [reflexivity|exact H|reflexivity]. }
  destruct S1 as (d0 & r0 & -> & R0 & E0). erewrite bind_ok by exact E0. clear E0 H. cbv beta iota.
  rewrite crc_bytes_app. generalize (crc_bytes c d0) as c0. generalize dependent (src + zlen d0)%Z. clear c d0 src.
  intros p R0 c.
  destruct (loop_ok a64 (Z.to_nat (zlen r0)) p c r0 R0 ltac:(lia)) as (d1 & r1 & -> & L1 & R1 & E1).
  erewrite bind_ok by exact E1. clear E1 R0. cbv beta iota. rewrite crc_bytes_app.
  generalize (crc_bytes c d1) as c1. generalize dependent (p + zlen d1)%Z. clear c d1 p. intros p R1 c.
  set (len := (zlen r1 - 8 * Z.of_nat (WS a64))%Z).
  set (w := if a64 then 3%Z else 2%Z).
  assert (Ww : Z.of_nat (WS a64) = (2 ^ w)%Z) by (destruct a64; reflexivity).
  assert (W0 : (0 < WS a64)%nat) by (destruct a64; cbn; lia).
  assert (Hw : (2 <= w)%Z) by (destruct a64; cbn; lia).
  assert (P2 : (2 ^ (w + 2) = 4 * 2 ^ w)%Z) by (rewrite Z.pow_add_r by lia; lia).
  assert (P1 : (2 ^ (w + 1) = 2 * 2 ^ w)%Z) by (rewrite Z.pow_add_r by lia; lia).
  assert (Q1 : exists q, (len = zlen r1 + q * (2 * 2 ^ (w + 2)))%Z) by (exists (-1)%Z; lia).
  clearbody len.
  destruct (tail_ok 4 (WS a64) (w + 2) len p c r1 W0 ltac:(lia) ltac:(lia) R1 ltac:(lia) Q1) as (d & r & -> & L & Q & R & E).
  erewrite bind_ok by exact E. clear E R1 L1 Q1. rewrite crc_bytes_app.
  generalize (crc_bytes c d) as c1. generalize dependent (p + zlen d)%Z. clear c d p. intros p R c.
  replace (2 ^ (w + 2))%Z with (2 * 2 ^ (w + 1))%Z in L, Q by lia.
  destruct (tail_ok 2 (WS a64) (w + 1) len p c r W0 ltac:(lia) ltac:(lia) R L Q) as (d & r2 & -> & L2 & Q2 & R2 & E).
  erewrite bind_ok by exact E. clear E R L Q. rewrite crc_bytes_app.
  generalize (crc_bytes c d) as c1. generalize dependent (p + zlen d)%Z. clear c d p. intros p R2 c.
  rewrite P1 in L2, Q2.
  destruct (tail_ok 1 (WS a64) w len p c r2 W0 ltac:(lia) ltac:(lia) R2 L2 Q2) as (d & r & -> & L & Q & R & E).
  erewrite bind_ok by exact E. clear E R2 L2 Q2. rewrite crc_bytes_app.
  generalize (crc_bytes c d) as c1. generalize dependent (p + zlen d)%Z. clear c d p. intros p R c.
  (* 4 bytes *)
  match goal with |- bind ?e ?k m = _ =>
    assert (S1 : exists d r', r = d ++ r' /\ (zlen r' < 4)%Z /\ (exists q, len = zlen r' + q * 4)%Z /\ readable B m (p + zlen d) r' /\
      e m = Ok ((p + zlen d, crc_bytes c d)%Z, m)) end.
  { subst w. destruct a64.
    - exact (tail_ok 1 4 2 len p c r ltac:(lia) eq_refl ltac:(lia) R L Q).
    - exists [], r. change (zlen (@nil byte)) with 0%Z. rewrite Z.add_0_r. conjs; [reflexivity|exact L|exact Q|exact R|reflexivity]. }
  clear L Q R. destruct S1 as (d & r' & -> & L & Q & R & E).
  erewrite bind_ok by exact E. clear E. rewrite crc_bytes_app.
  generalize (crc_bytes c d) as c1. generalize dependent (p + zlen d)%Z. clear c d p. intros p R c.
  destruct (tail_ok 1 2 1 len p c r' ltac:(lia) eq_refl ltac:(lia) R L Q) as (d & r & -> & L' & Q' & R' & E).
  erewrite bind_ok by exact E. clear E R L Q. rewrite crc_bytes_app.
  generalize (crc_bytes c d) as c1. generalize dependent (p + zlen d)%Z. clear c d p. intros p R c.
  destruct (tail_ok 1 1 0 len p c r ltac:(lia) eq_refl ltac:(lia) R L' Q') as (d & r' & -> & L & Q & R' & E).
  erewrite bind_ok by exact E. change (2 ^ 0)%Z with 1%Z in L.
  destruct r' as [|x r']; [rewrite app_nil_r; reflexivity|].
  change (zlen (x :: r')) with (zlen ([x] ++ r')) in L. rewrite zlen_app in L. pose proof (zlen_nonneg r').
  change (zlen [x]) with 1%Z in L. lia.
Qed.
End Bytes.

Definition arm_crc (a64 : bool) : crc_fun := fun B src len init => c <- arm_crc_calc a64 (not32 init) B src len ;; ret (not32 c).
Lemma arm_crc_ok a64 : crc_ok (arm_crc a64).
Proof.
  intros B m src data init H Hi. unfold arm_crc. erewrite bind_ok by (apply arm_calc_ok; exact H). unfold ret, crc32_spec.
  rewrite !not32_compl. reflexivity.
Qed.
