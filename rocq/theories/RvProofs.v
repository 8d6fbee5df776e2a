(** Proofs about the RISC-V CRC code. *)
From Verif Require Import Base BaseLemmas CrcSpec CrcLin CrcModel CrcAlg CrcProofs CrcMul CrcNodeProofs ClmulModel ClmulProofs
  ClmulMul MulLoop ArmMul RvModel ArmProofs.
From Coq Require Import NArith Lia ZifyN ZifyBool ZifyNat.
Open Scope N_scope.
Ltac Zify.zify_post_hook ::= Z.to_euclidean_division_equations.

(** ** Instructions *)
Lemma lin_wrap x64 f : lin f -> lin (fun x => wrap x64 (f x)). Proof. unfold wrap. auto with lin. Qed.
Lemma lin_shl x64 f k : lin f -> lin (fun x => shl x64 (f x) k). Proof. unfold shl, wrap. auto with lin. Qed.
Lemma lin_clmul f k : lin f -> lin (fun x => clmul (f x) k). Proof. apply lin_clmul_n_l. Qed.
Lemma lin_rvl x64 f k : lin f -> lin (fun x => rv_clmul x64 (f x) k).
Proof. intro. unfold rv_clmul. apply lin_wrap, lin_clmul. assumption. Qed.
Lemma lin_rvh x64 f k : lin f -> lin (fun x => rv_clmulh x64 (f x) k).
Proof. intro. unfold rv_clmulh. apply lin_shiftr, lin_clmul. assumption. Qed.
Lemma lin_L x64 f k : lin f -> lin (fun x => CLMULL x64 (f x) k).
Proof. intro. unfold CLMULL. destruct x64; apply lin_rvl; assumption. Qed.
Lemma lin_H x64 f k : lin f -> lin (fun x => CLMULH x64 (f x) k).
Proof.
  intro. unfold CLMULH. destruct x64; [apply lin_rvh; assumption|].
  apply (lin_xor (fun x => rv_clmulh false (f x) _)); [apply lin_rvh; assumption|].
  destruct (_ <? k); [assumption|apply lin_zero].
Qed.
Lemma wrap_bound x64 x : wrap x64 x < 2 ^ XL x64.
Proof. unfold wrap. rewrite N.land_ones. apply N.mod_lt, N.pow_nonzero. discriminate. Qed.
Lemma wrap_id x64 x : x < 2 ^ XL x64 -> wrap x64 x = x.
Proof. intro. unfold wrap. rewrite N.land_ones. apply N.mod_small. assumption. Qed.
Lemma L_bound x64 x k : CLMULL x64 x k < 2 ^ XL x64.
Proof. unfold CLMULL, rv_clmul. destruct x64; apply wrap_bound. Qed.
Lemma rvl_bound x64 x k : rv_clmul x64 x k < 2 ^ XL x64.
Proof. apply wrap_bound. Qed.
Lemma rvh_bound x64 x k : x < 2 ^ XL x64 -> k < 2 ^ 64 -> (x64 = false -> k < 2 ^ 32) -> rv_clmulh x64 x k < 2 ^ XL x64.
Proof.
  intros Hx Hk H32. unfold rv_clmulh. apply lt_shiftr. apply (clmul_bound x k (XL x64) (XL x64) Hx).
  destruct x64; [exact Hk|apply H32; reflexivity].
Qed.
Lemma H_bound x64 x k : x < 2 ^ XL x64 -> k < 2 ^ 64 -> CLMULH x64 x k < 2 ^ XL x64.
Proof.
  intros Hx Hk. unfold CLMULH, rv_clmulh. destruct x64; unfold XL in *.
  - apply lt_shiftr. apply (clmul_bound x k 64 64); assumption.
  - apply lt_xor.
    + apply lt_shiftr. apply (clmul_bound x _ 32 32); [assumption|]. apply lt_land_r. reflexivity.
    + destruct (_ <? k); [assumption|reflexivity].
Qed.
#[export] Hint Resolve lin_wrap lin_shl lin_clmul lin_rvl lin_rvh lin_L lin_H : lin.

Local Opaque N.lxor N.land N.shiftl N.shiftr times_x clmul RvModel.CLMULL RvModel.CLMULH.

Ltac check64 := vm_cast_no_check (eq_refl true).
(** ** What the constants do *)
Lemma lo_ok x64 x : x < 2 ^ XL x64 ->
  times_x (2 * XL x64) (CLMULL x64 x (MUL_LO x64)) ⊕ times_x (XL x64) (CLMULH x64 x (MUL_LO x64)) = times_x (6 * XL x64) x.
Proof.
  revert x. apply (lin_check (XL x64)
    (fun x => times_x (2 * XL x64) (CLMULL x64 x (MUL_LO x64)) ⊕ times_x (XL x64) (CLMULH x64 x (MUL_LO x64)))
    (fun x => times_x (6 * XL x64) x)); [auto 10 with lin|auto with lin|]. destruct x64; check64.
Qed.
Lemma hi_ok x64 x : x < 2 ^ XL x64 ->
  times_x (2 * XL x64) (CLMULL x64 x (MUL_HI x64)) ⊕ times_x (XL x64) (CLMULH x64 x (MUL_HI x64)) = times_x (5 * XL x64) x.
Proof.
  revert x. apply (lin_check (XL x64)
    (fun x => times_x (2 * XL x64) (CLMULL x64 x (MUL_HI x64)) ⊕ times_x (XL x64) (CLMULH x64 x (MUL_HI x64)))
    (fun x => times_x (5 * XL x64) x)); [auto 10 with lin|auto with lin|]. destruct x64; check64.
Qed.
Lemma LO_bound x64 : MUL_LO x64 < 2 ^ 64. Proof. destruct x64; reflexivity. Qed.
Lemma HI_bound x64 : MUL_HI x64 < 2 ^ 64. Proof. destruct x64; reflexivity. Qed.

(** ** The state *)
Section State.
Context (x64 : bool).
Notation W := (XL x64).
Definition small4 (c : accum) : Prop :=
  let '(a0, a1, a2, a3) := c in a0 < 2 ^ W /\ a1 < 2 ^ W /\ a2 < 2 ^ W /\ a3 < 2 ^ W.
Definition val4 (c : accum) : N :=
  let '(a0, a1, a2, a3) := c in times_x (4 * W) a0 ⊕ times_x (3 * W) a1 ⊕ times_x (2 * W) a2 ⊕ times_x W a3.
Definition holds (c : accum) (v : N) : Prop := small4 c /\ val4 c = v.

Lemma init_ok crc : word crc -> holds (rv_init x64 crc) crc.
Proof.
  intro H. split.
  - unfold rv_init, small4. destruct x64; conjs; try reflexivity; try apply rvl_bound.
    apply (rvh_bound false); [exact H|reflexivity|reflexivity].
  - revert crc H. apply (lin_check 32 (fun crc => val4 (rv_init x64 crc)) (fun c => c)).
    + unfold rv_init, val4. destruct x64; auto 10 with lin.
    + apply lin_id.
    + unfold rv_init, val4. destruct x64; check64.
Qed.

(** Two words. *)
Definition push2 (c : accum) (w0 w1 : N) : accum :=
  let '(a0, a1, a2, a3) := c in
  (a2, a3, CLMULL x64 a0 (MUL_LO x64) ⊕ CLMULL x64 a1 (MUL_HI x64) ⊕ w0, CLMULH x64 a0 (MUL_LO x64) ⊕ CLMULH x64 a1 (MUL_HI x64) ⊕ w1).
Lemma push2_ok c w0 w1 v : w0 < 2 ^ W -> w1 < 2 ^ W -> holds c v ->
  holds (push2 c w0 w1) (times_x (2 * W) (v ⊕ (w0 ⊕ N.shiftl w1 W))).
Proof.
  intros H0 H1 [S V]. destruct c as [[[a0 a1] a2] a3]. destruct S as (S0 & S1 & S2 & S3). unfold push2. split.
  - unfold small4. conjs; try assumption; repeat apply lt_xor; try assumption;
      first [apply L_bound|apply H_bound; [assumption|apply LO_bound || apply HI_bound]].
  - rewrite <- V. unfold val4. rewrite !(lin_times _). rewrite <- !times_add. rewrite times_shiftl' by lia.
    replace (2 * W - W) with W by lia.
    pose proof (lo_ok x64 a0 S0) as E0. pose proof (hi_ok x64 a1 S1) as E1.
    replace (2 * W + 4 * W) with (6 * W) by lia. replace (2 * W + 3 * W) with (5 * W) by lia.
    replace (2 * W + 2 * W) with (4 * W) by lia. replace (2 * W + W) with (3 * W) by lia.
    rewrite <- E0, <- E1. xor_solve.
Qed.
Lemma times_W_word x : x < 2 ^ W -> word (times_x W x).
Proof.
  unfold XL. destruct x64; intro H.
  - change 64 with (32 + 32). rewrite times_add. apply times_word. apply (reduce64 x H).
  - apply times_word. exact H.
Qed.

(** One word. *)
Definition push1 (c : accum) (w : N) : accum :=
  let '(a0, a1, a2, a3) := c in (a1, a2, a3 ⊕ CLMULL x64 a0 (MUL_HI x64), CLMULH x64 a0 (MUL_HI x64) ⊕ w).
Lemma push1_ok c w v : w < 2 ^ W -> holds c v -> holds (push1 c w) (times_x W (v ⊕ w)).
Proof.
  intros H0 [S V]. destruct c as [[[a0 a1] a2] a3]. destruct S as (S0 & S1 & S2 & S3). unfold push1. split.
  - unfold small4. conjs; try assumption; apply lt_xor; try assumption; first [apply L_bound|apply H_bound; [assumption|apply HI_bound]].
  - rewrite <- V. unfold val4. rewrite !(lin_times _). rewrite <- !times_add.
    pose proof (hi_ok x64 a0 S0) as E0.
    replace (W + 4 * W) with (5 * W) by lia. replace (W + 3 * W) with (4 * W) by lia.
    replace (W + 2 * W) with (3 * W) by lia. replace (W + W) with (2 * W) by lia.
    rewrite <- E0. xor_solve.
Qed.

(** Some bytes. *)
Lemma shl_low x k : k <= W -> shl x64 x (W - k) = N.shiftl (low k x) (W - k).
Proof.
  intro H. unfold RvModel.shl, RvModel.wrap, low. apply N.bits_inj. intro i. rewrite N.land_spec.
  destruct (N.lt_ge_cases i (W - k)) as [L|L].
  - rewrite !N.shiftl_spec_low by assumption. reflexivity.
  - rewrite !N.shiftl_spec_high' by assumption. rewrite N.land_spec. f_equal.
    destruct (N.lt_ge_cases i W) as [L'|L'].
    + rewrite !N.ones_spec_low by lia. reflexivity.
    + rewrite !N.ones_spec_high by lia. reflexivity.
Qed.
Lemma lor_pieces a b k : k <= W -> a < 2 ^ W -> N.lor (N.shiftr a k) (shl x64 b (W - k)) = N.shiftr a k ⊕ shl x64 b (W - k).
Proof.
  intros H Ha. rewrite shl_low by exact H. apply lor_xor. apply lt_shiftr. replace (W - k + k) with W by lia. exact Ha.
Qed.
Lemma piece n x k : k <= W -> times_x n (N.shiftr x k) ⊕ times_x (n + W) (shl x64 x (W - k)) = times_x (n + k) x.
Proof.
  intro H. rewrite shl_low by exact H. rewrite times_shiftl' by lia. replace (n + W - (W - k)) with (n + k) by lia.
  rewrite !(times_add n). rewrite <- (lin_times n). rewrite (times_split k x). f_equal. apply xor_comm.
Qed.
Lemma shl_bound x k : shl x64 x k < 2 ^ W. Proof. apply wrap_bound. Qed.
Lemma part_ok n c part v : 0 < n < N.of_nat (WSZ x64) -> part < 2 ^ (8 * n) -> holds c v ->
  holds (rv_part x64 c part n) (times_x (8 * n) (v ⊕ part)).
Proof.
  intros Hn Hp [S V]. destruct c as [[[a0 a1] a2] a3]. destruct S as (S0 & S1 & S2 & S3). unfold rv_part. cbv zeta.
  assert (EW : W = 8 * N.of_nat (WSZ x64)) by (destruct x64; reflexivity).
  replace ((N.of_nat (WSZ x64) - n) * 8) with (W - 8 * n) by lia. replace (n * 8) with (8 * n) by lia.
  set (k := 8 * n) in *. assert (Hk : k <= W) by lia. clearbody k. clear Hn EW n.
  rewrite !lor_pieces by assumption.
  assert (SR : forall x, x < 2 ^ W -> N.shiftr x k < 2 ^ W).
  { intros x Hx. rewrite N.shiftr_div_pow2. eapply N.le_lt_trans; [|exact Hx]. apply N.div_le_upper_bound; [apply N.pow_nonzero; discriminate|].
    pose proof (N.pow_nonzero 2 k). nia. }
  split.
  - unfold small4. conjs; repeat apply lt_xor; try apply shl_bound; try (apply SR; assumption); try apply L_bound.
    apply H_bound; [apply shl_bound|apply HI_bound].
  - rewrite <- V. unfold val4. rewrite !(lin_times _). rewrite <- !times_add.
    pose proof (hi_ok x64 _ (shl_bound a0 (W - k))) as E.
    rewrite !(N.add_comm k). rewrite <- (piece (4 * W) a0 k Hk), <- (piece (3 * W) a1 k Hk), <- (piece (2 * W) a2 k Hk), <- (piece W a3 k Hk).
    replace (4 * W + W) with (5 * W) by lia. replace (3 * W + W) with (4 * W) by lia.
    replace (2 * W + W) with (3 * W) by lia. replace (W + W) with (2 * W) by lia. rewrite <- E.
    assert (F : times_x W (shl x64 part (W - k)) = times_x k part).
    { rewrite shl_low by exact Hk. rewrite times_shiftl' by lia. replace (W - (W - k)) with k by lia. f_equal.
      unfold low. rewrite N.land_ones. apply N.mod_small, Hp. }
    rewrite <- F. xor_solve.
Qed.

Lemma align_part crc part n : 0 < n < N.of_nat (WSZ x64) ->
  rv_align x64 (rv_init x64 crc) part (N.of_nat (WSZ x64) - n) n = rv_part x64 (rv_init x64 crc) part n.
Proof.
  intro H. assert (Z0 : forall k, shl x64 0 k = 0) by (intro; unfold RvModel.shl; rewrite N.shiftl_0_l; reflexivity).
  assert (ZL : CLMULL x64 0 (MUL_HI x64) = 0) by (apply (lin_0 (fun x => CLMULL x64 x (MUL_HI x64))); auto with lin).
  assert (ZH : CLMULH x64 0 (MUL_HI x64) = 0) by (apply (lin_0 (fun x => CLMULH x64 x (MUL_HI x64))); auto with lin).
  unfold rv_align, rv_part, rv_init. destruct x64; cbv zeta; rewrite !Z0, ZL, ZH, !N.shiftr_0_l, !N.lor_0_l, !xor_0_r;
    rewrite !(N.lor_comm (RvModel.shl _ _ _)); reflexivity.
Qed.
End State.

(** ** The final reduction *)
Definition last64 (p : N) : N :=
  let a2 := N.land p (N.ones 64) in
  let a3 := N.shiftr p 64 in
  let a0 := rv_clmulh true a2 0xccaa009e in
  let a3 := a3 ⊕ rv_clmul true a2 0xccaa009e in
  let a1 := rv_clmul true (N.land a3 0xffffffff) 0x163cd6124 in
  let a0 := a0 ⊕ N.shiftr a1 32 in
  let a3 := shl true (a1 ⊕ N.shiftr a3 32) 32 in
  u32 (a0 ⊕ CLMULH true (CLMULL true a3 0xf7011641) 0x1db710640).
Definition last32 (p : N) : N :=
  let a2 := N.land p (N.ones 32) in
  let a3 := N.shiftr p 32 in
  let a0 := CLMULH false a2 0x163cd6124 in
  let a3 := a3 ⊕ CLMULL false a2 0x163cd6124 in
  u32 (a0 ⊕ CLMULH false (CLMULL false a3 0xf7011641) 0x1db710640).
Lemma last64_ok p : p < 2 ^ 128 -> last64 p = times_x 128 p.
Proof.
  revert p. apply (lin_check 128 last64 (times_x 128)); [|apply lin_times|check64].
  unfold last64, u32. cbv zeta. auto 20 with lin.
Qed.
Lemma last32_ok p : p < 2 ^ 64 -> last32 p = times_x 64 p.
Proof.
  revert p. apply (lin_check 64 last32 (times_x 64)); [|apply lin_times|check64].
  unfold last32, u32. cbv zeta. auto 20 with lin.
Qed.
Lemma fold01_64 a0 a1 : a0 < 2 ^ 64 -> a1 < 2 ^ 64 ->
  times_x 128 (rv_clmul true a0 0x1751997d0 ⊕ N.shiftl (rv_clmulh true a0 0x1751997d0) 64) = times_x 256 a0 /\
  times_x 128 (rv_clmul true a1 0xccaa009e ⊕ N.shiftl (rv_clmulh true a1 0xccaa009e) 64) = times_x 192 a1.
Proof.
  intros H0 H1. split.
  - revert a0 H0. apply (lin_check 64 (fun a => times_x 128 (rv_clmul true a 0x1751997d0 ⊕ N.shiftl (rv_clmulh true a 0x1751997d0) 64)) (times_x 256));
      [auto 10 with lin|apply lin_times|check64].
  - revert a1 H1. apply (lin_check 64 (fun a => times_x 128 (rv_clmul true a 0xccaa009e ⊕ N.shiftl (rv_clmulh true a 0xccaa009e) 64)) (times_x 192));
      [auto 10 with lin|apply lin_times|check64].
Qed.
Lemma fold01_32 a0 a1 : a0 < 2 ^ 32 -> a1 < 2 ^ 32 ->
  times_x 64 (rv_clmul false a0 0xccaa009e ⊕ N.shiftl (rv_clmulh false a0 0xccaa009e) 32) = times_x 128 a0 /\
  times_x 64 (CLMULL false a1 0x163cd6124 ⊕ N.shiftl (CLMULH false a1 0x163cd6124) 32) = times_x 96 a1.
Proof.
  intros H0 H1. split.
  - revert a0 H0. apply (lin_check 32 (fun a => times_x 64 (rv_clmul false a 0xccaa009e ⊕ N.shiftl (rv_clmulh false a 0xccaa009e) 32)) (times_x 128));
      [auto 10 with lin|apply lin_times|check64].
  - revert a1 H1. apply (lin_check 32 (fun a => times_x 64 (CLMULL false a 0x163cd6124 ⊕ N.shiftl (CLMULH false a 0x163cd6124) 32)) (times_x 96));
      [auto 10 with lin|apply lin_times|check64].
Qed.
Lemma pair_split k x y : x < 2 ^ k -> N.land (x ⊕ N.shiftl y k) (N.ones k) = x /\ N.shiftr (x ⊕ N.shiftl y k) k = y.
Proof.
  intro H. split; [apply (low_xor_shiftl k x y H)|].
  rewrite N.shiftr_lxor, N.shiftr_shiftl_l, N.sub_diag, N.shiftl_0_r by lia.
  rewrite N.shiftr_div_pow2, N.div_small by exact H. apply xor_0_l.
Qed.
Lemma done_ok x64 c v : holds x64 c v -> rv_done x64 c = v.
Proof.
  intros [S V]. destruct c as [[[a0 a1] a2] a3]. destruct S as (S0 & S1 & S2 & S3). rewrite <- V. unfold val4, rv_done.
  destruct x64; unfold XL in *.
  - set (x := a2 ⊕ (rv_clmul true a0 0x1751997d0 ⊕ rv_clmul true a1 0xccaa009e)).
    set (y := a3 ⊕ (rv_clmulh true a0 0x1751997d0 ⊕ rv_clmulh true a1 0xccaa009e)). cbv zeta.
    assert (Hx : x < 2 ^ 64) by (repeat apply lt_xor; [exact S2|apply (rvl_bound true)|apply (rvl_bound true)]).
    assert (Hy : y < 2 ^ 64).
    { repeat apply lt_xor; [exact S3| |]; (apply (rvh_bound true); [assumption|reflexivity|discriminate]). }
    destruct (pair_split 64 x y Hx) as [P1 P2].
    assert (E : last64 (x ⊕ N.shiftl y 64) = times_x 128 (x ⊕ N.shiftl y 64)).
    { apply last64_ok, lt_xor; [eapply lt_weaken; [exact Hx|lia]|]. apply (lt_shiftl y 64 64), Hy. }
    unfold last64 in E. cbv zeta in E. rewrite P1, P2 in E. etransitivity; [exact E|]. clear E P1 P2 Hx Hy.
    destruct (fold01_64 a0 a1 S0 S1) as [F0 F1]. change (4 * 64) with 256. change (3 * 64) with 192. change (2 * 64) with 128.
    rewrite <- F0, <- F1. replace (times_x 64 a3) with (times_x 128 (N.shiftl a3 64)) by (rewrite times_shiftl' by lia; reflexivity). rewrite <- !(lin_times 128). f_equal.
    subst x y. rewrite !N.shiftl_lxor. xor_solve.
  - set (x := a2 ⊕ (rv_clmul false a0 0xccaa009e ⊕ CLMULL false a1 0x163cd6124)).
    set (y := a3 ⊕ (rv_clmulh false a0 0xccaa009e ⊕ CLMULH false a1 0x163cd6124)). cbv zeta.
    assert (Hx : x < 2 ^ 32) by (repeat apply lt_xor; [exact S2|apply (rvl_bound false)|apply (L_bound false)]).
    assert (Hy : y < 2 ^ 32).
    { repeat apply lt_xor; [exact S3|apply (rvh_bound false); [assumption|reflexivity|reflexivity]|].
      apply (H_bound false); [assumption|reflexivity]. }
    destruct (pair_split 32 x y Hx) as [P1 P2].
    assert (E : last32 (x ⊕ N.shiftl y 32) = times_x 64 (x ⊕ N.shiftl y 32)).
    { apply last32_ok, lt_xor; [eapply lt_weaken; [exact Hx|lia]|]. apply (lt_shiftl y 32 32), Hy. }
    unfold last32 in E. cbv zeta in E. rewrite P1, P2 in E. etransitivity; [exact E|]. clear E P1 P2 Hx Hy.
    destruct (fold01_32 a0 a1 S0 S1) as [F0 F1]. change (4 * 32) with 128. change (3 * 32) with 96. change (2 * 32) with 64.
    rewrite <- F0, <- F1. replace (times_x 32 a3) with (times_x 64 (N.shiftl a3 32)) by (rewrite times_shiftl' by lia; reflexivity). rewrite <- !(lin_times 64). f_equal.
    subst x y. rewrite !N.shiftl_lxor. xor_solve.
Qed.

(** ** The bytes *)
Section Bytes.
Context (x64 : bool) (B : bufs) (m : mem).
Notation W := (Z.of_nat (WSZ x64)).
Lemma W_pos : (0 < WSZ x64)%nat. Proof. destruct x64; cbn; lia. Qed.
Lemma XL_W : XL x64 = 8 * N.of_nat (WSZ x64). Proof. destruct x64; reflexivity. Qed.
Lemma aligned_W p k : (p mod W = 0 -> (p + W * k) mod W = 0)%Z.
Proof. intro H. pose proof W_pos. rewrite Z.mul_comm, Z.mod_add by lia. exact H. Qed.
Lemma read_ok p l : readable B m p l -> zlen l = W -> (p mod W = 0)%Z ->
  read_full x64 B p m = Ok (le l, m) /\ le l < 2 ^ XL x64.
Proof.
  intros H L A. assert (Ll : length l = WSZ x64) by (unfold zlen in L; lia). split.
  - apply loada_ok; [exact H|exact Ll|apply W_pos|exact A].
  - rewrite XL_W, <- Ll. apply le_bound.
Qed.
Lemma le_app a b : le (a ++ b) = le a ⊕ N.shiftl (le b) (bits_of a).
Proof.
  induction a as [|x a IH]; [change (le []) with 0; rewrite xor_0_l; change (bits_of []) with 0; rewrite N.shiftl_0_r; reflexivity|].
  cbn [app le]. rewrite IH, N.shiftl_lxor, N.shiftl_shiftl. replace (bits_of a + 8) with (bits_of (x :: a)) by (unfold bits_of; cbn [length]; lia).
  rewrite xor_assoc. reflexivity.
Qed.
Lemma push2_bytes c i d a b : zlen a = W -> zlen b = W -> holds x64 c (crc_bytes i d) ->
  holds x64 (push2 x64 c (le a) (le b)) (crc_bytes i (d ++ a ++ b)).
Proof.
  intros La Lb H. assert (La' : length a = WSZ x64) by (unfold zlen in La; lia). assert (Lb' : length b = WSZ x64) by (unfold zlen in Lb; lia).
  rewrite crc_bytes_app, (crc_bytes_le (a ++ b)), le_app.
  replace (bits_of (a ++ b)) with (2 * XL x64) by (unfold bits_of; rewrite app_length, XL_W; lia).
  replace (bits_of a) with (XL x64) by (unfold bits_of; rewrite XL_W; lia).
  apply push2_ok; [| |exact H]; rewrite XL_W; [rewrite <- La'|rewrite <- Lb']; apply le_bound.
Qed.
Lemma push1_bytes c i d a : zlen a = W -> holds x64 c (crc_bytes i d) -> holds x64 (push1 x64 c (le a)) (crc_bytes i (d ++ a)).
Proof.
  intros La H. assert (La' : length a = WSZ x64) by (unfold zlen in La; lia).
  rewrite crc_bytes_app, (crc_bytes_le a). replace (bits_of a) with (XL x64) by (unfold bits_of; rewrite XL_W; lia).
  apply push1_ok; [|exact H]. rewrite XL_W, <- La'. apply le_bound.
Qed.
Lemma part_bytes c i d a : (0 < length a < WSZ x64)%nat -> holds x64 c (crc_bytes i d) ->
  holds x64 (rv_part x64 c (le a) (N.of_nat (length a))) (crc_bytes i (d ++ a)).
Proof.
  intros La H. rewrite crc_bytes_app, (crc_bytes_le a). change (bits_of a) with (8 * N.of_nat (length a)).
  apply part_ok; [lia|apply le_bound|exact H].
Qed.

Lemma cutW p l : (W <= zlen l)%Z -> readable B m p l ->
  exists a b, l = a ++ b /\ zlen a = W /\ readable B m p a /\ readable B m (p + W) b.
Proof.
  intros L H. destruct (cut l W ltac:(lia)) as (a & b & -> & La). apply readable_app in H. rewrite La in H.
  exists a, b. tauto.
Qed.

Lemma rv_loop_ok i fuel : forall p l c d, readable B m p l -> (zlen l <= Z.of_nat fuel)%Z ->
  (p mod W = 0 \/ zlen l < W)%Z -> holds x64 c (crc_bytes i d) ->
  exists e r c', l = e ++ r /\ (zlen r < 4 * W)%Z /\ readable B m (p + zlen e) r /\
    ((p + zlen e) mod W = 0 \/ zlen r < W)%Z /\ holds x64 c' (crc_bytes i (d ++ e)) /\
    rv_loop x64 fuel B p (zlen l) c m = Ok ((p + zlen e, zlen r - 4 * W, c')%Z, m).
Proof.
  pose proof W_pos as Wp.
  induction fuel as [|fuel IH]; intros p l c d H L A V; cbn [rv_loop]; cbv zeta;
    (destruct (Z.leb_spec 0 (zlen l - W * 4)) as [G|G];
    [|exists [], l, c; change (zlen (@nil byte)) with 0%Z; rewrite Z.add_0_r, app_nil_r; conjs;
      [reflexivity|lia|exact H|exact A|exact V|unfold ret; rewrite (Z.mul_comm 4); reflexivity]]).
  - lia.
  - destruct A as [A|A]; [|lia]. destruct c as [[[a0 a1] a2] a3].
    destruct (cutW p l ltac:(lia) H) as (w0 & l1 & -> & L0 & R0 & H1). rewrite zlen_app in *.
    destruct (cutW _ l1 ltac:(lia) H1) as (w1 & l2 & -> & L1 & R1 & H2). rewrite zlen_app in *.
    destruct (cutW _ l2 ltac:(lia) H2) as (w2 & l3 & -> & L2 & R2 & H3). rewrite zlen_app in *.
    destruct (cutW _ l3 ltac:(lia) H3) as (w3 & l4 & -> & L3 & R3 & H4). rewrite zlen_app in *.
    replace (p + W + W)%Z with (p + W * 2)%Z in * by lia. replace (p + W * 2 + W)%Z with (p + W * 3)%Z in * by lia.
    replace (p + W * 3 + W)%Z with (p + W * 4)%Z in * by lia.
    destruct (read_ok _ _ R0 L0 A) as [E0 B0].
    destruct (read_ok _ _ R1 L1 ltac:(replace (p + W)%Z with (p + W * 1)%Z by lia; apply aligned_W, A)) as [E1 B1].
    destruct (read_ok _ _ R2 L2 (aligned_W p 2 A)) as [E2 B2].
    destruct (read_ok _ _ R3 L3 (aligned_W p 3 A)) as [E3 B3].
    erewrite bind_ok by exact E0. erewrite bind_ok by exact E1. erewrite bind_ok by exact E2. erewrite bind_ok by exact E3.
    pose proof (push2_bytes _ i d w0 w1 L0 L1 V) as V1.
    pose proof (push2_bytes _ i _ w2 w3 L2 L3 V1) as V2. unfold push2 in V2.
    destruct (IH (p + W * 4)%Z l4 _ _ H4 ltac:(lia) (or_introl (aligned_W p 4 A)) V2) as (e & r & c' & -> & Lr & Hr & Ar & Vr & Er).
    exists (w0 ++ w1 ++ w2 ++ w3 ++ e), r, c'. rewrite !zlen_app, L0, L1, L2, L3. rewrite zlen_app in Er.
    replace (p + (W + (W + (W + (W + zlen e)))))%Z with (p + W * 4 + zlen e)%Z by lia.
    conjs; [rewrite <- !app_assoc; reflexivity|exact Lr|exact Hr|exact Ar|rewrite <- !app_assoc in Vr; exact Vr|].
    replace (W + (W + (W + (W + (zlen e + zlen r)))) - W * 4)%Z with (zlen e + zlen r)%Z by lia. exact Er.
Qed.

Lemma bit_of_len len j (l : list byte) : (0 <= j)%Z -> (zlen l < 2 * 2 ^ j)%Z -> (exists q, len = zlen l + q * (2 * 2 ^ j))%Z ->
  (Z.land len (2 ^ j) =? 0)%Z = negb (2 ^ j <=? zlen l)%Z.
Proof.
  intros Hj L [q Hq]. rewrite land_bit by exact Hj. f_equal.
  pose proof (Z.pow_pos_nonneg 2 j ltac:(lia) Hj) as Hp. pose proof (zlen_nonneg l) as Hz.
  rewrite Z.testbit_odd, Z.shiftr_div_pow2 by exact Hj. subst len.
  replace (zlen l + q * (2 * 2 ^ j))%Z with (zlen l + (2 * q) * 2 ^ j)%Z by lia. rewrite Z.div_add by lia.
  rewrite Z.odd_add_mul_2. destruct (Z.leb_spec (2 ^ j) (zlen l)) as [G|G].
  - replace (zlen l / 2 ^ j)%Z with 1%Z; [reflexivity|]. apply (Z.div_unique _ _ _ (zlen l - 2 ^ j)); lia.
  - rewrite Z.div_small by lia. reflexivity.
Qed.
Definition lw : Z := if x64 then 3%Z else 2%Z.
Lemma W_pow : W = (2 ^ lw)%Z. Proof. unfold lw. destruct x64; reflexivity. Qed.
Lemma lw_pos : (2 <= lw)%Z. Proof. unfold lw. destruct x64; lia. Qed.

Lemma rv_two_ok i len p l c d : readable B m p l -> (zlen l < 4 * W)%Z -> (exists q, len = zlen l + q * (4 * W))%Z ->
  (p mod W = 0 \/ zlen l < W)%Z -> holds x64 c (crc_bytes i d) ->
  exists e r c', l = e ++ r /\ (zlen r < 2 * W)%Z /\ (exists q, len = zlen r + q * (2 * W))%Z /\ readable B m (p + zlen e) r /\
    ((p + zlen e) mod W = 0 \/ zlen r < W)%Z /\ holds x64 c' (crc_bytes i (d ++ e)) /\
    rv_two x64 B p len c m = Ok ((p + zlen e, c')%Z, m).
Proof.
  intros H L [q Hq] A V. unfold rv_two. cbv zeta. pose proof W_pos as Wp.
  assert (E : (Z.land len (W * 2) =? 0)%Z = negb (W * 2 <=? zlen l)%Z).
  { pose proof W_pow as P. pose proof lw_pos. assert (P2 : (W * 2 = 2 ^ (lw + 1))%Z) by (rewrite Z.pow_add_r by lia; lia).
    rewrite P2. apply bit_of_len; [lia|lia|]. exists q. lia. }
  rewrite E. destruct (Z.leb_spec (W * 2) (zlen l)) as [G|G]; cbn [negb].
  - destruct A as [A|A]; [|lia]. destruct c as [[[a0 a1] a2] a3].
    destruct (cutW p l ltac:(lia) H) as (w0 & l1 & -> & L0 & R0 & H1). rewrite zlen_app in *.
    destruct (cutW _ l1 ltac:(lia) H1) as (w1 & l2 & -> & L1 & R1 & H2). rewrite zlen_app in *.
    replace (p + W + W)%Z with (p + W * 2)%Z in * by lia.
    destruct (read_ok _ _ R0 L0 A) as [E0 B0].
    destruct (read_ok _ _ R1 L1 ltac:(replace (p + W)%Z with (p + W * 1)%Z by lia; apply aligned_W, A)) as [E1 B1].
    erewrite bind_ok by exact E0. erewrite bind_ok by exact E1.
    pose proof (push2_bytes _ i d w0 w1 L0 L1 V) as V1. unfold push2 in V1.
    eexists (w0 ++ w1), l2, _. rewrite !zlen_app, L0, L1. replace (p + (W + W))%Z with (p + W * 2)%Z by lia.
    conjs; [rewrite <- app_assoc; reflexivity|lia|exists (2 * q + 1)%Z; lia|exact H2|left; apply aligned_W, A|exact V1|reflexivity].
  - exists [], l, c. change (zlen (@nil byte)) with 0%Z. rewrite Z.add_0_r, app_nil_r.
    conjs; [reflexivity|lia|exists (2 * q)%Z; lia|exact H|exact A|exact V|reflexivity].
Qed.
Lemma rv_one_ok i len p l c d : readable B m p l -> (zlen l < 2 * W)%Z -> (exists q, len = zlen l + q * (2 * W))%Z ->
  (p mod W = 0 \/ zlen l < W)%Z -> holds x64 c (crc_bytes i d) ->
  exists e r c', l = e ++ r /\ (zlen r < W)%Z /\ (exists q, len = zlen r + q * W)%Z /\ readable B m (p + zlen e) r /\
    holds x64 c' (crc_bytes i (d ++ e)) /\
    rv_one x64 B p len c m = Ok ((p + zlen e, c')%Z, m).
Proof.
  intros H L [q Hq] A V. unfold rv_one. cbv zeta. pose proof W_pos as Wp.
  assert (E : (Z.land len W =? 0)%Z = negb (W <=? zlen l)%Z).
  { pose proof W_pow as P. pose proof lw_pos. rewrite P. apply bit_of_len; [lia|lia|]. exists q. lia. }
  rewrite E. destruct (Z.leb_spec W (zlen l)) as [G|G]; cbn [negb].
  - destruct A as [A|A]; [|lia]. destruct c as [[[a0 a1] a2] a3].
    destruct (cutW p l ltac:(lia) H) as (w0 & l1 & -> & L0 & R0 & H1). rewrite zlen_app in *.
    destruct (read_ok _ _ R0 L0 A) as [E0 B0].
    erewrite bind_ok by exact E0.
    pose proof (push1_bytes _ i d w0 L0 V) as V1. unfold push1 in V1.
    eexists w0, l1, _. rewrite L0.
    conjs; [reflexivity|lia|exists (2 * q + 1)%Z; lia|exact H1|exact V1|reflexivity].
  - exists [], l, c. change (zlen (@nil byte)) with 0%Z. rewrite Z.add_0_r, app_nil_r.
    conjs; [reflexivity|lia|exists (2 * q)%Z; lia|exact H|exact V|reflexivity].
Qed.

Lemma land_mod z : Z.land z (W - 1) = (z mod W)%Z.
Proof. rewrite W_pow. replace (2 ^ lw - 1)%Z with (Z.ones lw) by (rewrite Z.ones_equiv; lia). apply Z.land_ones. pose proof lw_pos. lia. Qed.

Theorem rv_calc_ok crc src data : readable B m src data -> word crc ->
  rv_crc_calc x64 crc B src (zlen data) m = Ok (crc_bytes crc data, m).
Proof.
  intros H Hc. unfold rv_crc_calc. cbv zeta. rewrite !land_mod. pose proof W_pos as Wp.
  pose proof (Z.mod_pos_bound src W ltac:(lia)) as Hm.
  match goal with |- bind ?e ?k m = _ =>
    assert (S1 : exists d r c, data = d ++ r /\ readable B m (src + zlen d) r /\ ((src + zlen d) mod W = 0 \/ zlen r < W)%Z /\
      holds x64 c (crc_bytes crc d) /\ e m = Ok ((src + zlen d, zlen r, c)%Z, m)) end.
  { destruct (Z.eqb_spec (src mod W) 0) as [A|A]; cbn [negb andb].
    - exists [], data, (rv_init x64 crc). change (zlen (@nil byte)) with 0%Z. rewrite Z.add_0_r.
      conjs; [reflexivity|exact H|left; exact A|apply init_ok, Hc|reflexivity].
    - destruct (Z.leb_spec (W - src mod W) (zlen data)) as [G|G].
      + destruct (cut data (W - src mod W) ltac:(lia)) as (d & r & -> & Ld). apply readable_app in H. destruct H as [H1 H2].
        assert (Ln : Z.to_nat (W - src mod W) = length d) by (unfold zlen in Ld; lia).
        eexists d, r, _. conjs; [reflexivity|exact H2| | |].
        3:{ rewrite Ln. erewrite bind_ok by (apply loadu_ok; exact H1). unfold ret. rewrite zlen_app, Ld.
            replace (W - src mod W + zlen r - (W - src mod W))%Z with (zlen r) by lia. reflexivity. }
        * left. rewrite Ld. replace (src + (W - src mod W))%Z with ((src / W + 1) * W)%Z by (pose proof (Z.div_mod src W ltac:(lia)); lia).
          apply Z.mod_mul. lia.
        * replace (Z.to_N (W - src mod W)) with (N.of_nat (length d)) by lia.
          replace (Z.to_N (src mod W)) with (N.of_nat (WSZ x64) - N.of_nat (length d)) by lia.
          rewrite align_part by lia. apply (part_bytes _ crc []); [lia|]. apply init_ok, Hc.
      + exists [], data, (rv_init x64 crc). change (zlen (@nil byte)) with 0%Z. rewrite Z.add_0_r.
        conjs; [reflexivity|exact H|right; lia|apply init_ok, Hc|reflexivity]. }
  destruct S1 as (d & r & c & -> & R & A & V & E). erewrite bind_ok by exact E. clear E. cbv beta iota.
  clear H Hm. generalize dependent (src + zlen d)%Z. clear src. intros p R A.
  destruct (rv_loop_ok crc (Z.to_nat (zlen r)) p r c d R ltac:(lia) A V) as (e & r1 & c1 & -> & L1 & R1 & A1 & V1 & E).
  erewrite bind_ok by exact E. cbv beta iota. clear E R A V.
  set (len := (zlen r1 - 4 * W)%Z). assert (Q1 : exists q, (len = zlen r1 + q * (4 * W))%Z) by (exists (-1)%Z; lia). clearbody len.
  destruct (rv_two_ok crc len _ r1 c1 _ R1 L1 Q1 A1 V1) as (e2 & r2 & c2 & -> & L2 & Q2 & R2 & A2 & V2 & E).
  erewrite bind_ok by exact E. cbv beta iota. clear E R1 A1 V1 L1 Q1.
  destruct (rv_one_ok crc len _ r2 c2 _ R2 L2 Q2 A2 V2) as (e3 & r3 & c3 & -> & L3 & [q Q3] & R3 & V3 & E).
  erewrite bind_ok by exact E. cbv beta iota. clear E R2 A2 V2 L2 Q2.
  pose proof (zlen_nonneg r3) as Z3.
  replace (Z.land len (W - 1)) with (zlen r3). 2:{ rewrite land_mod. subst len. rewrite Z.mod_add by lia. rewrite Z.mod_small; lia. }
  replace (d ++ e ++ e2 ++ e3 ++ r3) with ((((d ++ e) ++ e2) ++ e3) ++ r3) by (rewrite <- !app_assoc; reflexivity).
  destruct (Z.eqb_spec (zlen r3) 0) as [G|G].
  - erewrite bind_ok by reflexivity. unfold ret. rewrite (done_ok _ _ _ V3).
    destruct r3 as [|x r3]; [rewrite app_nil_r; reflexivity|]. unfold zlen in G. cbn [length] in G. lia.
  - replace (Z.to_nat (zlen r3)) with (length r3) by (unfold zlen; lia).
    replace (Z.to_N (zlen r3)) with (N.of_nat (length r3)) by (unfold zlen; lia).
    assert (P : (0 < length r3 < WSZ x64)%nat) by (unfold zlen in *; lia).
    pose proof (part_bytes _ crc _ r3 P V3) as V4.
    erewrite bind_ok by (erewrite bind_ok by (apply loadu_ok; exact R3); reflexivity).
    unfold ret. rewrite (done_ok _ _ _ V4). reflexivity.
Qed.
End Bytes.

Definition rv_crc (x64 : bool) : crc_fun := fun B src len init => c <- rv_crc_calc x64 (not32 init) B src len ;; ret (not32 c).
Lemma rv_crc_ok x64 : crc_ok (rv_crc x64).
Proof.
  intros B m src data init H Hi. unfold rv_crc. erewrite bind_ok by (apply rv_calc_ok; [exact H|apply not32_word, Hi]). unfold ret, crc32_spec.
  rewrite !not32_compl. reflexivity.
Qed.

(** ** Multiplication and shifting *)
Lemma rv_reduce_ok p : p < 2 ^ 63 -> crc32_reduce_rv_zbc true p = times_x 32 (N.shiftl p 1).
Proof.
  revert p. apply (lin_check 63 (crc32_reduce_rv_zbc true) (fun p => times_x 32 (N.shiftl p 1))).
  - unfold crc32_reduce_rv_zbc, u32. cbv zeta. auto 10 with lin.
  - auto with lin.
  - check64.
Qed.
Definition red32 (p : N) : N :=
  let lo := N.land p 0xffffffff in
  let hi := N.land (N.shiftr p 32) 0xffffffff in
  let t := rv_clmul false lo 0xf7011641 in
  t ⊕ rv_clmulh false t 0xdb710640 ⊕ hi.
Lemma red32_ok p : p < 2 ^ 64 -> red32 p = times_x 32 p.
Proof.
  revert p. apply (lin_check 64 red32 (times_x 32)); [|apply lin_times|check64]. unfold red32. cbv zeta. auto 10 with lin.
Qed.
Lemma mul_times a b : word a -> word b -> times_x 32 (N.shiftl (clmul a b) 1) = mulx a b.
Proof.
  revert a b. apply (bilin_check 32 32 (fun a b => times_x 32 (N.shiftl (clmul a b) 1)) mulx).
  - intro b. auto with lin.
  - intro a. apply lin_times', lin_shiftl. apply (lin_clmul_n_r 64 a (fun a => a)), lin_id.
  - apply mulx_lin_l.
  - apply mulx_lin_r.
  - check64.
Qed.
Theorem rv_is_multiply x64 : is_multiply (crc32_multiply_rv_zbc x64).
Proof.
  intros a b Ha Hb. pose proof (clmul_word_bound a b Ha Hb) as Hp. rewrite <- mul_times by assumption.
  unfold crc32_multiply_rv_zbc. destruct x64.
  - rewrite rv_reduce_ok.
    + do 2 f_equal. unfold rv_clmul. apply (wrap_id true). eapply lt_weaken; [exact Hp|discriminate].
    + unfold rv_clmul. rewrite (wrap_id true); [exact Hp|]. eapply lt_weaken; [exact Hp|discriminate].
  - cbv zeta. set (p := clmul a b) in *.
    assert (E1 : rv_clmul false a b = N.land p (N.ones 32)) by reflexivity.
    assert (E2 : rv_clmulh false a b = N.shiftr p (XL false)) by reflexivity. rewrite E1, E2.
    assert (D : forall y, y + y = N.shiftl y 1) by (intro y; rewrite N.shiftl_mul_pow2; lia). rewrite !D.
    assert (H64 : N.shiftl p 1 < 2 ^ 64) by (apply (lt_shiftl p 1 63), Hp).
    rewrite <- (red32_ok _ H64). unfold red32. cbv zeta.
    assert (F1 : u32 (N.shiftl (N.land p (N.ones 32)) 1) = N.land (N.shiftl p 1) 0xffffffff).
    { unfold u32. change 0xffffffff with (N.ones 32). apply N.bits_inj. intro i. rewrite !N.land_spec.
      destruct (N.eq_dec i 0) as [->|Hi]; [rewrite !N.shiftl_spec_low by lia; reflexivity|].
      rewrite !N.shiftl_spec_high' by lia. rewrite N.land_spec. destruct (N.ltb_spec i 32) as [G|G].
      - rewrite (N.ones_spec_low 32 (i - 1)) by lia. rewrite andb_true_r. reflexivity.
      - rewrite (N.ones_spec_high 32 i) by lia. rewrite !andb_false_r. reflexivity. }
    assert (F2 : N.lor (u32 (N.shiftl (N.shiftr p (XL false)) 1)) (N.shiftr (N.land p (N.ones 32)) 31) = N.land (N.shiftr (N.shiftl p 1) 32) 0xffffffff).
    { unfold u32. change (XL false) with 32. change 0xffffffff with (N.ones 32). apply N.bits_inj. intro i.
      rewrite N.lor_spec, !N.land_spec, !N.shiftr_spec', N.land_spec.
      destruct (N.eq_dec i 0) as [->|Hi].
      - rewrite N.shiftl_spec_low by lia. rewrite (N.shiftl_spec_high' p 1) by lia. reflexivity.
      - rewrite !N.shiftl_spec_high' by lia. rewrite N.shiftr_spec'.
        replace (N.testbit (N.ones 32) (i + 31)) with false by (symmetry; apply N.ones_spec_high; lia).
        rewrite andb_false_r, orb_false_r. f_equal. f_equal. lia. }
    rewrite F1, F2. reflexivity.
Qed.
Lemma rv_loop2 x64 fuel : forall n r r2,
  rv_shift_loop x64 fuel n r r2 = loop2 (fun pos x => crc32_multiply_rv_zbc x64 x (tab crc_power pos)) fuel n r r2.
Proof.
  induction fuel as [|fuel IH]; intros n r r2; cbn [rv_shift_loop loop2]; cbv zeta; [reflexivity|].
  destruct (n =? 0); [reflexivity|]. destruct (_ =? 0); [reflexivity|]. apply IH.
Qed.

Theorem rv_is_shift x64 : is_shift (crc32_shift_rv_zbc x64).
Proof.
  intros c n Hc Hn. unfold crc32_shift_rv_zbc.
  match goal with |- (let '(r, n') := ?e in _) = _ =>
    assert (S1 : exists r n', e = (r, n') /\ word r /\ word n' /\ times_x n' r = times_x n c) end.
  { destruct x64.
    - destruct (land_31 n Hn) as [E1 E2]. rewrite E1, E2. pose proof (N.mod_lt n 32 ltac:(lia)) as Hk. set (k := n mod 32) in *.
      assert (Ex : N.lxor 31 k = 31 - k).
      { apply N.eqb_eq. assert (C : forallb (fun k => N.lxor 31 k =? 31 - k) (below 32) = true) by (vm_compute; reflexivity).
        exact (forallb_below _ _ C k Hk). }
      rewrite Ex. assert (Hs : N.shiftl c (31 - k) < 2 ^ 63).
      { eapply lt_weaken; [apply (lt_shiftl c (31 - k) 32), Hc|]. lia. }
      assert (E3 : shl true c (31 - k) = N.shiftl c (31 - k)) by (apply (wrap_id true); eapply lt_weaken; [exact Hs|discriminate]).
      rewrite E3, (rv_reduce_ok _ Hs), N.shiftl_shiftl, times_shiftl' by lia.
      replace (32 - (31 - k + 1)) with k by lia. do 2 eexists. split; [reflexivity|].
      split; [apply times_word, Hc|]. split; [unfold word in *; lia|]. rewrite <- times_add. f_equal. pose proof (N.mod_le n 32 ltac:(lia)). lia.
    - do 2 eexists. split; [reflexivity|]. repeat split; assumption. }
  destruct S1 as (r & n' & -> & Hr & Hn' & <-). cbv zeta.
  destruct (N.eqb_spec n' 0) as [->|E]; [reflexivity|].
  destruct (clear_step n' E Hn') as (C1 & C2 & C3 & C4 & C5). rewrite C1.
  rewrite rv_loop2.
  pose proof (loop2_ok (fun pos x => crc32_multiply_rv_zbc x64 x (tab crc_power pos)) word u32) as L.
  assert (U : forall x, word x -> u32 x = x) by apply u32_id.
  specialize (L ltac:(intro; apply u32_word)).
  assert (Lf : forall pos x, pos < 32 -> word x -> word (crc32_multiply_rv_zbc x64 x (tab crc_power pos)) /\
    u32 (crc32_multiply_rv_zbc x64 x (tab crc_power pos)) = times_x (2 ^ pos) (u32 x)).
  { intros pos x Hp Hx. rewrite (mul_power _ pos x (rv_is_multiply x64) Hp Hx).
    assert (Hw : word (times_x (2 ^ pos) x)) by apply times_word, Hx. split; [exact Hw|]. rewrite !U by assumption. reflexivity. }
  assert (Hw2 : word (tab crc_power (ctz n'))) by (rewrite power_table by exact C3; apply xpow_word).
  specialize (L Lf 32%nat (n' - 2 ^ ctz n') r (tab crc_power (ctz n')) ltac:(lia) C4 (N.divide_1_l _) Hr Hw2).
  destruct (loop2 _ _ _ _ _) as [r' r2']. destruct L as (L1 & L2 & L3).
  rewrite rv_is_multiply by assumption. rewrite !U in L3 by assumption. rewrite L3, power_table by exact C3.
  rewrite mulx_xpow_r by exact Hr. rewrite <- times_add. f_equal. lia.
Qed.
