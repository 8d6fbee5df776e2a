(* Proofs about the detection on ARM and RISC-V. *)
From Coq Require Import ZArith Bool List Lia.
From Verif Require Import ArmIsaSpec ArmIsaModel.
Import ListNotations.
Open Scope Z_scope.

Lemma bit_mask v n : 0 <= n -> (Z.land v (2 ^ n) =? 0) = negb (Z.testbit v n).
Proof.
  intro Hn. destruct (Z.testbit v n) eqn:E; cbn [negb].
  - apply Z.eqb_neq. intro H. assert (X : Z.testbit (Z.land v (2 ^ n)) n = true) by (rewrite Z.land_spec, E, Z.pow2_bits_true by lia; reflexivity).
    rewrite H, Z.testbit_0_l in X. discriminate.
  - apply Z.eqb_eq. apply Z.bits_inj'. intros k Hk. rewrite Z.land_spec, Z.testbit_0_l, Z.pow2_bits_eqb by lia.
    destruct (Z.eqb_spec n k) as [<-|]; [rewrite E; reflexivity|apply andb_false_r].
Qed.
Lemma masked_bit v n m : 0 <= n -> m = 2 ^ n -> masked (Val v) m = Some (Z.testbit v n).
Proof. intros Hn ->. unfold masked. rewrite bit_mask, negb_involutive by exact Hn. reflexivity. Qed.
Lemma all_mask v m : 0 <= m -> (Z.land v m =? m) = true <-> (forall n, 0 <= n -> Z.testbit m n = true -> Z.testbit v n = true).
Proof.
  intro Hm. rewrite Z.eqb_eq. split.
  - intros H n Hn Hb. rewrite <- H, Z.land_spec in Hb. apply andb_prop in Hb. apply Hb.
  - intro H. apply Z.bits_inj'. intros n Hn. rewrite Z.land_spec. destruct (Z.testbit m n) eqn:E; [|apply andb_false_r].
    rewrite (H n Hn E). reflexivity.
Qed.

(* What supports_crc and so on come down to for the auxiliary vector. *)
Definition aux_answer (bsd : bool) (a64 : bool) (s : arm_system) (f : arm_feature) : option bool :=
  match auxv s (fst (hwcap_bit a64 f)) with
  | Some v => Some (Z.testbit v (snd (hwcap_bit a64 f)))
  | None => if bsd then None else Some false
  end.
Lemma aux_ok bsd a64 s f m : m = 2 ^ snd (hwcap_bit a64 f) ->
  masked (getauxval bsd s (fst (hwcap_bit a64 f))) m = aux_answer bsd a64 s f.
Proof.
  intro Hm. unfold getauxval, aux_answer. destruct (auxv s (fst (hwcap_bit a64 f))) as [v|].
  - apply masked_bit; [destruct f, a64; cbn; lia|exact Hm].
  - destruct bsd; [reflexivity|]. rewrite Hm. destruct f, a64; reflexivity.
Qed.

Definition says (b : arm_build) (s : arm_system) (f : arm_feature) : option bool :=
  match os b with
  | OS_auxv bsd => aux_answer bsd (aarch64 b) s f
  | OS_android => Some (android s f)
  | OS_windows => Some (windows s f)
  | OS_apple => Some (sysctl_bool s (sysctl_of f))
  | OS_other => Some (match f with F_NEON => aarch64 b | F_CRC32 => assume_crc b | F_PMULL => assume_crypto b end)
  end.
Lemma neon_says b s : cpu_supports_neon b s = says b s F_NEON.
Proof.
  unfold cpu_supports_neon, says. destruct (os b) as [bsd| | | |]; try reflexivity.
  destruct (aarch64 b); [apply (aux_ok bsd true s F_NEON)|apply (aux_ok bsd false s F_NEON)]; reflexivity.
Qed.
Lemma crc_says b s : supports_crc b s = says b s F_CRC32.
Proof.
  unfold supports_crc, says. destruct (os b) as [bsd| | | |]; try reflexivity.
  destruct (aarch64 b); [apply (aux_ok bsd true s F_CRC32)|apply (aux_ok bsd false s F_CRC32)]; reflexivity.
Qed.
Lemma pmull_says b s : supports_pmull b s = says b s F_PMULL.
Proof.
  unfold supports_pmull, says. destruct (os b) as [bsd| | | |]; try reflexivity.
  destruct (aarch64 b); [apply (aux_ok bsd true s F_PMULL)|apply (aux_ok bsd false s F_PMULL)]; reflexivity.
Qed.

Lemma says_true b s f : truthful (aarch64 b) s -> meant_for b s -> says b s f = Some true -> executes s f = true.
Proof.
  intros T (M1 & M2 & M3) H. destruct (executes s f) eqn:E; [reflexivity|exfalso].
  destruct (T f E) as (T1 & T2 & T3 & T4). unfold says in H. destruct (os b) as [bsd| | | |].
  - unfold aux_answer in H. destruct (auxv s _) as [v|]; [rewrite (T1 v eq_refl) in H; discriminate|destruct bsd; discriminate].
  - congruence.
  - congruence.
  - unfold sysctl_bool in H. destruct (sysctl s _) as [v|]; [rewrite (T2 v eq_refl) in H; discriminate|discriminate].
  - destruct f; [rewrite M1 in E by congruence|rewrite M2 in E by congruence|rewrite M3 in E by congruence]; discriminate.
Qed.
Lemma says_some b s f : entries_there b s -> exists r, says b s f = Some r.
Proof.
  intro H. unfold entries_there in H. unfold says. destruct (os b) as [bsd| | | |]; eauto. unfold aux_answer.
  destruct (auxv s _) eqn:E; [eauto|]. destruct bsd; [|eauto]. exfalso. apply (H eq_refl _ E).
Qed.

Lemma arm_init_ok b s : truthful (aarch64 b) s -> meant_for b s -> entries_there b s ->
  exists codec crc mul, arm_codec_init b s = Some codec /\ arm_crc_init b s = Some (crc, mul) /\
    Forall (fun f => executes s f = true) (codec_uses codec ++ crc_uses crc ++ mul_uses mul).
Proof.
  intros T M H. unfold arm_codec_init, arm_crc_init. rewrite neon_says, crc_says, pmull_says.
  pose proof (says_true b s F_NEON T M) as X1. pose proof (says_true b s F_CRC32 T M) as X2. pose proof (says_true b s F_PMULL T M) as X3.
  destruct (says_some b s F_NEON H) as [n Hn], (says_some b s F_CRC32 H) as [c Hc], (says_some b s F_PMULL H) as [p Hp].
  rewrite Hn in *. rewrite Hc in *. rewrite Hp in *.
  assert (A1 : n = true -> executes s F_NEON = true) by (intros ->; auto).
  assert (A2 : c = true -> executes s F_CRC32 = true) by (intros ->; auto).
  assert (A3 : p = true -> executes s F_PMULL = true) by (intros ->; auto).
  clear X1 X2 X3 Hn Hc Hp.
  assert (G1 : Forall (fun f => executes s f = true) (codec_uses (if n && c_neon b then A_neon else A_generic))).
  { destruct n; cbn; [destruct (c_neon b); cbn|]; auto. }
  destruct c.
  - do 3 eexists. split; [reflexivity|]. split; [reflexivity|]. apply Forall_app. split; [exact G1|]. apply Forall_app.
    specialize (A2 eq_refl). split; [destruct (c_armcrc b); cbn; auto|].
    destruct p; cbn [andb]; [destruct (c_pmull b); [cbn; auto|]|]; destruct (c_armcrc b), (aarch64 b); cbn; auto.
  - do 3 eexists. split; [reflexivity|]. split; [reflexivity|]. apply Forall_app. split; [exact G1|]. cbn. constructor.
Qed.

Lemma uses_all b s : os b = OS_auxv false -> (forall f, aux_answer false (aarch64 b) s f = Some (executes s f)) ->
  c_neon b = true -> c_armcrc b = true -> c_pmull b = true ->
  arm_codec_init b s = Some (if executes s F_NEON then A_neon else A_generic) /\
  arm_crc_init b s = Some (if executes s F_CRC32 then (C_arm, if executes s F_PMULL then M_pmull else if aarch64 b then M_arm else M_generic)
                           else (C_generic, M_generic)).
Proof.
  intros Ho Hs H1 H2 H3. unfold arm_codec_init, arm_crc_init. rewrite neon_says, crc_says, pmull_says. unfold says.
  rewrite Ho, !Hs, H1, H2, H3, !andb_true_r. cbn [andb]. split; reflexivity.
Qed.

(** ** RISC-V *)
Lemma rvv_bits v : (Z.land v 0x20112D =? 0x20112D) = true <-> Forall (fun l => Z.testbit v (l - letter_A) = true) IMAFDCV.
Proof.
  rewrite all_mask by lia. split.
  - intro H. repeat constructor; apply H; reflexivity || (cbn; lia).
  - intros H n Hn Hb. assert (n < 22) by (destruct (Z.lt_ge_cases n 22) as [|Hge]; [assumption|]; rewrite Z.bits_above_log2 in Hb; [discriminate|lia|change (Z.log2 0x20112D) with 21; lia]).
    unfold IMAFDCV, letter_A in H. repeat match goal with X : Forall _ (_ :: _) |- _ => inversion X; subst; clear X end.
    cbn [Z.sub Z.add Z.opp Z.pos_sub Pos.pred_double] in *.
    assert (C : n = 0 \/ n = 1 \/ n = 2 \/ n = 3 \/ n = 4 \/ n = 5 \/ n = 6 \/ n = 7 \/ n = 8 \/ n = 9 \/ n = 10 \/ n = 11 \/ n = 12 \/ n = 13 \/ n = 14 \/
      n = 15 \/ n = 16 \/ n = 17 \/ n = 18 \/ n = 19 \/ n = 20 \/ n = 21) by lia.
    repeat destruct C as [C|C]; subst n; try discriminate Hb; assumption.
Qed.

Lemma rv_codec_ok b s : rv_truthful s -> (rv_bsd b = true -> rv_auxv s <> None) ->
  exists i, rv_codec_init b s = Some i /\ (i = V_rvv -> Forall (fun l => rv_executes s (F_ext l) = true) IMAFDCV).
Proof.
  intros [T _] H. unfold rv_codec_init, cpu_supports_rvv. destruct (rv_at_hwcap b); [|eexists; split; [reflexivity|discriminate]].
  destruct (rv_auxv s) as [v|] eqn:E.
  - eexists. split; [reflexivity|]. intro Hi. destruct (Z.land v 0x20112D =? 0x20112D) eqn:M; [|discriminate Hi].
    apply rvv_bits in M. rewrite Forall_forall in *. intros l Hl. specialize (M l Hl).
    destruct (rv_executes s (F_ext l)) eqn:X; [reflexivity|].
    rewrite (T l v) in M; [discriminate| |exact X|reflexivity].
    unfold IMAFDCV, letter_A in *. cbn in Hl. lia.
  - destruct (rv_bsd b); [exfalso; apply H; reflexivity|]. eexists. split; [reflexivity|]. discriminate.
Qed.
Lemma rv_crc_init_ok b s : rv_truthful s -> rv_crc_init b s = R_zbc -> rv_executes s F_Zbc = true \/ rv_executes s F_Zbkc = true.
Proof.
  intros [_ T] H. unfold rv_crc_init in H. destruct (rv_probe b); [|discriminate H]. destruct (hwprobe s) as [v|]; [|discriminate H].
  destruct (T v eq_refl) as [T1 T2]. destruct (rv_executes s F_Zbc); [auto|]. destruct (rv_executes s F_Zbkc); [auto|]. exfalso.
  specialize (T1 eq_refl). specialize (T2 eq_refl).
  change (Z.lor (Z.shiftl 1 7) (Z.shiftl 1 9)) with (Z.lor (2 ^ 7) (2 ^ 9)) in H. rewrite Z.land_lor_distr_r in H.
  pose proof (bit_mask v 7 ltac:(lia)) as B1. pose proof (bit_mask v 9 ltac:(lia)) as B2. rewrite T1 in B1. rewrite T2 in B2.
  apply Z.eqb_eq in B1, B2. rewrite B1, B2 in H. discriminate H.
Qed.
