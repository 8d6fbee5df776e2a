(** The RISC-V CRC code on either byte order. *)
From Verif Require Import Base BaseLemmas CrcSpec CrcModel ClmulModel ClmulProofs ClmulMul RvModel EndianModel ArmEndianModel ArmEndianProofs RvEndianModel.
From Coq Require Import NArith.
Open Scope N_scope.

Lemma o_le_at o m a n : o_le o n (o_at o m a n) = le_at m a n.
Proof. destruct o; cbn [o_le]; [symmetry; apply le_at_bytes|apply bswap_at]. Qed.
Lemma of_bytes_pad f sz n : (sz <= n)%nat -> of_bytes n (fun i => if i <? N.of_nat sz then f i else 0) = of_bytes sz f.
Proof.
  intro H. induction n as [|n IH]; [replace sz with O by lia; reflexivity|].
  destruct (Nat.eq_dec sz (S n)) as [-> |D].
  - apply of_bytes_ext_lt. intros i Hi. destruct (N.ltb_spec i (N.of_nat (S n))); [reflexivity|lia].
  - cbn [of_bytes]. rewrite IH by lia. destruct (N.ltb_spec (N.of_nat n) (N.of_nat sz)); [lia|]. rewrite N.shiftl_0_l, N.lxor_0_r. reflexivity.
Qed.

Section Rv.
Variables (o : order) (x64 : bool) (B : bufs).

Lemma full_eq a m : o_read_full o x64 B a m = read_full x64 B a m.
Proof. unfold o_read_full, read_full, loada. rewrite o_le_at. reflexivity. Qed.
Lemma partial_eq sz a m : (sz <= WSZ x64)%nat -> o_read_partial o x64 B sz a m = loadu B sz a m.
Proof.
  intro H. unfold o_read_partial, loadu. cbv zeta. rewrite o_le_at, !le_at_bytes. destruct (all_readable B a sz); [|reflexivity].
  do 2 f_equal. unfold o_at. rewrite <- (of_bytes_pad _ sz (WSZ x64) H). apply of_bytes_ext. intro i. rewrite Z.add_0_l.
  destruct (N.ltb_spec i (N.of_nat sz)) as [L|L].
  - replace ((0 <=? Z.of_N i)%Z && (Z.of_N i <? Z.of_nat sz)%Z) with true; [reflexivity|]. symmetry. apply andb_true_intro. split; [apply Z.leb_le|apply Z.ltb_lt]; lia.
  - replace (Z.of_N i <? Z.of_nat sz)%Z with false by (symmetry; apply Z.ltb_ge; lia). rewrite andb_false_r. reflexivity.
Qed.

Lemma rv_loop_eq : forall fuel src len c m, o_rv_loop o x64 fuel B src len c m = rv_loop x64 fuel B src len c m.
Proof.
  induction fuel as [|f IH]; intros src len c m; cbn [o_rv_loop rv_loop]; cbv zeta; destruct (_ <=? _)%Z; try reflexivity.
  destruct c as [[[a0 a1] a2] a3]. do 4 (apply bind_ext; [apply full_eq|intros]). apply IH.
Qed.
Lemma rv_two_eq src len c m : o_rv_two o x64 B src len c m = rv_two x64 B src len c m.
Proof.
  unfold o_rv_two, rv_two. cbv zeta. destruct (_ =? _)%Z; [reflexivity|]. destruct c as [[[a0 a1] a2] a3].
  do 2 (apply bind_ext; [apply full_eq|intros]). reflexivity.
Qed.
Lemma rv_one_eq src len c m : o_rv_one o x64 B src len c m = rv_one x64 B src len c m.
Proof.
  unfold o_rv_one, rv_one. cbv zeta. destruct (_ =? _)%Z; [reflexivity|]. destruct c as [[[a0 a1] a2] a3].
  apply bind_ext; [apply full_eq|intros]. reflexivity.
Qed.
Lemma low_bits z : (0 <= Z.land z (Z.of_nat (WSZ x64) - 1) < Z.of_nat (WSZ x64))%Z.
Proof.
  destruct x64; cbn [WSZ].
  - change (Z.of_nat 8 - 1)%Z with (Z.ones 3). rewrite Z.land_ones by lia. apply Z.mod_pos_bound. lia.
  - change (Z.of_nat 4 - 1)%Z with (Z.ones 2). rewrite Z.land_ones by lia. apply Z.mod_pos_bound. lia.
Qed.
Lemma rv_calc_eq c src len m : o_rv_crc_calc o x64 c B src len m = rv_crc_calc x64 c B src len m.
Proof.
  unfold o_rv_crc_calc, rv_crc_calc. cbv zeta. apply bind_ext.
  - destruct (_ && _)%bool; [|reflexivity]. apply bind_ext; [|reflexivity]. apply partial_eq. pose proof (low_bits src). lia.
  - intros [[p l] c1] m1. apply bind_ext; [apply rv_loop_eq|]. intros [[p1 l1] c2] m2. apply bind_ext; [apply rv_two_eq|]. intros [p2 c3] m3.
    apply bind_ext; [apply rv_one_eq|]. intros [p3 c4] m4. apply bind_ext; [|reflexivity]. destruct (_ =? _)%Z; [reflexivity|].
    apply bind_ext; [|reflexivity]. apply partial_eq. pose proof (low_bits l1). lia.
Qed.
Lemma o_rv_eq bits src len i m : o_crc32_rv_zbc o x64 bits B src len i m = do_crc32_incremental_rv_zbc x64 bits B src len i m.
Proof. unfold o_crc32_rv_zbc, do_crc32_incremental_rv_zbc. apply bind_ext; [apply rv_calc_eq|reflexivity]. Qed.
End Rv.
