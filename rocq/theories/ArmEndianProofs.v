(** The ARM CRC code on either byte order: swapping what a big-endian load gives is a little-endian load. *)
From Verif Require Import Base BaseLemmas CrcSpec CrcModel CrcNodeSpec CrcNodeProofs CrcIsaProofs ClmulModel ClmulProofs ClmulMul ArmModel ArmProofs EndianModel ArmEndianModel.
From Coq Require Import NArith.
Open Scope N_scope.

Lemma byte_of_bytes n f j : (forall i, f i < 256) -> j < N.of_nat n -> byte_at (of_bytes n f) j = f j.
Proof.
  intros Hf Hj. apply N.bits_inj. intro i. unfold byte_at. rewrite N.land_spec, N.shiftr_spec by lia. rewrite of_bytes_bit by exact Hf.
  change 255 with (N.ones 8). destruct (N.ltb_spec i 8) as [L|L].
  - rewrite N.ones_spec_low by exact L. rewrite andb_true_r. replace ((i + 8 * j) / 8) with j; [|apply (N.div_unique _ _ _ i); lia].
    replace ((i + 8 * j) mod 8) with i; [|apply (N.mod_unique _ _ j); lia]. destruct (N.ltb_spec j (N.of_nat n)); [reflexivity|lia].
  - rewrite N.ones_spec_high by exact L. rewrite andb_false_r. symmetry.
    destruct (N.eq_dec (f j) 0) as [E|E]; [rewrite E; apply N.bits_0|]. apply N.bits_above_log2. specialize (Hf j).
    apply N.log2_lt_pow2; [lia|]. apply N.lt_le_trans with (2 ^ 8); [exact Hf|]. apply N.pow_le_mono_r; lia.
Qed.
Lemma of_bytes_ext_lt n f g : (forall i, i < N.of_nat n -> f i = g i) -> of_bytes n f = of_bytes n g.
Proof. induction n as [|n IH]; intro H; [reflexivity|]. cbn [of_bytes]. rewrite (H (N.of_nat n)) by lia. rewrite IH; [reflexivity|]. intros i Hi. apply H. lia. Qed.

Lemma byte_lt c : Byte.to_N c < 256.
Proof. pose proof (bz_range c). unfold bz in *. lia. Qed.
Lemma le_at_bytes m a n : le_at m a n = o_at Little m a n.
Proof.
  induction n as [|n IH]; [reflexivity|]. rewrite <- (Nat.add_1_r n) at 1. rewrite le_at_app, IH. unfold o_at. cbn [of_bytes].
  f_equal. f_equal. cbn [le_at]. rewrite N.shiftl_0_l, N.lxor_0_r, nat_N_Z. reflexivity.
Qed.
Lemma bswap_at m a n : bswap n (o_at Big m a n) = le_at m a n.
Proof.
  rewrite le_at_bytes. unfold bswap, o_at at 2. apply of_bytes_ext_lt. intros i Hi.
  unfold o_at. rewrite byte_of_bytes; [|intro; apply byte_lt|lia]. do 2 f_equal. lia.
Qed.

Lemma bind_ext {A C} (x y : M A) (f g : A -> M C) m : x m = y m -> (forall a m', f a m' = g a m') -> bind x f m = bind y g m.
Proof. intros X K. unfold bind. rewrite X. destruct (y m) as [[a m1]| |]; auto. Qed.

Lemma feed_eq o B n st m : o_feed o B n st m = crc_feed B n st m.
Proof.
  unfold o_feed, crc_feed, bind, o_loadu, loadu. destruct (all_readable B (fst st) n); [|reflexivity].
  destruct o; cbn [o_le]; [rewrite le_at_bytes|rewrite bswap_at]; reflexivity.
Qed.
Lemma feeds_eq o k B n : forall st m, o_feeds o k B n st m = crc_feeds k B n st m.
Proof. induction k as [|k IH]; intros; [reflexivity|]. cbn [o_feeds crc_feeds]. apply bind_ext; [apply feed_eq|exact IH]. Qed.
Lemma align_eq o B n st m : o_align_step o B n st m = align_step B n st m.
Proof. destruct st as [[src crc] len]. unfold o_align_step, align_step. destruct (_ =? _)%Z; [reflexivity|]. apply bind_ext; [apply feed_eq|reflexivity]. Qed.
Lemma loop_eq o a64 B : forall fuel st len m, o_arm_loop o a64 fuel B st len m = arm_loop a64 fuel B st len m.
Proof.
  induction fuel as [|f IH]; intros; cbn [o_arm_loop arm_loop]; cbv zeta; destruct (_ <=? _)%Z; try reflexivity.
  apply bind_ext; [apply feeds_eq|]. intros. apply IH.
Qed.
Lemma tail_eq o k B n len st m : o_tail_step o k B n len st m = tail_step k B n len st m.
Proof. unfold o_tail_step, tail_step. destruct (_ =? _)%Z; [reflexivity|]. apply feeds_eq. Qed.
Lemma calc_eq o a64 c B src len m : o_arm_crc_calc o a64 c B src len m = arm_crc_calc a64 c B src len m.
Proof.
  unfold o_arm_crc_calc, arm_crc_calc. apply bind_ext.
  - destruct (_ <=? _)%Z; [|reflexivity]. apply bind_ext; [apply align_eq|]. intros. apply bind_ext; [apply align_eq|]. intros.
    destruct a64; [apply align_eq|reflexivity].
  - intros [[p c1] l] m1. apply bind_ext; [apply loop_eq|]. intros [st l1] m2.
    do 3 (apply bind_ext; [apply tail_eq|intros]). apply bind_ext; [destruct a64; [apply tail_eq|reflexivity]|intros].
    do 2 (apply bind_ext; [apply tail_eq|intros]). reflexivity.
Qed.
Lemma o_arm_eq o a64 bits B src len i m : o_crc32_arm o a64 bits B src len i m = do_crc32_incremental_arm a64 bits B src len i m.
Proof. unfold o_crc32_arm, do_crc32_incremental_arm. apply bind_ext; [apply calc_eq|reflexivity]. Qed.
