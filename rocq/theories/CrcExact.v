(** Below which lengths crc32_zeroes is right, exactly. *)
From Verif Require Import Base BaseLemmas CrcSpec CrcLin CrcModel CrcAlg CrcProofs CrcMul CrcErr CrcNodeSpec CrcNodeProofs.
From Coq Require Import ZifyBool ZifyNat ZifyN.
Open Scope N_scope.

(** A register other than 0 repeats itself only after a multiple of the order. *)
Lemma fixed_order e v : word v -> v <> 0 -> times_x e v = v -> (ORDER | e).
Proof.
  intros Hv H0 E. apply order_exact.
  assert (Z : mulx (N.lxor (xpow e) ONE) v = 0).
  { rewrite (mulx_lin_l v), mulx_xpow_l, mulx_one_l, E by exact Hv. apply N.lxor_nilpotent. }
  apply no_zero_divisors in Z; [|apply xor_word; [apply xpow_word|reflexivity]|exact Hv].
  destruct Z as [Z|Z]; [|contradiction]. apply N.lxor_eq in Z. exact Z.
Qed.

(** No length below 2^54 that is a multiple of 2^32 is a multiple of the order. *)
Lemma far_order m : m < 2 ^ 22 -> (ORDER | 8 * (m * 2 ^ 32)) -> m = 0.
Proof.
  intros Hm D. destruct (N.eq_dec m 0) as [|H0]; [assumption|]. exfalso.
  assert (G : (ORDER | m)).
  { apply (N.gauss ORDER (2 ^ 35) m).
    - replace (2 ^ 35 * m) with (8 * (m * 2 ^ 32)); [exact D|]. change (2 ^ 35) with (8 * 2 ^ 32). lia.
    - vm_compute. reflexivity. }
  apply N.divide_pos_le in G; [|lia]. change ORDER with 4294967295 in G. change (2 ^ 22) with 4194304 in Hm. lia.
Qed.

Lemma crc_zeros_times c n : crc32_spec c (repeat x00 n) = compl (times_x (8 * N.of_nat n) (compl c)).
Proof. unfold crc32_spec. rewrite crc_bytes_zeros. reflexivity. Qed.

Lemma zeros_distinct c n k : word c -> c <> mask32 -> (n < k)%nat -> N.of_nat k < 2 ^ 54 -> (exists m, N.of_nat (k - n) = m * 2 ^ 32) ->
  crc32_spec c (repeat x00 n) <> crc32_spec c (repeat x00 k).
Proof.
  intros Hc H1 L Hk [m Em] E. rewrite !crc_zeros_times in E. apply (f_equal compl) in E. rewrite !compl_compl in E.
  assert (W : word (compl c)) by (apply compl_word, Hc).
  replace (8 * N.of_nat k) with (8 * N.of_nat n + 8 * N.of_nat (k - n)) in E by lia. rewrite times_add in E.
  apply times_inj in E; [|exact W|apply times_word, W]. symmetry in E. apply fixed_order in E; [|exact W|].
  - rewrite Em in E. apply far_order in E; [lia|]. change (2 ^ 32) with 4294967296 in Em. change (2 ^ 54) with 18014398509481984 in Hk.
    change (2 ^ 22) with 4194304. lia.
  - intro Z. apply H1. rewrite <- (compl_compl c), Z. reflexivity.
Qed.

Lemma returns_inj (a b : list byte) : JReturns a = JReturns b -> a = b.
Proof. intro E. injection E as E. exact E. Qed.

Lemma crc_app c a b : crc32_spec c (a ++ b) = crc32_spec (crc32_spec c a) b.
Proof. unfold crc32_spec. rewrite compl_compl, crc_bytes_app. reflexivity. Qed.

Section Shift.
Variable shift : mulfun.
Hypothesis HS : is_shift shift.

Lemma unzero_word c l : l < 2 ^ 64 -> word c -> word (crc32_unzero shift c l).
Proof.
  intros Hl Hc. destruct (bytepow_ok l Hl) as [Hw _]. apply compl_word.
  rewrite HS; [apply times_word, compl_word; assumption|apply compl_word; assumption|apply not32_word, Hw].
Qed.

Lemma zeroes_exact c n : word c -> c <> mask32 -> (0 <= n < 2 ^ 53)%Z ->
  (node_crc32_zeroes shift n (Some (be32 c)) = JReturns (be32 (crc32_spec c (repeat x00 (Z.to_nat n)))) <-> (n < 2 ^ 31)%Z).
Proof.
  intros Hc H1 Hn. split.
  2: { intro L. pose proof (js_zeroes_init shift HS (be32 c) c (Z.to_nat n) Hc) as X. rewrite Z2Nat.id in X by lia. apply X; [reflexivity|exact L]. }
  intro E. destruct (Z_lt_ge_dec n (2 ^ 31)) as [L|L]; [exact L|exfalso]. revert E. unfold node_crc32_zeroes, init_crc.
  rewrite is4_be, read_be32 by exact Hc. cbv zeta.
  assert (K : exists q, (n = to_int32 n + q * 2 ^ 32 /\ 1 <= q /\ - 2 ^ 31 <= to_int32 n < 2 ^ 31)%Z).
  { exists ((n + 2 ^ 31) / 2 ^ 32)%Z. unfold to_int32. change (2 ^ 31)%Z with 2147483648%Z in *. change (2 ^ 32)%Z with 4294967296%Z. lia. }
  destruct K as (q & Eq & Hq & Hk). set (k := to_int32 n) in *. clearbody k.
  assert (W : word (crc32_spec c (repeat x00 (Z.to_nat n)))) by (apply spec_word, Hc).
  change (2 ^ 31)%Z with 2147483648%Z in *. change (2 ^ 32)%Z with 4294967296%Z in *. change (2 ^ 53)%Z with 9007199254740992%Z in *.
  destruct (k <? 0)%Z eqn:Ek.
  - unfold neg_int. destruct (k =? INT_MIN)%Z; [discriminate|]. intro E. apply returns_inj in E.
    rewrite pack_be in E. apply be32_inj in E; [|apply unzero_word; [lia|exact Hc]|exact W].
    destruct (unzero_zeros shift HS c (Z.to_N (- k)) Hc ltac:(lia)) as [_ U]. rewrite E in U.
    replace (Z.to_N (- k)) with (N.of_nat (Z.to_nat (- k))) in U by lia. rewrite zeros_ok in U by (first [exact HS|exact W|lia]).
    apply (zeros_distinct c 0 (Z.to_nat n + Z.to_nat (- k)) Hc H1); [lia|change (2 ^ 54) with 18014398509481984; lia| |].
    + exists (Z.to_N q). change (2 ^ 32) with 4294967296. lia.
    + cbn [repeat]. rewrite repeat_app, crc_app, U. unfold crc32_spec, crc_bytes. cbn [fold_left]. apply compl_compl.
  - intro E. apply returns_inj in E. rewrite pack_be in E.
    replace (Z.to_N k) with (N.of_nat (Z.to_nat k)) in E by lia. rewrite (zeros_ok shift HS) in E; [|exact Hc|change (2 ^ 64) with 18446744073709551616; lia].
    apply be32_inj in E; [|apply spec_word, Hc|exact W]. revert E.
    apply zeros_distinct; [exact Hc|exact H1|lia|change (2 ^ 54) with 18014398509481984; lia|].
    exists (Z.to_N q). change (2 ^ 32) with 4294967296. lia.
Qed.
End Shift.
