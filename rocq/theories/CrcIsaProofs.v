(** What follows for the JavaScript-visible functions from an implementation of
    crc32 being right for all lengths below some bound. *)
From Verif Require Import Base BaseLemmas CrcSpec CrcLin CrcModel CrcAlg CrcProofs CrcMul CrcNodeSpec CrcNodeProofs ClmulModel Clmul256Model.
From Coq Require Import NArith Lia ZifyN ZifyBool ZifyNat.
Open Scope N_scope.

Notation portable := (do_crc32_incremental_generic generate_crc32_slice_table).

Definition crc_ok_below (K : Z) (f : crc_fun) : Prop := forall B m src data init, (zlen data < K)%Z ->
  readable B m src data -> word init -> f B src (zlen data) init m = Ok (crc32_spec init data, m).

Lemma js_same K f : crc_ok_below K f -> forall src len init m, (0 <= len < K)%Z ->
  node_crc32 f src len init m = node_crc32 portable src len init m.
Proof.
  intros Hf src len init m Hl. set (data := read_n m src (Z.to_nat len)).
  assert (E : zlen data = len) by (unfold data, zlen; rewrite length_read_n; lia).
  assert (R : readable {| rlo := src; rhi := src + len; wlo := 0; whi := 0 |} m src data).
  { unfold readable. rewrite E. cbn [rlo rhi]. split; [lia|]. apply read_bytes_at. }
  unfold node_crc32. rewrite <- E in R |- *. clearbody data.
  destruct init as [b|].
  - destruct (is4 b); [|reflexivity].
    rewrite Hf, (generic_crc_ok _ m src data) by first [exact R|apply read_word|lia]. reflexivity.
  - rewrite Hf, (generic_crc_ok _ m src data) by first [exact R|apply zero_word|lia]. reflexivity.
Qed.

Lemma mul_same g : is_multiply g -> forall a b, word a -> word b -> g a b = crc32_multiply_generic a b.
Proof. intros H a b Ha Hb. rewrite H, generic_is_multiply by assumption. reflexivity. Qed.
Lemma shift_same g : is_shift g -> forall a n, word a -> word n -> g a n = crc32_shift_generic a n.
Proof. intros H a n Ha Hn. rewrite H, generic_is_shift by assumption. reflexivity. Qed.

Lemma to_signed_small bits n : (0 < bits)%Z -> (0 <= n < 2 ^ (bits - 1))%Z -> to_signed bits n = n.
Proof.
  intros Hb Hn. unfold to_signed. rewrite Z.mod_small; [lia|].
  replace (2 ^ bits)%Z with (2 * 2 ^ (bits - 1))%Z; [lia|].
  rewrite <- Z.pow_succ_r by lia. f_equal. lia.
Qed.

(** An implementation that takes the length as a signed number of [bits] bits. *)
Lemma below_signed (g : crc_fun) bits : (0 < bits)%Z -> crc_ok g ->
  crc_ok_below (2 ^ (bits - 1)) (fun B src len init => g B src (to_signed bits len) init).
Proof.
  intros Hb H B m src data init Hl HR Hi. rewrite to_signed_small by (auto; pose proof (zlen_nonneg data); lia).
  apply H; assumption.
Qed.

(** ** 4 GiB of zeros where long has 32 bits *)
Lemma spec_4g n : Z.of_nat n = (2 ^ 32)%Z -> crc32_spec 0 (repeat x00 n) = crc32_spec 0 [x00].
Proof.
  intro H. unfold crc32_spec. rewrite crc_bytes_zeros.
  rewrite (times_cong (8 * N.of_nat n) 8); [reflexivity|reflexivity|].
  replace (N.of_nat n) with (2 ^ 32) by lia. reflexivity.
Qed.
Lemma portable_4g n m src : Z.of_nat n = (2 ^ 32)%Z -> bytes_at m src (repeat x00 n) ->
  node_crc32 portable src (2 ^ 32) None m = JReturns (crc_of [x00]).
Proof.
  intros Hn H. pose proof (js_crc portable generic_crc_ok _ src m H) as J. unfold crc_of in J. rewrite spec_4g in J by exact Hn.
  replace (zlen (repeat x00 n)) with (2 ^ 32)%Z in J by (unfold zlen; rewrite repeat_length; lia). exact J.
Qed.
Lemma zero_bytes n : bytes_at (fun _ => x00) 0 (repeat x00 n).
Proof.
  replace (repeat x00 n) with (read_n (fun _ => x00) 0 n); [apply read_bytes_at|].
  generalize 0%Z as a. induction n as [|n IH]; intro a; [reflexivity|]. cbn [read_n repeat]. f_equal. apply IH.
Qed.

(** ** Reading only the input *)
Lemma read_n_ext m m' n : forall a, (forall i, (a <= i < a + Z.of_nat n)%Z -> m i = m' i) -> read_n m a n = read_n m' a n.
Proof.
  induction n as [|n IH]; intros a H; [reflexivity|]. cbn [read_n]. f_equal; [apply H; lia|].
  apply IH. intros i Hi. apply H. lia.
Qed.
Lemma portable_reads src len init m m' : (0 <= len)%Z -> (forall a, (src <= a < src + len)%Z -> m a = m' a) ->
  node_crc32 portable src len init m <> JUB /\ node_crc32 portable src len init m = node_crc32 portable src len init m'.
Proof.
  intros Hl H. set (data := read_n m src (Z.to_nat len)).
  assert (E : zlen data = len) by (unfold data, zlen; rewrite length_read_n; lia).
  assert (E' : read_n m' src (Z.to_nat len) = data) by (symmetry; apply read_n_ext; intros; apply H; lia).
  assert (R : forall x, read_n x src (Z.to_nat len) = data -> readable {| rlo := src; rhi := src + len; wlo := 0; whi := 0 |} x src data).
  { intros x <-. unfold readable, zlen. rewrite length_read_n. cbn [rlo rhi]. split; [lia|]. apply read_bytes_at. }
  pose proof (R m eq_refl) as R1. pose proof (R m' E') as R2. clear R E'. clearbody data.
  unfold node_crc32. rewrite <- E in R1, R2 |- *.
  destruct init as [b|].
  - destruct (is4 b); [|split; [discriminate|reflexivity]].
    rewrite (generic_crc_ok _ m src data), (generic_crc_ok _ m' src data) by first [assumption|apply read_word].
    split; [discriminate|reflexivity].
  - rewrite (generic_crc_ok _ m src data), (generic_crc_ok _ m' src data) by first [assumption|apply zero_word].
    split; [discriminate|reflexivity].
Qed.

Lemma negative_ub avx512 src len m : (2 ^ 31 <= len < 2 ^ 32)%Z ->
  node_crc32 (do_crc32_incremental_clmul avx512 false 32) src len None m = JUB /\
  node_crc32 (do_crc32_incremental_clmul256 avx512 false 32) src len None m = JUB.
Proof.
  intro H. assert (E : (to_signed 32 len < 0)%Z) by (unfold to_signed; change (2 ^ (32 - 1))%Z with (2 ^ 31)%Z; lia).
  unfold node_crc32, do_crc32_incremental_clmul, do_crc32_incremental_clmul256, crc_fold, crc_fold256. cbv zeta.
  generalize dependent (to_signed 32 len). intros l E.
  rewrite !(proj2 (Z.ltb_lt _ _)) by lia. rewrite (proj2 (Z.eqb_neq _ _)) by lia. split; reflexivity.
Qed.
