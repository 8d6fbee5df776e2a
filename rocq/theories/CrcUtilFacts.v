(** More about the crcutil model: the precomputed values, and the JavaScript-visible function
    where the C++ standard is kept to. *)
From Verif Require Import Base BaseLemmas CrcSpec CrcLin CrcModel CrcAlg CrcProofs CrcMul CrcNodeProofs CrcNodeSpec CrcIsaProofs ClmulModel ClmulProofs CrcUtilModel CrcUtilProofs.
From Coq Require Import NArith Lia ZifyN ZifyBool ZifyNat.
Open Scope N_scope.

Lemma minus_W_ok : crc32_multiply_generic (x_pow_minus_W (base the_crc)) (xpow 32) = xpow 0.
Proof. vm_compute. reflexivity. Qed.
Lemma the_residue : crc_of_crc (base the_crc) = compl (times_x 32 mask32).
Proof. change (mulx mask32 (ONE ⊕ xpow 32) = compl (times_x 32 mask32)). vm_compute. reflexivity. Qed.
Lemma the_poly : generating_polynomial (base the_crc) = POLY. Proof. reflexivity. Qed.
Lemma the_one : one (base the_crc) = ONE. Proof. reflexivity. Qed.

Lemma split_byte c k : c / 2 ^ k = (c / 2 ^ k mod 256) ⊕ N.shiftl (c / 2 ^ (k + 8)) 8.
Proof.
  rewrite (low_split 8 (c / 2 ^ k)) at 1. unfold low. rewrite N.land_ones. f_equal. f_equal.
  rewrite <- !N.shiftr_div_pow2, N.shiftr_shiftr. reflexivity.
Qed.
Lemma le_be32 c : word c -> le (rev (be32 c)) = c.
Proof.
  intro Hc. unfold be32. cbn [map rev app le]. rewrite !byte_of_N_small by (apply N.mod_lt; discriminate).
  rewrite N.shiftl_0_l, xor_0_r. rewrite (N.mod_small (c / 2 ^ 24)) by (apply N.div_lt_upper_bound; [discriminate|exact Hc]).
  pose proof (split_byte c 16) as E2. pose proof (split_byte c 8) as E1. pose proof (split_byte c 0) as E0.
  change (16 + 8) with 24 in E2. change (8 + 8) with 16 in E1. change (0 + 8) with 8 in E0.
  rewrite <- E2, <- E1, <- E0. apply N.div_1_r.
Qed.
Lemma compl_xor c : c ⊕ compl c = mask32.
Proof. unfold compl. rewrite <- N.lxor_assoc, N.lxor_nilpotent. reflexivity. Qed.
Lemma crc_of_crc_ok data : crc32_spec 0 (data ++ rev (be32 (crc32_spec 0 data))) = crc_of_crc (base the_crc).
Proof.
  rewrite the_residue. unfold crc32_spec at 1. rewrite crc_bytes_app, crc_bytes_le, le_be32 by (apply spec_word, zero_word).
  unfold crc32_spec. rewrite compl_xor. reflexivity.
Qed.

Lemma kept_same v src len init m : (0 <= len)%Z -> kept v true src len ->
  node_crc32 (do_crc32_incremental_crcutil v true) src len init m = node_crc32 portable src len init m.
Proof.
  intros Hl K. set (data := read_n m src (Z.to_nat len)).
  assert (E : zlen data = len) by (unfold data, zlen; rewrite length_read_n; lia).
  assert (R : readable {| rlo := src; rhi := src + len; wlo := 0; whi := 0 |} m src data).
  { unfold readable. rewrite E. cbn [rlo rhi]. split; [lia|]. apply read_bytes_at. }
  unfold node_crc32. rewrite <- E in R, K |- *. clearbody data.
  destruct init as [b|].
  - destruct (is4 b); [|reflexivity].
    rewrite crcutil_ok, (generic_crc_ok _ m src data) by first [exact R|apply read_word|exact K]. reflexivity.
  - rewrite crcutil_ok, (generic_crc_ok _ m src data) by first [exact R|apply zero_word|exact K]. reflexivity.
Qed.

Lemma same_made (a g : generic_crc) (x : out (option generic_crc)) : x = Ok (Some a) -> x = Ok (Some g) -> g = a.
Proof. congruence. Qed.
Lemma made_eq g : crcutil_create 0xEDB88320 0 32 true = Ok (Some g) -> g = the_crc.
Proof. exact (same_made the_crc g _ made). Qed.
Lemma xpow_made g n : crcutil_create 0xEDB88320 0 32 true = Ok (Some g) -> n < 2 ^ 64 ->
  gf_xpow_n (x_pow_2n (base g)) (generating_polynomial (base g)) (one (base g)) n = xpow n.
Proof.
  intros H Hn. rewrite (made_eq g H). clear H. change (gf_xpow_n pows POLY ONE n = xpow n). apply gf_xpow_ok. exact Hn.
Qed.

Lemma tables_nth g : good g -> forall j i, (j < 8)%nat -> i < 256 ->
  nth (N.to_nat i) (nth j (crc_word g) []) 0 = times_x (64 - 8 * N.of_nat j) i /\
  nth (N.to_nat i) (nth j (crc_word_interleaved g) []) 0 = times_x (256 - 8 * N.of_nat j) i.
Proof. exact (tables_ok g). Qed.
