(** Proofs about the crcutil model: the polynomial arithmetic, the tables, and the loops. *)
From Verif Require Import Base BaseLemmas CrcSpec CrcLin CrcModel CrcAlg CrcProofs CrcMul CrcNodeProofs ClmulModel ClmulProofs CrcUtilModel.
From Coq Require Import NArith Lia ZifyN ZifyBool ZifyNat.
Open Scope N_scope.

(** ** Polynomial arithmetic *)

Lemma land_one a : word a -> negb (N.land a ONE =? 0) = N.testbit a 31.
Proof.
  intro H. destruct (N.testbit a 31) eqn:E.
  - destruct (N.eqb_spec (N.land a ONE) 0) as [Z|]; [|reflexivity].
    apply (f_equal (fun x => N.testbit x 31)) in Z. rewrite N.land_spec, E in Z. discriminate.
  - assert (Z : N.land a ONE = 0); [|rewrite Z; reflexivity].
    apply N.bits_inj. intro i. rewrite N.land_spec, N.bits_0. change ONE with (2 ^ 31). rewrite N.pow2_bits_eqb.
    destruct (N.eqb_spec 31 i) as [<-|]; [rewrite E; reflexivity|apply andb_false_r].
Qed.
Lemma clear_shl a : word a -> shl64 (if N.testbit a 31 then a ⊕ ONE else a) 1 = shl32 a 1.
Proof.
  intro H. apply N.bits_inj. intro i. unfold shl64, shl32, u64, u32.
  change 0xFFFFFFFFFFFFFFFF with (N.ones 64). change 0xFFFFFFFF with (N.ones 32). rewrite !N.land_spec.
  destruct (N.eq_dec i 0) as [->|Hi]; [rewrite !N.shiftl_spec_low by lia; reflexivity|].
  rewrite !N.shiftl_spec_high' by lia.
  assert (X : N.testbit (if N.testbit a 31 then a ⊕ ONE else a) (i - 1) = N.testbit a (i - 1) && (i - 1 <? 31)).
  { destruct (N.eq_dec (i - 1) 31) as [E|E].
    - rewrite E. rewrite andb_false_r. destruct (N.testbit a 31) eqn:F; [|exact F].
      rewrite N.lxor_spec, F. reflexivity.
    - assert (Y : N.testbit (if N.testbit a 31 then a ⊕ ONE else a) (i - 1) = N.testbit a (i - 1)).
      { destruct (N.testbit a 31); [|reflexivity]. rewrite N.lxor_spec. change ONE with (2 ^ 31).
        rewrite N.pow2_bits_false by lia. apply xorb_false_r. }
      rewrite Y. destruct (N.ltb_spec (i - 1) 31) as [L|L]; [symmetry; apply andb_true_r|].
      rewrite andb_false_r. apply (proj1 (lt_pow2_bits a 32) H). lia. }
  rewrite X. destruct (N.ltb_spec (i - 1) 31) as [L|L].
  - rewrite !N.ones_spec_low by lia. rewrite !andb_true_r. reflexivity.
  - rewrite (N.ones_spec_high 32) by lia. rewrite !andb_false_r. reflexivity.
Qed.
Lemma gf_step b : b < 2 ^ 64 -> N.shiftr b 1 ⊕ (if N.land b 1 =? 0 then 0 else POLY) = step b.
Proof.
  intro. unfold step. f_equal. change 1 with (N.ones 1) at 1. rewrite N.land_ones. change (2 ^ 1) with 2.
  rewrite <- N.bit0_mod, N.bit0_odd. destruct (N.odd b); reflexivity.
Qed.
Lemma mm_0 n : forall b, mm n b 0 = 0.
Proof. induction n as [|n IH]; intro b; [reflexivity|]. cbn [mm]. change (shl32 0 1) with 0. rewrite IH. reflexivity. Qed.

Lemma mult_loop_mm n : forall a b p, word a -> word b -> mult_loop n POLY ONE a b p = p ⊕ mm n b a.
Proof.
  induction n as [|n IH]; intros a b p Ha Hb.
  - cbn [mult_loop mm]. rewrite xor_0_r. destruct (a =? 0); reflexivity.
  - cbn [mult_loop]. destruct (N.eqb_spec a 0) as [->|Hn]; [rewrite mm_0, xor_0_r; reflexivity|].
    cbv zeta. rewrite (land_one a Ha).
    rewrite gf_step by (eapply lt_weaken; [exact Hb|lia]). rewrite (clear_shl a Ha).
    rewrite IH by (apply u32_word || apply step_word, Hb). cbn [mm].
    destruct (N.testbit a 31); rewrite ?xor_0_l, ?xor_assoc; reflexivity.
Qed.
Lemma mm64 a b : word a -> word b -> mm 64 a b = mulx a b.
Proof.
  revert a b. apply (bilin_check 32 32 (mm 64) mulx).
  - apply mm_lin_l.
  - apply mm_lin_r.
  - apply mulx_lin_l.
  - apply mulx_lin_r.
  - vm_cast_no_check (eq_refl true).
Qed.
Lemma gf_multiply_ok a b : word a -> word b -> gf_multiply POLY ONE a b = mulx a b.
Proof.
  intros Ha Hb. unfold gf_multiply.
  assert (G : forall x y, word x -> word y -> (if x =? 0 then x else mult_loop 64 POLY ONE x y 0) = mulx x y).
  { intros x y Hx Hy. rewrite mulx_comm by assumption. rewrite <- mm64 by assumption.
    destruct (N.eqb_spec x 0) as [->|]; [rewrite mm_0; reflexivity|].
    rewrite mult_loop_mm by assumption. apply xor_0_l. }
  destruct (_ <? _); [rewrite G by assumption; apply mulx_comm; assumption|apply G; assumption].
Qed.

(** ** Powers *)
Notation pows := (pow_2n 64 POLY ONE (N.shiftr ONE 1)).
Lemma pow_2n_ok n : forall e, pow_2n n POLY ONE (xpow e) = map (fun i => xpow (e * 2 ^ N.of_nat i)) (seq 0 n).
Proof.
  induction n as [|n IH]; intro e; [reflexivity|]. cbn [pow_2n].
  rewrite gf_multiply_ok by apply xpow_word. rewrite mulx_xpow_l by apply xpow_word. unfold xpow at 2. rewrite <- times_add.
  change (times_x (e + e) ONE) with (xpow (e + e)). rewrite IH. cbn [seq map]. f_equal; [f_equal; cbn; lia|].
  rewrite <- seq_shift, map_map. apply map_ext. intro i. f_equal. rewrite Nat2N.inj_succ, N.pow_succ_r'. lia.
Qed.
Lemma pows_ok : pows = map (fun i => xpow (2 ^ N.of_nat i)) (seq 0 64).
Proof.
  change (N.shiftr ONE 1) with (xpow 1). rewrite pow_2n_ok. apply map_ext. intro. f_equal. lia.
Qed.
Lemma xpow_loop_ok k : forall s n e, n < 2 ^ N.of_nat k ->
  xpow_loop (map (fun i => xpow (2 ^ N.of_nat i)) (seq s k)) POLY ONE n (xpow e) = xpow (e + n * 2 ^ N.of_nat s).
Proof.
  induction k as [|k IH]; intros s n e Hn.
  - cbn [seq map xpow_loop]. change (2 ^ N.of_nat 0) with 1 in Hn. f_equal. replace n with 0 by lia. lia.
  - cbn [seq map xpow_loop]. destruct (N.eqb_spec n 0) as [->|Hz]; [f_equal; lia|].
    assert (D : n = 2 * N.shiftr n 1 + n mod 2).
    { rewrite N.shiftr_div_pow2. change (2 ^ 1) with 2. apply N.div_mod. discriminate. }
    assert (Hs : N.shiftr n 1 < 2 ^ N.of_nat k).
    { rewrite Nat2N.inj_succ, N.pow_succ_r' in Hn. lia. }
    assert (E : (if N.land n 1 =? 0 then xpow e else gf_multiply POLY ONE (xpow e) (xpow (2 ^ N.of_nat s)))
                = xpow (e + (n mod 2) * 2 ^ N.of_nat s)).
    { change 1 with (N.ones 1) at 1. rewrite N.land_ones. change (2 ^ 1) with 2.
      assert (n mod 2 < 2) by (apply N.mod_lt; discriminate).
      destruct (N.eqb_spec (n mod 2) 0) as [->|Ho]; [f_equal; lia|]. replace (n mod 2) with 1 by lia.
      rewrite gf_multiply_ok by apply xpow_word. rewrite mulx_xpow_l by apply xpow_word. unfold xpow.
      rewrite <- times_add. f_equal. lia. }
    rewrite E, IH by exact Hs. f_equal. rewrite Nat2N.inj_succ, N.pow_succ_r'. rewrite D at 3. ring.
Qed.
Lemma gf_xpow_ok n : n < 2 ^ 64 -> gf_xpow_n pows POLY ONE n = xpow n.
Proof.
  intro H. unfold gf_xpow_n. rewrite pows_ok. change ONE with (xpow 0) at 2.
  rewrite (xpow_loop_ok 64 0 n 0 H). f_equal. cbn. lia.
Qed.

(** ** The instance *)
Definition the_tables (K : N) : list (list N) := map (fun j => map (times_x (K - 8 * j)) range256) [0; 1; 2; 3; 4; 5; 6; 7].
Definition the_gf : gf :=
  {| generating_polynomial := POLY; degree := 32; one := ONE; canonize := mask32; x_pow_2n := pows; crc_bytes_ := 4;
     crc_of_crc := mulx mask32 (ONE ⊕ xpow 32); x_pow_minus_W := 1530236883 |}.
Definition the_crc : generic_crc := {| crc_word_interleaved := the_tables 256; crc_word := the_tables 64; base := the_gf |}.

Lemma lcd_ok : find_lcd POLY ONE (xpow 32) = Some 1530236883.
Proof. vm_compute. reflexivity. Qed.
Lemma the_gf_made : gf_init 0xEDB88320 32 true = Some the_gf.
Proof.
  unfold gf_init. cbv zeta. change (shl64 1 (32 - 1)) with ONE. change (N.lor ONE (dec64 ONE)) with mask32. change 0xEDB88320 with POLY.
  change (N.shiftr (32 + 7) 3) with 4.
  unfold gf_xpow_8n. change (shl64 4 3) with 32. rewrite gf_xpow_ok by reflexivity. rewrite lcd_ok, gf_multiply_ok by reflexivity. reflexivity.
Qed.

(** A table of a linear function is filled by doubling. *)
Definition upto (n : nat) : list N := map N.of_nat (seq 0 n).
Lemma upto_range : upto 256 = range256. Proof. reflexivity. Qed.
Lemma no_carry : forallb (fun n => forallb (fun i => N.of_nat (n + i) =? N.of_nat n ⊕ N.of_nat i) (seq 0 n)) [1; 2; 4; 8; 16; 32; 64; 128]%nat = true.
Proof. vm_compute. reflexivity. Qed.
Lemma seq_up n : forall k s, seq (k + s) n = map (Nat.add k) (seq s n).
Proof. induction n as [|n IH]; intros k s; [reflexivity|]. cbn [seq map]. f_equal. rewrite <- IH. f_equal. lia. Qed.
Lemma double_table (f : N -> N) n : lin f -> In n [1; 2; 4; 8; 16; 32; 64; 128]%nat ->
  map f (upto n) ++ f (N.of_nat n) :: map (N.lxor (f (N.of_nat n))) (tl (map f (upto n))) = map f (upto (n + n)).
Proof.
  intros L Hn. pose proof no_carry as H. rewrite forallb_forall in H. specialize (H n Hn). rewrite forallb_forall in H.
  assert (E : forall i, In i (seq 0 n) -> f (N.of_nat (n + i)) = f (N.of_nat n) ⊕ f (N.of_nat i)).
  { intros i Hi. specialize (H i Hi). apply N.eqb_eq in H. rewrite H. apply L. }
  unfold upto. rewrite seq_app, !map_app. f_equal. replace (0 + n)%nat with (n + 0)%nat by lia. rewrite (seq_up n n 0), !map_map.
  rewrite (map_ext_in _ _ _ E). clear H E. destruct n as [|n]; [cbn in Hn; intuition discriminate|].
  cbn [seq map tl]. change (N.of_nat 0) with 0. rewrite (lin_0 f L), xor_0_r, map_map. reflexivity.
Qed.
Lemma fill_ok g (f : N -> N) k : lin f -> (forall i, In i [1; 2; 4; 8; 16; 32; 64; 128] -> multiply_unnormalized g i 8 k = f i) ->
  fill g k = map f range256.
Proof.
  intros L H. rewrite <- upto_range. unfold fill. cbn [fold_left]. cbv zeta. rewrite !H by (cbn [In]; tauto).
  replace [0] with (map f (upto 1)) by (cbn; rewrite (lin_0 f L); reflexivity).
  pose proof (fun n => double_table f n L) as D.
  change 1 with (N.of_nat 1). rewrite (D 1%nat) by (cbn [In]; tauto). change (1 + 1)%nat with 2%nat.
  change 2 with (N.of_nat 2). rewrite (D 2%nat) by (cbn [In]; tauto). change (2 + 2)%nat with 4%nat.
  change 4 with (N.of_nat 4). rewrite (D 4%nat) by (cbn [In]; tauto). change (4 + 4)%nat with 8%nat.
  change 8 with (N.of_nat 8). rewrite (D 8%nat) by (cbn [In]; tauto). change (8 + 8)%nat with 16%nat.
  change 16 with (N.of_nat 16). rewrite (D 16%nat) by (cbn [In]; tauto). change (16 + 16)%nat with 32%nat.
  change 32 with (N.of_nat 32). rewrite (D 32%nat) by (cbn [In]; tauto). change (32 + 32)%nat with 64%nat.
  change 64 with (N.of_nat 64). rewrite (D 64%nat) by (cbn [In]; tauto). change (64 + 64)%nat with 128%nat.
  change 128 with (N.of_nat 128). rewrite (D 128%nat) by (cbn [In]; tauto). reflexivity.
Qed.
(** A byte times a power of x. *)
Lemma unnorm_ok i n : In i [1; 2; 4; 8; 16; 32; 64; 128] -> 24 <= n -> multiply_unnormalized the_gf i 8 (xpow n) = times_x (n - 24) i.
Proof.
  intros Hi Hn. unfold multiply_unnormalized. change (S (N.to_nat 8)) with 9%nat. cbn [unnorm_loop]. change (degree the_gf) with 32.
  change (32 <? 8) with false. cbv iota. change (generating_polynomial the_gf) with POLY. change (one the_gf) with ONE. change (32 - 8) with 24.
  rewrite xor_0_l. rewrite gf_multiply_ok; [|cbn [In] in Hi; intuition subst; reflexivity|apply xpow_word].
  rewrite mulx_xpow_r by (cbn [In] in Hi; intuition subst; reflexivity).
  replace (shl64 i 24) with (N.shiftl i 24) by (cbn [In] in Hi; intuition subst; reflexivity). apply times_shiftl'. exact Hn.
Qed.
Lemma table_made K j : j <= 7 -> 64 <= K -> K < 2 ^ 32 ->
  fill the_gf (gf_xpow_n (x_pow_2n the_gf) (generating_polynomial the_gf) (one the_gf) (K - 8 - j * 8 + 32)) = map (times_x (K - 8 * j)) range256.
Proof.
  intros Hj H1 H2. change (x_pow_2n the_gf) with pows. change (generating_polynomial the_gf) with POLY. change (one the_gf) with ONE.
  rewrite gf_xpow_ok by lia. apply fill_ok; [apply lin_times|]. intros i Hi. rewrite unnorm_ok by (assumption || lia). f_equal. lia.
Qed.
Lemma made : crcutil_create 0xEDB88320 0 32 true = Ok (Some the_crc).
Proof.
  unfold crcutil_create, generic_init. rewrite the_gf_made.
  change (32 =? 0) with false. change (negb (0 =? 0) || (negb (32 =? 64) && negb (N.shiftr 0xEDB88320 32 =? 0))) with false. cbv iota zeta beta.
  cbn [map].
  change ((8 * 4 - 1 - 0) * 8 + 32) with (256 - 8 - 0 * 8 + 32). change ((8 * 4 - 1 - 1) * 8 + 32) with (256 - 8 - 1 * 8 + 32).
  change ((8 * 4 - 1 - 2) * 8 + 32) with (256 - 8 - 2 * 8 + 32). change ((8 * 4 - 1 - 3) * 8 + 32) with (256 - 8 - 3 * 8 + 32).
  change ((8 * 4 - 1 - 4) * 8 + 32) with (256 - 8 - 4 * 8 + 32). change ((8 * 4 - 1 - 5) * 8 + 32) with (256 - 8 - 5 * 8 + 32).
  change ((8 * 4 - 1 - 6) * 8 + 32) with (256 - 8 - 6 * 8 + 32). change ((8 * 4 - 1 - 7) * 8 + 32) with (256 - 8 - 7 * 8 + 32).
  change ((8 * 1 - 1 - 0) * 8 + 32) with (64 - 8 - 0 * 8 + 32). change ((8 * 1 - 1 - 1) * 8 + 32) with (64 - 8 - 1 * 8 + 32).
  change ((8 * 1 - 1 - 2) * 8 + 32) with (64 - 8 - 2 * 8 + 32). change ((8 * 1 - 1 - 3) * 8 + 32) with (64 - 8 - 3 * 8 + 32).
  change ((8 * 1 - 1 - 4) * 8 + 32) with (64 - 8 - 4 * 8 + 32). change ((8 * 1 - 1 - 5) * 8 + 32) with (64 - 8 - 5 * 8 + 32).
  change ((8 * 1 - 1 - 6) * 8 + 32) with (64 - 8 - 6 * 8 + 32). change ((8 * 1 - 1 - 7) * 8 + 32) with (64 - 8 - 7 * 8 + 32).
  rewrite !table_made by lia. reflexivity.
Qed.
Lemma crcutil_made : crcutil_crc = Ok (Some the_crc).
Proof. unfold crcutil_crc. exact made. Qed.

(** What the loops rely on. *)
Record good (g : generic_crc) : Prop := {
  good_canonize : canonize (base g) = mask32;
  good_word : forall j i, (j < 8)%nat -> i < 256 -> entry (crc_word g) j i = times_x (64 - 8 * N.of_nat j) i;
  good_inter : forall j i, (j < 8)%nat -> i < 256 -> entry (crc_word_interleaved g) j i = times_x (256 - 8 * N.of_nat j) i }.
Lemma the_entry K j i : (j < 8)%nat -> i < 256 -> entry (the_tables K) j i = times_x (K - 8 * N.of_nat j) i.
Proof.
  intros Hj Hi. unfold entry, the_tables. do 8 (destruct j as [|j]; [cbn [map nth]; apply tab_map; exact Hi|]). lia.
Qed.
Lemma the_good : good the_crc.
Proof. split; [reflexivity|exact (the_entry 64)|exact (the_entry 256)]. Qed.

Section Good.
Variable g : generic_crc.
Hypothesis Hg : good g.
Notation G := g.

Lemma tables_ok j i : (j < 8)%nat -> i < 256 ->
  entry (crc_word g) j i = times_x (64 - 8 * N.of_nat j) i /\
  entry (crc_word_interleaved g) j i = times_x (256 - 8 * N.of_nat j) i.
Proof.
  intros Hj Hi. split; [apply (good_word g Hg)|apply (good_inter g Hg)]; assumption.
Qed.

(** ** Eight lookups *)
Lemma lo8_lt x : lo8 x < 256. Proof. apply (lt_land_r x 0xff 8). reflexivity. Qed.
Lemma hi8_lt x : hi8 x < 256. Proof. apply (lt_land_r _ 0xff 8). reflexivity. Qed.
Lemma u32_lt x k : k <= 32 -> N.shiftr (u32 x) k < 2 ^ (32 - k).
Proof. intro. apply lt_shiftr. replace (32 - k + k) with 32 by lia. apply u32_word. Qed.

Definition of_times (t : list (list N)) (K : N) : Prop :=
  forall j i, (j < 8)%nat -> i < 256 -> entry t j i = times_x (K - 8 * N.of_nat j) i.
Lemma word_times : of_times (crc_word g) 64. Proof. intros j i Hj Hi. apply tables_ok; assumption. Qed.
Lemma inter_times : of_times (crc_word_interleaved g) 256. Proof. intros j i Hj Hi. apply tables_ok; assumption. Qed.

Lemma top8 x : x < 2 ^ 64 -> N.shiftr x 56 < 256.
Proof. intro. apply (lt_shiftr x 56 8). assumption. Qed.
Lemma top8_32 x : N.shiftr (u32 x) 24 < 256.
Proof. apply (lt_shiftr (u32 x) 24 8). apply u32_word. Qed.
Ltac by_basis := match goal with |- forall buf, _ -> @?f buf = times_x ?k buf => apply (lin_check 64 f (times_x k)) end;
    [unfold lo8, hi8, u32; auto 40 with lin|auto with lin|vm_cast_no_check (eq_refl true)].
Lemma lookups_cpp_ok t K : (K = 64 \/ K = 256) -> of_times t K -> forall buf, buf < 2 ^ 64 -> lookups CU_cpp t buf = times_x K buf.
Proof.
  intros HK Ht buf Hb. cbn [lookups lookups_cpp]. rewrite !(Ht _ (lo8 _)) by first [lia|apply lo8_lt].
  rewrite !N.shiftr_shiftr. change (8 + 8 + 8 + 8 + 8 + 8 + 8) with 56.
  rewrite (Ht 7%nat (N.shiftr buf 56)); [|lia|exact (top8 buf Hb)].
  revert buf Hb. destruct HK as [-> | ->]; by_basis.
Qed.
Lemma lookups_amd64_ok t K : (K = 64 \/ K = 256) -> of_times t K -> forall buf, buf < 2 ^ 64 -> lookups CU_amd64 t buf = times_x K buf.
Proof.
  intros HK Ht buf Hb. cbn [lookups]. unfold lookups_amd64. cbv zeta.
  rewrite !(Ht _ (lo8 _)) by first [lia|apply lo8_lt]. rewrite !(Ht _ (hi8 _)) by first [lia|apply hi8_lt].
  revert buf Hb. destruct HK as [-> | ->]; by_basis.
Qed.
Lemma lookups_mmx_ok t K : (K = 64 \/ K = 256) -> of_times t K -> forall buf, buf < 2 ^ 64 -> lookups_mmx t buf = times_x K buf.
Proof.
  intros HK Ht buf Hb. unfold lookups_mmx. cbv zeta.
  rewrite !(Ht _ (lo8 _)) by first [lia|apply lo8_lt]. rewrite !N.shiftr_shiftr. change (8 + 8 + 8) with 24.
  rewrite (Ht 3%nat _ ltac:(lia) (top8_32 _)), (Ht 7%nat _ ltac:(lia) (top8_32 _)).
  revert buf Hb. destruct HK as [-> | ->]; by_basis.
Qed.
Lemma lookups_ok v t K : (K = 64 \/ K = 256) -> of_times t K -> forall buf, buf < 2 ^ 64 -> lookups v t buf = times_x K buf.
Proof. destruct v; [apply lookups_cpp_ok|apply lookups_amd64_ok|apply lookups_mmx_ok|apply lookups_mmx_ok]. Qed.

Lemma times_lt64 K x : (K = 64 \/ K = 256) -> x < 2 ^ 64 -> word (times_x K x).
Proof.
  intros HK Hx. replace K with (K - 32 + 32) by lia. rewrite times_add. apply times_word.
  rewrite times_split. apply xor_word; [|apply (lt_shiftr x 32 32); exact Hx].
  apply times_word. apply low_bound.
Qed.
Lemma cu_word_ok v c b : word c -> b < 2 ^ 64 -> cu_word G v c b = times_x 64 (c ⊕ b).
Proof.
  intros Hc Hb. unfold cu_word. rewrite (lookups_ok v _ 64); [f_equal; apply xor_comm|auto|apply word_times|].
  apply lt_xor; [exact Hb|eapply lt_weaken; [exact Hc|lia]].
Qed.
Lemma cu_word_word v c b : word c -> b < 2 ^ 64 -> word (cu_word G v c b).
Proof. intros. rewrite cu_word_ok by assumption. apply times_lt64; [auto|]. apply lt_xor; [eapply lt_weaken; [eassumption|lia]|assumption]. Qed.
Lemma chain_ok v c b : word c -> b < 2 ^ 64 -> chain v G c b = times_x 256 (c ⊕ b).
Proof.
  intros Hc Hb. unfold chain. rewrite (lookups_ok v _ 256); [f_equal; apply xor_comm|auto|apply inter_times|].
  apply lt_xor; [exact Hb|eapply lt_weaken; [exact Hc|lia]].
Qed.
Lemma chain_word v c b : word c -> b < 2 ^ 64 -> word (chain v G c b).
Proof. intros. rewrite chain_ok by assumption. apply times_lt64; [auto|]. apply lt_xor; [eapply lt_weaken; [eassumption|lia]|assumption]. Qed.
Lemma cu_byte_ok c b : word c -> cu_byte G c (Byte.to_N b) = crc_byte c b.
Proof.
  intro Hc. unfold cu_byte, crc_byte. rewrite word_times; [|lia|apply (lt_xor _ _ 8); [apply lo8_lt|apply byte_lt]].
  change (64 - 8 * N.of_nat 7) with 8. rewrite !lin_times, (times8_split c Hc). unfold lo8. xor_solve.
Qed.

(** A word of data. *)
Lemma le8_bound l : length l = 8%nat -> le l < 2 ^ 64.
Proof. intro H. pose proof (le_bound l) as L. unfold bits_of in L. rewrite H in L. exact L. Qed.
Lemma cu_word_bytes v c l : word c -> length l = 8%nat -> cu_word G v c (le l) = crc_bytes c l.
Proof.
  intros Hc H. rewrite cu_word_ok by auto using le8_bound. rewrite crc_bytes_le. unfold bits_of. rewrite H. reflexivity.
Qed.

Section Loops.
Variables (v : cu) (strict : bool) (B : bufs) (m : mem).

Lemma byte_loop_ok l : forall fuel p c, word c -> readable B m p l -> (length l <= fuel)%nat ->
  byte_loop G B fuel p (p + zlen l) c m = Ok (crc_bytes c l, m).
Proof.
  induction l as [|x l IH]; intros fuel p c Hc H Hf.
  - change (zlen (@nil byte)) with 0%Z. rewrite Z.add_0_r.
    destruct fuel; cbn [byte_loop]; rewrite Z.ltb_irrefl; reflexivity.
  - destruct fuel as [|fuel]; [cbn [length] in Hf; lia|]. cbn [byte_loop]. rewrite zlen_cons.
    pose proof (zlen_nonneg l). destruct (p <? p + (zlen l + 1))%Z eqn:E; [|lia].
    erewrite bind_ok by (eapply load8_ok; exact H).
    rewrite cu_byte_ok by assumption. apply readable_cons in H; destruct H as [_ H].
    replace (p + (zlen l + 1))%Z with (p + 1 + zlen l)%Z by lia.
    rewrite IH; auto using crc_byte_word. cbn [length] in Hf. lia.
Qed.

Lemma align_loop_ok l : forall fuel p c, word c -> readable B m p l -> (length l <= fuel)%nat ->
  exists a b, l = a ++ b /\ align_loop G B fuel p (p + zlen l) c m = Ok ((p + zlen a)%Z, crc_bytes c a, m)
    /\ (b = [] \/ (p + zlen a) mod 8 = 0)%Z.
Proof.
  induction l as [|x l IH]; intros fuel p c Hc H Hf.
  - exists [], []. change (zlen (@nil byte)) with 0%Z. rewrite Z.add_0_r.
    split; [reflexivity|]. split; [|left; reflexivity].
    destruct fuel; cbn [align_loop]; rewrite Z.leb_refl; destruct (_ =? _)%Z; reflexivity.
  - assert (A : (Z.land p 7 = p mod 8)%Z) by (change 7%Z with (Z.ones 3); apply Z.land_ones; lia).
    destruct (Z.land p 7 =? 0)%Z eqn:E.
    + exists [], (x :: l). split; [reflexivity|]. change (zlen (@nil byte)) with 0%Z. rewrite Z.add_0_r.
      split; [|right; lia]. destruct fuel; cbn [align_loop]; rewrite E; reflexivity.
    + destruct fuel as [|fuel]; [cbn [length] in Hf; lia|].
      pose proof (zlen_nonneg l).
      destruct (IH fuel (p + 1)%Z (crc_byte c x)) as (a & b & -> & R & D);
        [auto using crc_byte_word|apply readable_cons in H; tauto|cbn [length] in Hf; lia|].
      exists (x :: a), b. split; [reflexivity|].
      split; [|destruct D; [left; assumption|right; rewrite zlen_cons; replace (p + (zlen a + 1))%Z with (p + 1 + zlen a)%Z by lia; assumption]].
      cbn [align_loop]. rewrite E, zlen_cons. destruct (p + (zlen (a ++ b) + 1) <=? p)%Z eqn:E2; [lia|].
      erewrite bind_ok by (eapply load8_ok; exact H). rewrite cu_byte_ok by assumption.
      replace (p + (zlen (a ++ b) + 1))%Z with (p + 1 + zlen (a ++ b))%Z by lia. rewrite R.
      rewrite zlen_cons. replace (p + (zlen a + 1))%Z with (p + 1 + zlen a)%Z by lia. reflexivity.
Qed.

(** Loads of words. *)
Lemma load_word_ok cpp p l : readable B m p l -> length l = 8%nat -> (strict && cpp = true -> p mod 8 = 0)%Z ->
  load_word strict B cpp p m = Ok (le l, m).
Proof.
  intros H L A. unfold load_word.
  replace (strict && cpp && negb (p mod 8 =? 0)%Z) with false by (destruct (strict && cpp); [rewrite A by reflexivity; reflexivity|reflexivity]).
  rewrite <- L. apply loadu_ok. exact H.
Qed.

(** A loop that advances by [k] from [p] while [w] of the [n] bytes are left. *)
Definition stops (k w p n stop : Z) : Prop := forall j, (0 <= j)%Z -> (p + k * j <? stop)%Z = (k * j + w <=? n)%Z.
Lemma stops_0 k w p n stop : stops k w p n stop -> (p <? stop)%Z = (w <=? n)%Z.
Proof. intro H. specialize (H 0%Z ltac:(lia)). rewrite Z.mul_0_r, Z.add_0_r, Z.add_0_l in H. exact H. Qed.
Lemma stops_S k w p n stop : stops k w p n stop -> stops k w (p + k) (n - k) stop.
Proof. intros H j Hj. specialize (H (j + 1)%Z ltac:(lia)). rewrite Z.mul_add_distr_l, Z.mul_1_r in H. lia. Qed.
Lemma word_stops p n : (0 <= n)%Z -> stops 8 8 p n (word_stop v p (p + n)).
Proof. intros Hn j Hj. unfold word_stop. destruct v; rewrite ?Z.add_simpl_l; lia. Qed.
Lemma main_stops p n : (0 <= n)%Z -> stops 32 64 p n (main_stop v p (p + n)).
Proof.
  intros Hn j Hj. unfold main_stop. destruct v; try lia. cbv zeta. rewrite Z.add_simpl_l.
  destruct (32 <? n / 32 * 32)%Z eqn:E; lia.
Qed.

Definition aligned_if (cpp : bool) (p : Z) : Prop := strict && cpp = true -> (p mod 8 = 0)%Z.
Lemma aligned_8 cpp p k : aligned_if cpp p -> aligned_if cpp (p + 8 * k).
Proof. intros H S. specialize (H S). lia. Qed.

Lemma len8 (l : list byte) : zlen l = 8%Z -> length l = 8%nat. Proof. unfold zlen. lia. Qed.

Lemma word_loop_ok n : forall fuel p l c stop, (length l <= n)%nat -> word c -> readable B m p l -> (length l <= fuel)%nat ->
  aligned_if (in_cpp v) p -> stops 8 8 p (zlen l) stop ->
  exists a b, l = a ++ b /\ word_loop v strict G B fuel p stop c m = Ok ((p + zlen a)%Z, crc_bytes c a, m) /\ word (crc_bytes c a).
Proof.
  induction n as [|n IH]; intros fuel p l c stop Hn Hc R Hf A S; pose proof (stops_0 _ _ _ _ _ S) as S0;
    destruct (8 <=? zlen l)%Z eqn:E.
  - unfold zlen in E. lia.
  - exists [], l. split; [reflexivity|]. change (zlen (@nil byte)) with 0%Z. rewrite Z.add_0_r.
    split; [|exact Hc]. destruct fuel; cbn [word_loop]; rewrite S0; reflexivity.
  - destruct (cut l 8) as (w & r & -> & Hw); [lia|]. pose proof (len8 w Hw) as Lw.
    rewrite app_length in Hn, Hf. destruct fuel as [|fuel]; [lia|].
    apply readable_app in R. destruct R as [Rw Rr]. rewrite Hw in Rr.
    rewrite zlen_app, Hw in S. apply stops_S in S. replace (8 + zlen r - 8)%Z with (zlen r) in S by lia.
    assert (Hc' : word (crc_bytes c w)) by (apply crc_bytes_word, Hc).
    destruct (IH fuel (p + 8)%Z r (crc_bytes c w) stop) as (a & b & -> & Q & Wd); auto; try lia.
    { apply (aligned_8 _ p 1), A. }
    exists (w ++ a), b. split; [apply app_assoc|].
    rewrite zlen_app, Hw, crc_bytes_app. split; [|exact Wd].
    cbn [word_loop]. rewrite S0. erewrite bind_ok by (apply load_word_ok; [exact Rw|exact Lw|exact A]).
    rewrite cu_word_bytes by assumption. rewrite Q. rewrite Z.add_assoc. reflexivity.
  - exists [], l. split; [reflexivity|]. change (zlen (@nil byte)) with 0%Z. rewrite Z.add_0_r.
    split; [|exact Hc]. destruct fuel; cbn [word_loop]; rewrite S0; reflexivity.
Qed.

Lemma bits_app a b : bits_of (a ++ b) = bits_of a + bits_of b.
Proof. unfold bits_of. rewrite app_length. lia. Qed.

(** Thirty-two bytes as four words. *)
Record quad (l : list byte) (b0 b1 b2 b3 : N) : Prop := {
  q_len : zlen l = 32%Z; q0 : b0 < 2 ^ 64; q1 : b1 < 2 ^ 64; q2 : b2 < 2 ^ 64; q3 : b3 < 2 ^ 64;
  q_crc : crc_bytes 0 l = times_x 256 b0 ⊕ times_x 192 b1 ⊕ times_x 128 b2 ⊕ times_x 64 b3
}.
Lemma load4_ok p l : zlen l = 32%Z -> readable B m p l -> aligned_if (in_cpp v) p ->
  exists b0 b1 b2 b3, load4 v strict B p m = Ok (b0, b1, b2, b3, m) /\ quad l b0 b1 b2 b3.
Proof.
  intros Hl R A.
  destruct (cut l 8) as (w0 & l1 & -> & H0); [lia|]. rewrite zlen_app in Hl.
  destruct (cut l1 8) as (w1 & l2 & -> & H1); [lia|]. rewrite zlen_app in Hl.
  destruct (cut l2 8) as (w2 & w3 & -> & H2); [lia|]. rewrite zlen_app in Hl.
  assert (H3 : zlen w3 = 8%Z) by lia.
  rewrite !readable_app, H0, H1, H2 in R. destruct R as (R0 & R1 & R2 & R3).
  replace (p + 8 + 8)%Z with (p + 16)%Z in R2, R3 by lia. replace (p + 16 + 8)%Z with (p + 24)%Z in R3 by lia.
  apply len8 in H0, H1, H2, H3.
  exists (le w0), (le w1), (le w2), (le w3). split.
  - unfold load4.
    erewrite bind_ok by (apply load_word_ok; [exact R0|exact H0|exact A]).
    erewrite bind_ok by (apply load_word_ok; [exact R1|exact H1|exact (aligned_8 _ p 1 A)]).
    erewrite bind_ok by (apply load_word_ok; [exact R2|exact H2|exact (aligned_8 _ p 2 A)]).
    erewrite bind_ok by (apply load_word_ok; [exact R3|exact H3|exact (aligned_8 _ p 3 A)]).
    reflexivity.
  - split; auto using le8_bound; [unfold zlen; rewrite !app_length; lia|].
    rewrite !crc_bytes_app, !crc_bytes_le, !lin_times. unfold bits_of. rewrite H0, H1, H2, H3.
    change (8 * N.of_nat 8) with 64. rewrite times_zero, xor_0_l. rewrite <- !times_add. reflexivity.
Qed.

(** What the four registers stand for when [n] bits of data are still to come. *)
Definition due (n c0 c1 c2 c3 : N) : N := times_x n c0 ⊕ times_x (n - 64) c1 ⊕ times_x (n - 128) c2 ⊕ times_x (n - 192) c3.

Lemma due_step n l b0 b1 b2 b3 c0 c1 c2 c3 : 256 <= n -> quad l b0 b1 b2 b3 -> word c0 -> word c1 -> word c2 -> word c3 ->
  due n (chain v G c0 b0) (chain v G c1 b1) (chain v G c2 b2) (chain v G c3 b3) =
  times_x n (crc_bytes 0 l) ⊕ due (n + 256) c0 c1 c2 c3.
Proof.
  intros Hn [_ B0 B1 B2 B3 Hq] H0 H1 H2 H3. unfold due. rewrite !chain_ok, Hq, !lin_times by assumption.
  rewrite <- !times_add.
  replace (n - 64 + 256) with (n + 192) by lia. replace (n - 128 + 256) with (n + 128) by lia. replace (n - 192 + 256) with (n + 64) by lia.
  replace (n + 256 - 64) with (n + 192) by lia. replace (n + 256 - 128) with (n + 128) by lia. replace (n + 256 - 192) with (n + 64) by lia.
  xor_solve.
Qed.
Lemma due_end l b0 b1 b2 b3 c0 c1 c2 c3 : quad l b0 b1 b2 b3 -> word c0 -> word c1 -> word c2 -> word c3 ->
  let c := cu_word G v (cu_word G v (cu_word G v (cu_word G v c0 b0) (b1 ⊕ c1)) (b2 ⊕ c2)) (b3 ⊕ c3) in
  word c /\ c = crc_bytes 0 l ⊕ due 256 c0 c1 c2 c3.
Proof.
  intros [_ B0 B1 B2 B3 Hq] H0 H1 H2 H3. cbv zeta.
  assert (X : forall b c, b < 2 ^ 64 -> word c -> b ⊕ c < 2 ^ 64).
  { intros b c Hb Hc. apply lt_xor; [exact Hb|eapply lt_weaken; [exact Hc|lia]]. }
  assert (W : word (cu_word G v (cu_word G v (cu_word G v (cu_word G v c0 b0) (b1 ⊕ c1)) (b2 ⊕ c2)) (b3 ⊕ c3))).
  { repeat (apply cu_word_word; auto). }
  split; [exact W|].
  rewrite (cu_word_ok v _ (b3 ⊕ c3)), (cu_word_ok v _ (b2 ⊕ c2)), (cu_word_ok v _ (b1 ⊕ c1)), (cu_word_ok v c0 b0)
    by (auto using cu_word_word).
  rewrite Hq. unfold due. merge.
  change (256 - 64) with 192. change (256 - 128) with 128. change (256 - 192) with 64. xor_solve.
Qed.

Lemma main_loop_cu_ok n : forall fuel p l r c0 c1 c2 c3 b0 b1 b2 b3 stop, (length r <= n)%nat -> (32 <= zlen r)%Z ->
  (length r <= fuel)%nat -> quad l b0 b1 b2 b3 -> readable B m (p + 32) r -> aligned_if (in_cpp v) p ->
  word c0 -> word c1 -> word c2 -> word c3 -> stops 32 64 p (32 + zlen r) stop ->
  exists a b c, r = a ++ b /\ (zlen a mod 8 = 0)%Z /\ word c /\ main_loop_cu v strict G B fuel p stop (c0, c1, c2, c3) (b0, b1, b2, b3) m = Ok ((p + 32 + zlen a)%Z, c, m) /\
    c = crc_bytes 0 (l ++ a) ⊕ due (bits_of (l ++ a)) c0 c1 c2 c3.
Proof.
  induction n as [|n IH]; intros fuel p l r c0 c1 c2 c3 b0 b1 b2 b3 stop Hn Hr Hf Q R A H0 H1 H2 H3 S.
  { unfold zlen in Hr. lia. }
  destruct fuel as [|fuel]; [unfold zlen in Hr; lia|].
  pose proof (stops_S _ _ _ _ _ S) as S1. replace (32 + zlen r - 32)%Z with (zlen r) in S1 by lia.
  pose proof (stops_0 _ _ _ _ _ S1) as E.
  destruct (cut r 32) as (d & t & -> & Hd); [lia|]. rewrite zlen_app, Hd in *.
  apply readable_app in R. destruct R as [Rd Rt]. rewrite Hd in Rt.
  assert (A' : aligned_if (in_cpp v) (p + 32)) by (apply (aligned_8 _ p 4), A).
  destruct (load4_ok (p + 32) d Hd Rd A') as (d0 & d1 & d2 & d3 & EL & Qd).
  pose proof (q0 _ _ _ _ _ Q) as B0. pose proof (q1 _ _ _ _ _ Q) as B1. pose proof (q2 _ _ _ _ _ Q) as B2. pose proof (q3 _ _ _ _ _ Q) as B3.
  assert (K0 : word (chain v G c0 b0)) by (apply chain_word; assumption).
  assert (K1 : word (chain v G c1 b1)) by (apply chain_word; assumption).
  assert (K2 : word (chain v G c2 b2)) by (apply chain_word; assumption).
  assert (K3 : word (chain v G c3 b3)) by (apply chain_word; assumption).
  pose proof (q_len _ _ _ _ _ Q) as Ql.
  assert (Bl : bits_of l = 256) by (unfold bits_of; unfold zlen in Ql; lia).
  assert (Bd : bits_of d = 256) by (unfold bits_of; unfold zlen in Hd; lia).
  cbn [main_loop_cu]. erewrite bind_ok by exact EL. rewrite E. destruct (64 <=? 32 + zlen t)%Z eqn:F.
  - destruct (IH fuel (p + 32)%Z d t (chain v G c0 b0) (chain v G c1 b1) (chain v G c2 b2) (chain v G c3 b3) d0 d1 d2 d3 stop)
      as (a & b & c & -> & M8 & Wc & EQ & V); auto; try (rewrite app_length in Hn, Hf; unfold zlen in Hd; lia).
    exists (d ++ a), b, c. split; [apply app_assoc|]. split; [rewrite zlen_app; lia|]. split; [exact Wc|]. split.
    + rewrite EQ, zlen_app, Hd. rewrite !Z.add_assoc. reflexivity.
    + rewrite V, (due_step _ l) by (auto; rewrite bits_app, Bd; lia).
      rewrite (bits_app l), Bl. rewrite (crc_bytes_app _ l), (crc_bytes_from0 (crc_bytes 0 l) (d ++ a)).
      replace (256 + bits_of (d ++ a)) with (bits_of (d ++ a) + 256) by lia. xor_solve.
  - destruct (due_end d d0 d1 d2 d3 _ _ _ _ Qd K0 K1 K2 K3) as [Wc EV].
    eexists d, t, _. split; [reflexivity|]. split; [rewrite Hd; reflexivity|]. split; [exact Wc|]. split; [rewrite Hd; reflexivity|].
    rewrite EV, (due_step 256 l) by (auto; lia). rewrite bits_app, Bl, Bd.
    rewrite (crc_bytes_app _ l), (crc_bytes_from0 (crc_bytes 0 l) d), Bd. change (256 + 256) with 512. xor_solve.
Qed.

Lemma due_0 n c : due n c 0 0 0 = times_x n c.
Proof. unfold due. rewrite !times_zero, !xor_0_r. reflexivity. Qed.

(** From the interleaved loop on. *)
Definition rest (fuel : nat) (src e : Z) (crc0 : N) : M N :=
  '(src, crc0) <-
      (if (src <? main_stop v src e)%Z then b <- load4 v strict B src ;; main_loop_cu v strict G B fuel src (main_stop v src e) (crc0, 0, 0, 0) b
       else ret (src, crc0)) ;;
    '(src, crc0) <- word_loop v strict G B fuel src (word_stop v src e) crc0 ;;
    crc0 <- byte_loop G B fuel src e crc0 ;;
    ret (N.lxor crc0 (canonize (base G))).
Lemma rest_ok fuel p l c : readable B m p l -> (length l <= fuel)%nat -> aligned_if (in_cpp v) p -> word c ->
  rest fuel p (p + zlen l) c m = Ok (compl (crc_bytes c l), m).
Proof.
  intros R Hf A Hc. pose proof (zlen_nonneg l) as Hl.
  pose proof (main_stops p (zlen l) Hl) as S. pose proof (stops_0 _ _ _ _ _ S) as S0.
  assert (X : exists a b, l = a ++ b /\ word (crc_bytes c a) /\ (zlen a mod 8 = 0)%Z /\
    (if (p <? main_stop v p (p + zlen l))%Z
     then b <- load4 v strict B p ;; main_loop_cu v strict G B fuel p (main_stop v p (p + zlen l)) (c, 0, 0, 0) b
     else ret (p, c)) m = Ok ((p + zlen a)%Z, crc_bytes c a, m)).
  { rewrite S0. destruct (64 <=? zlen l)%Z eqn:E.
    - destruct (cut l 32) as (d & t & -> & Hd); [lia|]. rewrite zlen_app, Hd in *.
      apply readable_app in R. destruct R as [Rd Rt]. rewrite Hd in Rt.
      destruct (load4_ok p d Hd Rd A) as (d0 & d1 & d2 & d3 & EL & Qd).
      rewrite app_length in Hf.
      destruct (main_loop_cu_ok (length t) fuel p d t c 0 0 0 d0 d1 d2 d3 (main_stop v p (p + (32 + zlen t))))
        as (a & b & c' & -> & M8 & Wc & EQ & V); auto; try lia; try reflexivity.
      exists (d ++ a), b. split; [apply app_assoc|].
      assert (EC : crc_bytes c (d ++ a) = c').
      { rewrite V, due_0. apply crc_bytes_from0. }
      rewrite EC. split; [exact Wc|]. split; [rewrite zlen_app; lia|].
      erewrite bind_ok by exact EL. rewrite EQ, zlen_app, Hd. rewrite Z.add_assoc. reflexivity.
    - exists [], l. split; [reflexivity|]. split; [exact Hc|]. split; [reflexivity|].
      change (zlen (@nil byte)) with 0%Z. rewrite Z.add_0_r. reflexivity. }
  destruct X as (a & b & -> & Wa & M8 & EX). unfold rest. erewrite bind_ok by exact EX. clear EX S S0.
  apply readable_app in R. destruct R as [_ R]. rewrite app_length in Hf. rewrite zlen_app, Z.add_assoc.
  pose proof (zlen_nonneg b) as Hb. pose proof (word_stops (p + zlen a) (zlen b) Hb) as S.
  destruct (word_loop_ok (length b) fuel (p + zlen a)%Z b (crc_bytes c a) (word_stop v (p + zlen a) (p + zlen a + zlen b)))
    as (a' & b' & -> & EW & Ww); auto; try lia.
  { intro Hs. specialize (A Hs). lia. }
  erewrite bind_ok by exact EW. apply readable_app in R. destruct R as [_ R]. rewrite app_length in Hf.
  rewrite zlen_app, Z.add_assoc. erewrite bind_ok by (apply byte_loop_ok; [exact Ww|exact R|lia]).
  rewrite !crc_bytes_app. unfold ret. rewrite (good_canonize _ Hg). reflexivity.
Qed.

(** When no step is undefined by the C++ standard. *)
Definition kept (p n : Z) : Prop := strict = true ->
  match v with
  | CU_cpp => n = 0 \/ 63 <= n /\ (n <= 1024 -> p mod 8 = 0)
  | CU_amd64 => 8 <= n <= 47 -> p mod 8 = 0
  | CU_mmx => True
  | CU_intrin => 8 <= n <= 1024 -> p mod 8 = 0
  end%Z.

Lemma xor_mask c : c ⊕ mask32 = compl c. Proof. reflexivity. Qed.
Lemma multiword_ok p l init : readable B m p l -> kept p (zlen l) -> (v = CU_intrin -> 8 <= zlen l)%Z -> word init ->
  multiword v strict G B p (zlen l) init m = Ok (crc32_spec init l, m).
Proof.
  intros R K K8 Hi. pose proof (zlen_nonneg l) as Hl. unfold multiword. cbv zeta.
  rewrite (good_canonize _ Hg), xor_mask. pose proof (compl_word init Hi) as Hc.
  assert (X : exists a b, l = a ++ b /\ (b = [] \/ aligned_if (in_cpp v) (p + zlen a))%Z /\
    (if (1024 <? zlen l)%Z then align_loop G B (S (Z.to_nat (zlen l))) p (p + zlen l) (compl init) else ret (p, compl init)) m
    = Ok ((p + zlen a)%Z, crc_bytes (compl init) a, m)).
  { destruct (1024 <? zlen l)%Z eqn:E.
    - destruct (align_loop_ok l (S (Z.to_nat (zlen l))) p (compl init)) as (a & b & E1 & E2 & E3); auto; [unfold zlen; lia|].
      exists a, b. split; [exact E1|]. split; [|exact E2]. destruct E3; [left; assumption|right; intro; assumption].
    - exists [], l. change (zlen (@nil byte)) with 0%Z. rewrite Z.add_0_r. split; [reflexivity|]. split; [|reflexivity].
      destruct l as [|x l]; [left; reflexivity|right]. rewrite zlen_cons in *. pose proof (zlen_nonneg l).
      intro S. apply andb_prop in S. destruct S as [S I]. specialize (K S).
      destruct v; try discriminate; [lia|]. specialize (K8 eq_refl). lia. }
  destruct X as (a & b & -> & A & E). erewrite bind_ok by exact E. clear E.
  assert (Wa : word (crc_bytes (compl init) a)) by (apply crc_bytes_word, Hc).
  rewrite zlen_app in *. rewrite Z.add_assoc. destruct (p + zlen a + zlen b <=? p + zlen a)%Z eqn:E.
  - destruct b as [|x b]; [|rewrite zlen_cons in E; pose proof (zlen_nonneg b); lia].
    rewrite app_nil_r. reflexivity.
  - destruct A as [->|A]; [change (zlen (@nil byte)) with 0%Z in E; lia|].
    replace (strict && match v with CU_cpp => true | _ => false end && (p + zlen a + zlen b - 63 <? rlo B)%Z) with false.
    2: { destruct strict eqn:S; [|reflexivity]. specialize (K S). destruct v; try reflexivity.
         destruct R as [[R _] _]. pose proof (zlen_nonneg a). lia. }
    apply readable_app in R. destruct R as [_ R].
    pose proof (rest_ok (S (Z.to_nat (zlen a + zlen b))) (p + zlen a)%Z b (crc_bytes (compl init) a) R) as Q.
    unfold rest in Q. rewrite (good_canonize _ Hg) in Q. rewrite Q by (auto; unfold zlen; lia).
    unfold crc32_spec. rewrite crc_bytes_app. reflexivity.
Qed.

Lemma few_words_ok k : forall i bytes p l c, word c -> readable B m p l -> zlen l = (bytes - (i - 1) * 8)%Z ->
  (8 <= zlen l -> strict = true -> p mod 8 = 0)%Z ->
  exists a b, l = a ++ b /\ word (crc_bytes c a) /\ few_words strict G B k i bytes p c m = Ok ((p + zlen a)%Z, crc_bytes c a, m).
Proof.
  induction k as [|k IH]; intros i bytes p l c Hc R Hl A; cbn [few_words].
  - exists [], l. change (zlen (@nil byte)) with 0%Z. rewrite Z.add_0_r. split; [reflexivity|]. split; [exact Hc|reflexivity].
  - destruct (i * 8 <=? bytes)%Z eqn:E.
    + destruct (cut l 8) as (w & r & -> & Hw); [lia|]. rewrite zlen_app in Hl, A.
      apply readable_app in R. destruct R as [Rw Rr]. rewrite Hw in Rr.
      destruct (IH (i + 1)%Z bytes (p + 8)%Z r (crc_bytes c w)) as (a & b & -> & Wd & Q); auto.
      { apply crc_bytes_word, Hc. } { lia. } { intros L8 S. specialize (A ltac:(lia) S). lia. }
      exists (w ++ a), b. split; [apply app_assoc|]. rewrite crc_bytes_app. split; [exact Wd|].
      erewrite bind_ok by (apply load_word_ok; [exact Rw|apply len8, Hw|rewrite andb_true_r; apply A; pose proof (zlen_nonneg (a ++ b)); lia]).
      rewrite cu_word_bytes by (auto using len8). rewrite Q, zlen_app, Hw. rewrite Z.add_assoc. reflexivity.
    + exists [], l. change (zlen (@nil byte)) with 0%Z. rewrite Z.add_0_r. split; [reflexivity|]. split; [exact Hc|reflexivity].
Qed.

Lemma crc_multiword_ok p l init : readable B m p l -> kept p (zlen l) -> word init ->
  crc_multiword v strict G B p (zlen l) init m = Ok (crc32_spec init l, m).
Proof.
  intros R K Hi. pose proof (compl_word init Hi) as Hc. unfold crc_multiword. cbv zeta.
  assert (F : (length l <= S (Z.to_nat (zlen l)))%nat) by (unfold zlen; lia).
  assert (BL : byte_loop G B (S (Z.to_nat (zlen l))) p (p + zlen l) (compl init) m = Ok (crc_bytes (compl init) l, m))
    by (apply byte_loop_ok; assumption).
  pose proof (multiword_ok p l init R K) as MW. unfold kept in K.
  destruct v.
  - apply MW; [discriminate|exact Hi].
  - destruct (zlen l <=? 47)%Z eqn:E; [|apply MW; [discriminate|exact Hi]].
    rewrite (good_canonize _ Hg), xor_mask.
    destruct (few_words_ok 5 1 (zlen l) p l (compl init) Hc R) as (a & b & E1 & Wa & E2); [lia| |].
    { intros L8 S. apply (K S). lia. }
    erewrite bind_ok by exact E2. rewrite E1 in R, F |- *. apply readable_app in R. destruct R as [_ R].
    rewrite zlen_app, Z.add_assoc. rewrite app_length, zlen_app in F.
    erewrite bind_ok by (apply byte_loop_ok; [exact Wa|exact R|lia]). unfold crc32_spec. rewrite crc_bytes_app. reflexivity.
  - destruct (zlen l <=? 7)%Z eqn:E; [|apply MW; [discriminate|exact Hi]].
    rewrite (good_canonize _ Hg), xor_mask. erewrite bind_ok by exact BL. reflexivity.
  - destruct (zlen l <=? 7)%Z eqn:E; [|apply MW; [lia|exact Hi]].
    rewrite (good_canonize _ Hg), xor_mask. erewrite bind_ok by exact BL. reflexivity.
Qed.
End Loops.
End Good.

Lemma crcutil_ok v strict B m p l init : readable B m p l -> kept v strict p (zlen l) -> word init ->
  do_crc32_incremental_crcutil v strict B p (zlen l) init m = Ok (crc32_spec init l, m).
Proof.
  intros R K Hi. unfold do_crc32_incremental_crcutil. rewrite crcutil_made.
  erewrite bind_ok by (apply crc_multiword_ok; [exact the_good|exact R|exact K|exact Hi]).
  unfold ret. rewrite u32_id by (apply spec_word, Hi). reflexivity.
Qed.
Lemma crcutil_crc_ok v : crc_ok (do_crc32_incremental_crcutil v false).
Proof. intros B m src data init R Hi. apply crcutil_ok; [exact R|discriminate|exact Hi]. Qed.
