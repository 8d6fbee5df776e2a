(* Lemmas on the CPU detection model. *)
From Coq Require Import ZArith Bool List Lia.
From Verif Require Import IsaSpec IsaModel.
Import ListNotations.
Open Scope Z_scope.

Lemma all_bit x m n : all x m = true -> Z.testbit m n = true -> Z.testbit x n = true.
Proof.
  unfold all. intros H M. apply Z.eqb_eq in H.
  rewrite <- H, Z.land_spec in M. apply andb_prop in M. tauto.
Qed.

Lemma any_bit x n : 0 <= n -> any x (2 ^ n) = Z.testbit x n.
Proof.
  intros Hn. unfold any.
  destruct (Z.testbit x n) eqn:E.
  - apply negb_true_iff, Z.eqb_neq. intros Q.
    assert (H : Z.testbit (Z.land x (2 ^ n)) n = true).
    { rewrite Z.land_spec, E, Z.pow2_bits_true by lia. reflexivity. }
    rewrite Q, Z.bits_0 in H. discriminate.
  - apply negb_false_iff, Z.eqb_eq. apply Z.bits_inj'. intros k Hk.
    rewrite Z.land_spec, Z.bits_0, Z.pow2_bits_eqb by lia.
    destruct (Z.eqb_spec n k) as [->|]; [rewrite E|rewrite andb_false_r]; reflexivity.
Qed.

Lemma any_true x m n : any x m = true -> m = 2 ^ n -> 0 <= n -> Z.testbit x n = true.
Proof. intros H -> Hn. now rewrite <- any_bit. Qed.

Lemma low8_bit x n : 0 <= n < 8 -> Z.testbit (Z.land x 0xff) n = Z.testbit x n.
Proof.
  intros H. rewrite Z.land_spec. change 0xff with (Z.ones 8).
  rewrite Z.ones_spec_low by lia. apply andb_true_r.
Qed.

Lemma all_low8 x m : all (Z.land x 0xff) m = true -> forall n, 0 <= n < 8 ->
  Z.testbit m n = true -> Z.testbit x n = true.
Proof. intros H n Hn M. rewrite <- (low8_bit x n Hn). eapply all_bit; eauto. Qed.

(* The bits of a mask are all there is to [all]. *)
Lemma all_intro x m : 0 <= m -> (forall n, 0 <= n -> Z.testbit m n = true -> Z.testbit x n = true) ->
  all x m = true.
Proof.
  intros _ H. apply Z.eqb_eq, Z.bits_inj'. intros n Hn. rewrite Z.land_spec.
  destruct (Z.testbit m n) eqn:E; [rewrite (H n Hn E); reflexivity | apply andb_false_r].
Qed.

(* XGETBV is only executed where the OSXSAVE bit is part of the mask tested
   just before. *)
Lemma xcr_some c m : all (ecx (cpuid c 1 0)) m = true -> Z.testbit m 27 = true ->
  _GET_XCR c = Some (xcr0 c).
Proof.
  intros H M. unfold _GET_XCR. now rewrite (all_bit _ _ _ H M).
Qed.

(* The value returned, with the feature bits named. *)
Definition fbits (p l e : bool) : Z :=
  Z.lor (Z.lor (if p then 1 else 0) (if l then 2 else 0)) (if e then 4 else 0).

Inductive detected (c : cpu) : Z -> Prop :=
  | D_sse2 p l : detected c (Z.lor (fbits p l false) ISA_LEVEL_SSE2)
  | D_ssse3 p l : usable c SSSE3 -> detected c (Z.lor (fbits p l false) ISA_LEVEL_SSSE3)
  | D_sse41 p l : usable c SSSE3 -> detected c (Z.lor (fbits p l false) ISA_LEVEL_SSE41)
  | D_avx p l : usable c SSSE3 -> usable c SSE41 -> usable c AVX -> usable c POPCNT ->
      detected c (Z.lor (fbits p l false) ISA_LEVEL_AVX)
  | D_avx2 p l e lev :
      usable c SSSE3 -> usable c SSE41 -> usable c AVX -> usable c POPCNT ->
      (leaves_exist c -> usable c AVX2 /\ usable c BMI1 /\ usable c BMI2 /\ usable c LZCNT) ->
      lev = ISA_LEVEL_AVX2 \/ lev = ISA_LEVEL_AVX3 ->
      detected c (Z.lor (fbits p l e) lev)
  | D_vbmi2 p l e :
      usable c SSSE3 -> usable c SSE41 -> usable c AVX -> usable c POPCNT ->
      (leaves_exist c -> usable c AVX2 /\ usable c BMI1 /\ usable c BMI2 /\ usable c LZCNT /\
        usable c AVX512F /\ usable c AVX512BW /\ usable c AVX512VL /\ usable c AVX512VBMI2 /\
        usable c EVEX256 /\ (e = true -> usable c EVEX512)) ->
      detected c (Z.lor (fbits p l e) ISA_LEVEL_VBMI2).

Lemma ret_fbits (x y : Z) :
  (if any y 0x20
   then Z.lor (if any x 0x800000 then Z.lor 0 ISA_FEATURE_POPCNT else 0)
              (Z.lor ISA_FEATURE_LZCNT ISA_FEATURE_POPCNT)
   else if any x 0x800000 then Z.lor 0 ISA_FEATURE_POPCNT else 0)
  = fbits (any x 0x800000 || any y 0x20) (any y 0x20) false.
Proof. destruct (any x 0x800000), (any y 0x20); reflexivity. Qed.

Lemma fbits_lz p l : any (fbits p l false) ISA_FEATURE_LZCNT = l.
Proof. destruct p, l; reflexivity. Qed.
Lemma fbits_evex p l : Z.lor (fbits p l false) ISA_FEATURE_EVEX512 = fbits p l true.
Proof. destruct p, l; reflexivity. Qed.

Ltac usables := repeat match goal with |- usable _ _ /\ _ => apply conj end.
Ltac foralls :=
  repeat match goal with |- Forall _ (_ :: _) => apply Forall_cons; [assumption|] end;
  apply Forall_nil.
Ltac bit H := solve
  [ eapply all_bit; [exact H | reflexivity]
  | eapply any_true; [exact H | reflexivity | lia] ].

Lemma isa_detected c : exists r, cpu_supports_isa c = Some r /\ detected c r.
Proof.
  unfold cpu_supports_isa. cbv zeta. rewrite ret_fbits, fbits_lz, fbits_evex.
  set (p := _ || _). set (l := any (ecx (cpuid c 0x80000001 0)) 0x20).
  destruct (_ && oneof _ [0x1C; _; _; _; _; _; _; _; _; _; _]);
    [eexists; split; [reflexivity|constructor]|].
  destruct (_ && oneof _ [0; 1; 2]); [eexists; split; [reflexivity|constructor]|].
  destruct (all (ecx (cpuid c 1 0)) 0x200) eqn:E1; [|eexists; split; [reflexivity|constructor]].
  assert (U1 : usable c SSSE3) by (bit E1).
  destruct (_ && oneof _ [0x5c; 0x5f; 0x7a; 0x9c]);
    [eexists; split; [reflexivity|now constructor]|].
  destruct (any (ecx (cpuid c 1 0)) 0x80000) eqn:E2;
    [|eexists; split; [reflexivity|now constructor]].
  assert (U2 : usable c SSE41).
  { bit E2. }
  destruct (all (ecx (cpuid c 1 0)) 0x1C800000) eqn:E3;
    [|eexists; split; [reflexivity|now constructor]].
  rewrite (xcr_some c _ E3 eq_refl).
  destruct (all (Z.land (xcr0 c) 255) 6) eqn:E4;
    [|eexists; split; [reflexivity|now constructor]].
  assert (Y : ymm_enabled c).
  { repeat split; [bit E3|bit E3| |]; (eapply all_low8; [exact E4|lia|reflexivity]). }
  assert (U3 : usable c AVX) by (split; [bit E3|exact Y]).
  assert (U4 : usable c POPCNT) by (bit E3).
  destruct (all (ebx (cpuid c 7 0)) 0x128) eqn:E5;
    [|eexists; split; [reflexivity|now constructor]].
  destruct l eqn:El; [|eexists; split; [reflexivity|now constructor]].
  cbn [andb].
  assert (U5 : leaves_exist c -> usable c AVX2 /\ usable c BMI1 /\ usable c BMI2 /\ usable c LZCNT).
  { intros (L1 & L2 & _). repeat apply conj; try exact Y; try assumption; try (bit E5).
    all: try apply Y. unfold l in El. bit El. }
  clear El l.
  destruct (all (Z.land (xcr0 c) 255) 0xE0) eqn:E6.
  2: { eexists; split; [reflexivity|]. apply D_avx2; auto. }
  assert (ZM : zmm_enabled c).
  { split; [exact Y|]. repeat split; (eapply all_low8; [exact E6|lia|reflexivity]). }
  assert (A : exists r,
    (if all (ebx (cpuid c 7 0)) 0xC0010000
     then if any (ecx (cpuid c 7 0)) 0x40
          then Some (Z.lor (fbits p true true) ISA_LEVEL_VBMI2)
          else Some (Z.lor (fbits p true true) ISA_LEVEL_AVX3)
     else Some (Z.lor (fbits p true false) ISA_LEVEL_AVX2)) = Some r /\ detected c r).
  { destruct (all (ebx (cpuid c 7 0)) 0xC0010000) eqn:E7.
    2: { eexists; split; [reflexivity|]. apply D_avx2; auto. }
    destruct (any (ecx (cpuid c 7 0)) 0x40) eqn:E8.
    2: { eexists; split; [reflexivity|]. apply D_avx2; auto. }
    eexists; split; [reflexivity|]. apply D_vbmi2; auto.
    intros L. destruct (U5 L) as (H1 & H2 & H3 & H4).
    assert (B16 : leaf7_ebx c 16) by (split; [apply L|bit E7]).
    assert (B30 : leaf7_ebx c 30) by (split; [apply L|bit E7]).
    assert (B31 : leaf7_ebx c 31) by (split; [apply L|bit E7]).
    assert (B6 : leaf7_ecx c 6) by (split; [apply L|bit E8]).
    usables; try assumption; unfold usable; auto. }
  destruct (any (edx (cpuid c 7 1)) 0x80000) eqn:E7; [|exact A].
  destruct (1 <=? Z.land (ebx (cpuid c 36 0)) 255) eqn:E8; [|exact A].
  destruct (any (ebx (cpuid c 36 0)) 0x20000) eqn:E9; [|exact A].
  cbn [andb]. clear A.
  assert (V : leaves_exist c -> avx10_1 c).
  { intros (L1 & L2 & L3).
    assert (B : Z.testbit (edx (cpuid c 7 1)) 19 = true) by (bit E7).
    split; [exact (L3 B)|split; [exact B|]].
    change 255 with (Z.ones 8) in E8. rewrite Z.land_ones in E8 by lia.
    apply Z.leb_le in E8. exact E8. }
  assert (B17 : Z.testbit (ebx (cpuid c 36 0)) 17 = true) by (bit E9).
  assert (W : forall e, (e = true -> Z.testbit (ebx (cpuid c 36 0)) 18 = true) ->
    detected c (Z.lor (fbits p true e) ISA_LEVEL_VBMI2)).
  { intros e He. apply D_vbmi2; auto.
    intros L. destruct (U5 L) as (H1 & H2 & H3 & H4). pose proof (V L) as A.
    usables; try assumption; unfold usable; auto. }
  destruct (any (ebx (cpuid c 36 0)) 0x40000) eqn:E10.
  - eexists; split; [reflexivity|]. apply W. intros _. bit E10.
  - eexists; split; [reflexivity|]. apply W. discriminate.
Qed.

Lemma sse2_ok b c : usable c SSE2 -> Forall (usable c) (needs b (sse2_init b)).
Proof. intros S. unfold sse2_init. destruct (c_sse2 b); cbn [needs]; auto. Qed.
Lemma ssse3_ok b c : usable c SSE2 -> usable c SSSE3 -> Forall (usable c) (needs b (ssse3_init b)).
Proof.
  intros S T. unfold ssse3_init. destruct (c_ssse3 b); [cbn [needs]; auto|apply sse2_ok; auto].
Qed.
Lemma avx_ok b c : usable c SSE2 -> usable c SSSE3 -> usable c SSE41 -> usable c AVX -> usable c POPCNT ->
  Forall (usable c) (needs b (avx_init b)).
Proof.
  intros. unfold avx_init. destruct (c_avx b); [cbn [needs]; foralls
    |apply ssse3_ok; auto].
Qed.
Lemma avx2_ok b c : usable c SSE2 -> usable c SSSE3 -> usable c SSE41 -> usable c AVX -> usable c POPCNT ->
  usable c AVX2 /\ usable c BMI1 /\ usable c BMI2 /\ usable c LZCNT ->
  Forall (usable c) (needs b (avx2_init b)).
Proof.
  intros ? ? ? ? ? (? & ? & ? & ?). unfold avx2_init. destruct (c_avx2 b).
  - cbn [needs]; foralls.
  - apply avx_ok; auto.
Qed.

Lemma codec_ok b c i : leaves_exist c -> usable c SSE2 ->
  codec_init b c = Some i -> Forall (usable c) (needs b i).
Proof.
  intros L S. unfold codec_init. destruct (isa_detected c) as (r & -> & D).
  intros H. injection H as H. subst i. destruct D.
  - destruct p, l; apply sse2_ok; auto.
  - destruct p, l; apply ssse3_ok; auto.
  - destruct p, l; apply ssse3_ok; auto.
  - destruct p, l; apply avx_ok; auto.
  - destruct H4 as [->| ->]; destruct p, l, e; apply avx2_ok; auto.
  - destruct (H3 L) as (A & B & C & D & E & F & G & I & J & K).
    assert (N : has_avx10 b = true \/ e = true -> Forall (usable c) (needs b (vbmi2_init b))).
    { intros HE. unfold vbmi2_init. destruct (c_vbmi2 b); [|apply avx2_ok; auto].
      cbn [needs]. apply Forall_app. split;
        [foralls|].
      destruct (has_avx10 b); [constructor|]. destruct HE as [|HE]; [discriminate|].
      repeat (apply Forall_cons; [apply K; assumption|]); apply Forall_nil. }
    assert (M : Forall (usable c) (needs b (avx2_init b))) by (apply avx2_ok; auto).
    destruct (has_avx10 b) eqn:T; destruct p, l, e; cbn;
      first [apply N; auto | exact M].
Qed.

Lemma crc_init_cases c : exists r, cpu_supports_crc_isa c = Some r /\
  (r = 0 \/
   (r = 1 /\ usable c SSSE3 /\ usable c SSE41 /\ usable c PCLMUL) \/
   (r = 2 /\ usable c SSSE3 /\ usable c SSE41 /\ usable c PCLMUL /\ usable c AVX /\
    (basic_leaf c 7 -> usable c AVX2 /\ usable c VPCLMUL))).
Proof.
  unfold cpu_supports_crc_isa. cbv zeta.
  destruct (all (ecx (cpuid c 1 0)) 0x80202) eqn:E1; [|eexists; split; [reflexivity|tauto]].
  assert (U1 : usable c SSSE3) by (bit E1).
  assert (U2 : usable c SSE41) by (bit E1).
  assert (U3 : usable c PCLMUL) by (bit E1).
  destruct (all (ecx (cpuid c 1 0)) 0x1C000000) eqn:E2; [|eexists; split; [reflexivity|tauto]].
  rewrite (xcr_some c _ E2 eq_refl).
  destruct (all (Z.land (xcr0 c) 255) 6) eqn:E3; [|eexists; split; [reflexivity|tauto]].
  assert (Y : ymm_enabled c).
  { repeat split; [bit E2|bit E2| |]; (eapply all_low8; [exact E3|lia|reflexivity]). }
  destruct (all (ebx (cpuid c 7 0)) 0x20) eqn:E4; [|eexists; split; [reflexivity|tauto]].
  destruct (all (ecx (cpuid c 7 0)) 0x400) eqn:E5; [|eexists; split; [reflexivity|tauto]].
  eexists; split; [reflexivity|]. right; right.
  repeat match goal with |- _ = _ /\ _ => split | |- usable _ _ /\ _ => split end; auto;
    [split; [bit E2|exact Y]|].
  intros L. split; (split; [|exact Y]); (split; [exact L|]); [bit E4|bit E5].
Qed.

Lemma crc_init_ok b c i : basic_leaf c 7 -> usable c SSE2 ->
  crc_init b c = Some i -> Forall (usable c) (crc_needs i).
Proof.
  intros L S. unfold crc_init. destruct (crc_init_cases c) as (r & -> & D).
  intros H. injection H as H. subst i.
  assert (K : usable c SSSE3 -> usable c SSE41 -> usable c PCLMUL ->
     Forall (usable c) (crc_needs (clmul_init b))).
  { intros. unfold clmul_init. destruct (c_clmul b); cbn [crc_needs]; auto. }
  destruct D as [->|[(-> & ? & ? & ?)|(-> & ? & ? & ? & ? & HL)]]; cbn [Z.eqb].
  - constructor.
  - apply K; auto.
  - destruct (HL L) as (? & ?). cbn. unfold clmul256_init. destruct (c_clmul256 b); [|apply K; auto].
    cbn [crc_needs]. foralls.
Qed.

(* Which level is detected, given the features present. *)
Lemma any_intro x m n : Z.testbit x n = true -> m = 2 ^ n -> 0 <= n -> any x m = true.
Proof. intros H -> Hn. now rewrite any_bit. Qed.

Lemma all_zero x : all x 0 = true.
Proof. unfold all. now rewrite Z.land_0_r. Qed.
Lemma all_or x a b : all x a = true -> all x b = true -> all x (Z.lor a b) = true.
Proof.
  unfold all. rewrite Z.land_lor_distr_r. intros A B.
  apply Z.eqb_eq in A. apply Z.eqb_eq in B. rewrite A, B. apply Z.eqb_refl.
Qed.
Lemma all_one x n : 0 <= n -> Z.testbit x n = true -> all x (2 ^ n) = true.
Proof.
  intros Hn H. apply all_intro; [lia|]. intros k Hk M.
  rewrite Z.pow2_bits_eqb in M by lia. apply Z.eqb_eq in M. now subst k.
Qed.
Fixpoint bitmask (l : list Z) : Z :=
  match l with [] => 0 | n :: r => Z.lor (2 ^ n) (bitmask r) end.
Lemma all_bits x l : Forall (fun n => 0 <= n /\ Z.testbit x n = true) l -> all x (bitmask l) = true.
Proof.
  induction l as [|n r IH]; intros H; [apply all_zero|].
  inversion H; subst. cbn [bitmask]. apply all_or; [apply all_one; tauto|auto].
Qed.

Lemma all_bits' x m l : m = bitmask l -> Forall (fun n => 0 <= n /\ Z.testbit x n = true) l ->
  all x m = true.
Proof. intros ->. apply all_bits. Qed.

Lemma field_shift a s k : 0 <= s -> 0 <= k -> Z.land (Z.shiftr a s) (Z.ones k) = (a / 2 ^ s) mod 2 ^ k.
Proof. intros. rewrite Z.land_ones, Z.shiftr_div_pow2 by lia. reflexivity. Qed.
Lemma field_high a s k : 4 <= s -> 0 <= k ->
  Z.land (Z.shiftr a (s - 4)) (Z.shiftl (Z.ones k) 4) = 16 * ((a / 2 ^ s) mod 2 ^ k).
Proof.
  intros. change 16 with (2 ^ 4). rewrite (Z.mul_comm (2 ^ 4)), <- Z.shiftl_mul_pow2 by lia.
  rewrite <- field_shift by lia. rewrite Z.shiftl_land. 
  apply Z.bits_inj'. intros n Hn. rewrite !Z.land_spec.
  destruct (Z.ltb_spec n 4).
  - rewrite (Z.shiftl_spec_low _ _ n) by lia. now rewrite !andb_false_r.
  - f_equal. rewrite Z.shiftl_spec by lia. rewrite !Z.shiftr_spec by lia. f_equal. lia.
Qed.

Lemma family_eq c : cpu_family (eax (cpuid c 1 0)) = sig_family c + 16 * sig_extfamily c.
Proof.
  unfold cpu_family, sig_family, sig_extfamily. f_equal.
  - change 0xf with (Z.ones 4). change 16 with (2 ^ 4). apply field_shift; lia.
  - change 256 with (2 ^ 8). change 0xff0 with (Z.shiftl (Z.ones 8) 4).
    apply (field_high _ 20 8); lia.
Qed.
Lemma model_eq c : cpu_model (eax (cpuid c 1 0)) = sig_model c.
Proof.
  unfold cpu_model, sig_model. rewrite Z.add_comm. f_equal.
  - change 0xf0 with (Z.shiftl (Z.ones 4) 4). change (Z.shiftr ?a 12) with (Z.shiftr a (16 - 4)).
    apply (field_high _ 16 4); lia.
  - change 0xf with (Z.ones 4). change 16 with (2 ^ 4). apply field_shift; lia.
Qed.
Lemma family_is c f e : 0 <= f < 16 -> 0 <= e < 256 ->
  cpu_family (eax (cpuid c 1 0)) = f + 16 * e -> sig_family c = f /\ sig_extfamily c = e.
Proof.
  intros Hf He. rewrite family_eq.
  pose proof (Z.mod_pos_bound (eax (cpuid c 1 0) / 2 ^ 8) 16 eq_refl).
  pose proof (Z.mod_pos_bound (eax (cpuid c 1 0) / 2 ^ 20) 256 eq_refl).
  unfold sig_family, sig_extfamily in *. lia.
Qed.
Lemma oneof_In x l : oneof x l = true -> In x l.
Proof. unfold oneof. rewrite existsb_exists. intros (y & H & E). apply Z.eqb_eq in E. now subst. Qed.

Lemma not_slow c : ~ slow_pshufb c ->
  (cpu_family (eax (cpuid c 1 0)) =? 6) && oneof (cpu_model (eax (cpuid c 1 0)))
     [0x1C; 0x26; 0x27; 0x35; 0x36; 0x37; 0x4A; 0x4C; 0x4D; 0x5A; 0x5D] = false /\
  (cpu_family (eax (cpuid c 1 0)) =? 0x5f) && oneof (cpu_model (eax (cpuid c 1 0))) [0; 1; 2] = false.
Proof.
  intros N. rewrite model_eq. split; apply not_true_is_false; intros H; apply N; clear N;
    apply andb_prop in H; destruct H as (F & M); apply Z.eqb_eq in F; apply oneof_In in M.
  - left. destruct (family_is c 6 0) as (A & B); try lia; auto.
  - right. destruct (family_is c 15 5) as (A & B); try lia; auto.
Qed.
Lemma not_slow2 c : ~ slow_pblendvb c ->
  (cpu_family (eax (cpuid c 1 0)) =? 6) && oneof (cpu_model (eax (cpuid c 1 0)))
     [0x5c; 0x5f; 0x7a; 0x9c] = false.
Proof.
  intros N. rewrite model_eq. apply not_true_is_false; intros H; apply N; clear N.
  apply andb_prop in H; destruct H as (F & M); apply Z.eqb_eq in F; apply oneof_In in M.
  destruct (family_is c 6 0) as (A & B); try lia. repeat split; auto.
Qed.

Lemma slow_is c : slow_pshufb c -> exists p l, cpu_supports_isa c = Some (Z.lor (fbits p l false) ISA_LEVEL_SSE2).
Proof.
  intros H. unfold cpu_supports_isa. cbv zeta. rewrite ret_fbits.
  rewrite family_eq, model_eq.
  assert (I : forall x l, In x l -> oneof x l = true).
  { intros x l Hx. unfold oneof. rewrite existsb_exists. exists x. split; [exact Hx|apply Z.eqb_refl]. }
  destruct H as [(F & E & M)|(F & E & M)]; rewrite F, E; apply I in M.
  - rewrite M. cbn. eauto.
  - cbn [Z.eqb]. change (15 + 16 * 5 =? 6) with false. change (15 + 16 * 5 =? 95) with true.
    rewrite M. cbn [andb]. eauto.
Qed.

(* On a CPU that is not on the lists the conditions are those of the features. *)
Section Best.
Context (c : cpu) (NS : ~ slow_pshufb c).

Lemma best_ssse3 : usable c SSSE3 -> exists r, cpu_supports_isa c = Some r /\ ISA_LEVEL_SSSE3 <= r.
Proof.
  intros S. destruct (isa_detected c) as (r & E & D). exists r. split; [exact E|].
  revert E. unfold cpu_supports_isa. cbv zeta. destruct (not_slow c NS) as (-> & ->).
  rewrite (all_bits' (ecx (cpuid c 1 0)) 0x200 [9]) by
    (reflexivity || (constructor; [split; [lia|exact S]|constructor])).
  intros E. destruct D as [p l|p l|p l|p l|p l e lev ? ? ? ? ? HL|p l e]; try (destruct p, l; vm_compute; discriminate).
  - exfalso. rewrite ret_fbits, fbits_lz in E.
    set (q := _ || _) in E. set (k := any (ecx (cpuid c 0x80000001 0)) 0x20) in E.
    repeat match type of E with
    | context [if ?b then _ else _] => destruct b
    | context [match ?b with Some _ => _ | None => _ end] => destruct b
    end; (discriminate E || (injection E as E; destruct p, l, q, k; discriminate E)).
  - destruct HL as [->| ->]; destruct p, l, e; vm_compute; discriminate.
  - destruct p, l, e; vm_compute; discriminate.
Qed.

Context (NP : ~ slow_pblendvb c).

Lemma best_front : usable c SSSE3 -> usable c SSE41 -> usable c AVX -> usable c POPCNT ->
  cpu_supports_isa c =
  let l := any (ecx (cpuid c 0x80000001 0)) 0x20 in
  let cpuInfo := cpuid c 7 0 in
  if all (ebx cpuInfo) 0x128 && l then
    let avx512 :=
      if all (ebx cpuInfo) 0xC0010000 then
        if any (ecx cpuInfo) 0x40
        then Some (Z.lor (fbits true l true) ISA_LEVEL_VBMI2)
        else Some (Z.lor (fbits true l true) ISA_LEVEL_AVX3)
      else Some (Z.lor (fbits true l false) ISA_LEVEL_AVX2) in
    if all (Z.land (xcr0 c) 0xff) 0xE0 then
      if any (edx (cpuid c 7 1)) 0x80000 then
        let b := ebx (cpuid c 0x24 0) in
        if (1 <=? Z.land b 0xff) && any b 0x20000 then
          if any b 0x40000 then Some (Z.lor (fbits true l true) ISA_LEVEL_VBMI2)
          else Some (Z.lor (fbits true l false) ISA_LEVEL_VBMI2)
        else avx512
      else avx512
    else Some (Z.lor (fbits true l false) ISA_LEVEL_AVX2)
  else Some (Z.lor (fbits true l false) ISA_LEVEL_AVX).
Proof.
  intros S1 S2 (S3 & (Q1 & Q2) & Q3 & Q4) S4. unfold cpu_supports_isa. cbv zeta.
  destruct (not_slow c NS) as (-> & ->). rewrite (not_slow2 c NP).
  rewrite (all_bits' (ecx (cpuid c 1 0)) 0x200 [9]) by
    (reflexivity || (constructor; [split; [lia|exact S1]|constructor])).
  rewrite (any_intro (ecx (cpuid c 1 0)) 0x80000 19) by (reflexivity || lia || assumption).
  assert (A : all (ecx (cpuid c 1 0)) 0x1C800000 = true).
  { apply (all_bits' _ _ [23; 26; 27; 28]); [reflexivity|].
    repeat constructor; (lia || assumption). }
  rewrite A. unfold _GET_XCR. rewrite Q2.
  assert (B : all (Z.land (xcr0 c) 0xff) 6 = true).
  { apply (all_bits' _ _ [1; 2]); [reflexivity|]. 
    repeat constructor; try lia; now rewrite low8_bit by lia. }
  rewrite B, ret_fbits, fbits_lz, fbits_evex.
  rewrite (any_intro (ecx (cpuid c 1 0)) 0x800000 23) by (reflexivity || lia || assumption). cbn [orb].
  destruct (any (ebx (cpuid c 36 0)) 0x40000); reflexivity.
Qed.
End Best.

(* The position of an implementation in the list. *)
Definition rank (i : impl) : nat :=
  match i with I_generic => 0 | I_sse2 => 1 | I_ssse3 => 2 | I_avx => 3 | I_avx2 => 4 | I_vbmi2 => 5 end.

Lemma ranks b :
  (c_sse2 b = true -> 1 <= rank (sse2_init b))%nat /\
  (c_ssse3 b = true -> 2 <= rank (ssse3_init b) /\ 2 <= rank (avx_init b) /\
     2 <= rank (avx2_init b) /\ 2 <= rank (vbmi2_init b))%nat /\
  (c_avx b = true -> 3 <= rank (avx_init b) /\ 3 <= rank (avx2_init b) /\ 3 <= rank (vbmi2_init b))%nat /\
  (c_avx2 b = true -> 4 <= rank (avx2_init b) /\ 4 <= rank (vbmi2_init b))%nat.
Proof.
  unfold vbmi2_init, avx2_init, avx_init, ssse3_init, sse2_init.
  destruct (c_sse2 b), (c_ssse3 b), (c_avx b), (c_avx2 b), (c_vbmi2 b); cbn; lia.
Qed.

Lemma level_rank b c r : cpu_supports_isa c = Some r -> exists i, codec_init b c = Some i /\
  (c_ssse3 b = true -> ISA_LEVEL_SSSE3 <= r -> (2 <= rank i)%nat) /\
  (c_avx b = true -> ISA_LEVEL_AVX <= r -> (3 <= rank i)%nat) /\
  (c_avx2 b = true -> ISA_LEVEL_AVX2 <= r -> (4 <= rank i)%nat).
Proof.
  intros E. unfold codec_init. rewrite E. eexists. split; [reflexivity|].
  destruct (ranks b) as (_ & H2 & H3 & H4).
  pose proof (Z.leb_spec ISA_LEVEL_AVX2 r) as R2. pose proof (Z.leb_spec ISA_LEVEL_AVX r) as R1.
  pose proof (Z.leb_spec ISA_LEVEL_SSSE3 r) as R0.
  unfold ISA_LEVEL_AVX2, ISA_LEVEL_AVX, ISA_LEVEL_SSSE3 in *.
  destruct (_ && _ : bool); [repeat apply conj; intros; tauto|].
  destruct (1027 <=? r); inversion R2; [repeat apply conj; intros; tauto|].
  destruct (897 <=? r); inversion R1; [repeat apply conj; intros; tauto || lia|].
  destruct (512 <=? r); inversion R0; [repeat apply conj; intros; tauto || lia|].
  repeat apply conj; intros; lia.
Qed.

Lemma best_avx c : ~ slow_pshufb c -> ~ slow_pblendvb c ->
  usable c SSSE3 -> usable c SSE41 -> usable c AVX -> usable c POPCNT ->
  exists r, cpu_supports_isa c = Some r /\ ISA_LEVEL_AVX <= r.
Proof.
  intros N1 N2 S1 S2 S3 S4. rewrite (best_front c N1 N2 S1 S2 S3 S4). cbv zeta.
  destruct (any (ecx (cpuid c 0x80000001 0)) 0x20);
  repeat match goal with
    | |- context [if ?b then _ else _] => destruct b
    end; eexists; (split; [reflexivity|vm_compute; discriminate]).
Qed.

Lemma best_avx2 c : ~ slow_pshufb c -> ~ slow_pblendvb c ->
  usable c SSSE3 -> usable c SSE41 -> usable c AVX -> usable c POPCNT ->
  usable c AVX2 -> usable c BMI1 -> usable c BMI2 -> usable c LZCNT ->
  exists r, cpu_supports_isa c = Some r /\ ISA_LEVEL_AVX2 <= r.
Proof.
  intros N1 N2 S1 S2 S3 S4 ((_ & B5) & _) (_ & B3) (_ & B8) (_ & BL).
  rewrite (best_front c N1 N2 S1 S2 S3 S4). cbv zeta.
  rewrite (any_intro _ 0x20 5 BL) by (reflexivity || lia).
  rewrite (all_bits' (ebx (cpuid c 7 0)) 0x128 [3; 5; 8]) by
    (reflexivity || (repeat constructor; (lia || assumption))).
  cbn [andb].
  repeat match goal with
    | |- context [if ?b then _ else _] => destruct b
    end; eexists; (split; [reflexivity|vm_compute; discriminate]).
Qed.

Lemma best_vbmi2 b c : ~ slow_pshufb c -> ~ slow_pblendvb c -> c_vbmi2 b = true ->
  usable c SSSE3 -> usable c SSE41 -> usable c AVX -> usable c POPCNT ->
  usable c AVX2 -> usable c BMI1 -> usable c BMI2 -> usable c LZCNT -> zmm_enabled c ->
  (Z.testbit (edx (cpuid c 7 1)) 19 = false /\ leaf7_ebx c 16 /\ leaf7_ebx c 30 /\
   leaf7_ebx c 31 /\ leaf7_ecx c 6 \/
   avx10_1 c /\ Z.testbit (ebx (cpuid c 0x24 0)) 17 = true /\
   (has_avx10 b = true \/ Z.testbit (ebx (cpuid c 0x24 0)) 18 = true)) ->
  codec_init b c = Some I_vbmi2.
Proof.
  intros N1 N2 CB S1 S2 S3 S4 ((_ & B5) & _) (_ & B3) (_ & B8) (_ & BL) (_ & X5 & X6 & X7) K.
  unfold codec_init. rewrite (best_front c N1 N2 S1 S2 S3 S4). cbv zeta.
  rewrite (any_intro _ 0x20 5 BL) by (reflexivity || lia).
  rewrite (all_bits' (ebx (cpuid c 7 0)) 0x128 [3; 5; 8]) by
    (reflexivity || (repeat constructor; (lia || assumption))).
  assert (B : all (Z.land (xcr0 c) 0xff) 0xE0 = true).
  { apply (all_bits' _ _ [5; 6; 7]); [reflexivity|].
    repeat constructor; try lia; now rewrite low8_bit by lia. }
  rewrite B. cbn [andb].
  destruct K as [(K0 & (_ & K1) & (_ & K2) & (_ & K3) & (_ & K4))|((_ & K0 & K1) & K2 & K3)].
  - change 0x80000 with (2 ^ 19). rewrite any_bit, K0 by lia.
    rewrite (all_bits' (ebx (cpuid c 7 0)) 0xC0010000 [16; 30; 31]) by
      (reflexivity || (repeat constructor; (lia || assumption))).
    rewrite (any_intro _ 0x40 6 K4) by (reflexivity || lia).
    unfold vbmi2_init. rewrite CB, orb_true_r. reflexivity.
  - rewrite (any_intro _ 0x80000 19 K0) by (reflexivity || lia).
    change 0xff with (Z.ones 8). rewrite Z.land_ones by lia.
    apply Z.leb_le in K1. change (2 ^ 8) with 256. rewrite K1.
    rewrite (any_intro _ 0x20000 17 K2) by (reflexivity || lia). cbn [andb].
    destruct K3 as [K3|K3].
    + rewrite K3. unfold vbmi2_init. rewrite CB.
      destruct (any (ebx (cpuid c 36 0)) 0x40000); reflexivity.
    + rewrite (any_intro _ 0x40000 18 K3) by (reflexivity || lia).
      unfold vbmi2_init. rewrite CB, orb_true_r. reflexivity.
Qed.

Lemma rank_in i :
  ((2 <= rank i)%nat -> In i [I_ssse3; I_avx; I_avx2; I_vbmi2]) /\
  ((3 <= rank i)%nat -> In i [I_avx; I_avx2; I_vbmi2]) /\
  ((4 <= rank i)%nat -> In i [I_avx2; I_vbmi2]).
Proof. destruct i; cbn; repeat split; intros; try lia; tauto. Qed.

Ltac pick H := rewrite Forall_forall in H; apply H; cbn; tauto.
