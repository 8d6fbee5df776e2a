(** Proofs about the PCLMULQDQ model: folding keeps the polynomial the four
    accumulators stand for. *)
From Verif Require Import Base BaseLemmas CrcSpec CrcLin CrcModel CrcAlg CrcProofs CrcMul ClmulModel.
From Coq Require Import NArith Lia ZifyN ZifyBool ZifyNat.
Open Scope N_scope.

Ltac conjs := repeat match goal with |- _ /\ _ => split end.

(** ** Little-endian numbers *)
Fixpoint le (l : list byte) : N :=
  match l with [] => 0 | b :: r => Byte.to_N b ⊕ N.shiftl (le r) 8 end.

Lemma le_bound l : le l < 2 ^ bits_of l.
Proof.
  induction l as [|b l IH]; [reflexivity|]. cbn [le]. unfold bits_of in *. cbn [length].
  apply lt_xor.
  - eapply lt_weaken; [apply byte_lt|lia].
  - apply (lt_shiftl _ 8) in IH. eapply lt_weaken; [exact IH|lia].
Qed.

Lemma crc_bytes_le l : forall c, crc_bytes c l = times_x (bits_of l) (c ⊕ le l).
Proof.
  induction l as [|b l IH]; intro c.
  - cbn [le]. rewrite xor_0_r. reflexivity.
  - change (crc_bytes c (b :: l)) with (crc_bytes (crc_byte c b) l). rewrite IH. cbn [le].
    unfold crc_byte. rewrite <- (times_shiftl 8 (le l)) at 1. rewrite <- lin_times.
    rewrite <- times_add. unfold bits_of. cbn [length].
    replace (8 * N.of_nat (S (length l))) with (8 * N.of_nat (length l) + 8) by lia.
    f_equal. xor_solve.
Qed.

Lemma le_at_ok B m l : forall p, readable B m p l -> le_at m p (length l) = le l.
Proof.
  induction l as [|b l IH]; intros p H; [reflexivity|]. cbn [le_at length le].
  apply readable_cons in H. destruct H as [[_ E] H]. rewrite (IH _ H), E. reflexivity.
Qed.
Lemma le_at_bound m n : forall p, le_at m p n < 2 ^ (8 * N.of_nat n).
Proof.
  induction n as [|n IH]; intro p; [reflexivity|]. cbn [le_at]. apply lt_xor.
  - eapply lt_weaken; [apply byte_lt|lia].
  - pose proof (lt_shiftl _ 8 _ (IH (p + 1)%Z)) as H. eapply lt_weaken; [exact H|lia].
Qed.
Lemma le_at_app m n : forall p k, le_at m p (n + k) = le_at m p n ⊕ N.shiftl (le_at m (p + Z.of_nat n) k) (8 * N.of_nat n).
Proof.
  induction n as [|n IH]; intros p k.
  - cbn [Nat.add le_at]. rewrite Z.add_0_r, N.mul_0_r, N.shiftl_0_r, xor_0_l. reflexivity.
  - cbn [Nat.add le_at]. rewrite IH, N.shiftl_lxor, N.shiftl_shiftl.
    replace (p + 1 + Z.of_nat n)%Z with (p + Z.of_nat (S n))%Z by lia.
    replace (8 * N.of_nat n + 8) with (8 * N.of_nat (S n)) by lia. xor_solve.
Qed.

(** The low [k] bits. *)
Definition low (k x : N) : N := N.land x (N.ones k).
Lemma low_xor_shiftl k a b : a < 2 ^ k -> low k (a ⊕ N.shiftl b k) = a.
Proof.
  intro H. apply N.bits_inj. intro i. unfold low. rewrite N.land_spec, N.lxor_spec.
  destruct (N.lt_ge_cases i k) as [L|L].
  - rewrite N.ones_spec_low, N.shiftl_spec_low by assumption. rewrite xorb_false_r, andb_true_r. reflexivity.
  - rewrite N.ones_spec_high by assumption. rewrite andb_false_r. symmetry. apply (proj1 (lt_pow2_bits a k) H i L).
Qed.
Lemma low_bound k x : low k x < 2 ^ k.
Proof. apply lt_land_r. rewrite N.ones_equiv. pose proof (N.pow_nonzero 2 k). lia. Qed.
Lemma low_split k x : x = low k x ⊕ N.shiftl (N.shiftr x k) k.
Proof.
  apply N.bits_inj. intro i. unfold low. rewrite N.lxor_spec, N.land_spec.
  destruct (N.lt_ge_cases i k) as [L|L].
  - rewrite N.ones_spec_low, N.shiftl_spec_low by assumption. rewrite xorb_false_r, andb_true_r. reflexivity.
  - rewrite N.ones_spec_high by assumption. rewrite andb_false_r, xorb_false_l.
    rewrite N.shiftl_spec_high' by assumption. rewrite N.shiftr_spec by lia. f_equal. lia.
Qed.
Lemma times_split k x : times_x k x = times_x k (low k x) ⊕ N.shiftr x k.
Proof. rewrite (low_split k x) at 1. rewrite lin_times, times_shiftl. reflexivity. Qed.
Lemma times_shiftl' n k b : k <= n -> times_x n (N.shiftl b k) = times_x (n - k) b.
Proof. intro H. replace n with (n - k + k) at 1 by lia. rewrite times_add, times_shiftl. reflexivity. Qed.

(** A load of [n] bytes of which the first are [l]. *)
Lemma low_le_at B m p l n : readable B m p l -> (length l <= n)%nat -> low (bits_of l) (le_at m p n) = le l.
Proof.
  intros H Hn. replace n with (length l + (n - length l))%nat by lia. rewrite le_at_app, (le_at_ok B) by assumption.
  apply low_xor_shiftl, le_bound.
Qed.

Lemma can_read_in B a : (rlo B <= a < rhi B)%Z -> can_read B a = true.
Proof. unfold can_read. lia. Qed.

Lemma all_readable_ok B m p l n : readable B m p l -> (n <= length l)%nat -> all_readable B p n = true.
Proof.
  intros [[H1 H2] _] Hn. apply forallb_forall. intros i Hi. apply in_seq in Hi. unfold zlen in H2.
  apply can_read_in. lia.
Qed.
Lemma some_readable_ok B m p b l n : readable B m p (b :: l) -> (0 < n)%nat -> some_readable B p n = true.
Proof.
  intros H Hn. apply readable_cons in H. destruct H as [[H _] _]. apply existsb_exists. exists 0%nat.
  split; [apply in_seq; lia|]. apply can_read_in. lia.
Qed.

Lemma loadu_ok B m p l : readable B m p l -> loadu B (length l) p m = Ok (le l, m).
Proof. intro H. unfold loadu. rewrite (all_readable_ok B m p l), (le_at_ok B) by (assumption || lia). reflexivity. Qed.
Lemma loadu_low B m p l r n : readable B m p (l ++ r) -> n = length (l ++ r) ->
  exists x, loadu B n p m = Ok (x, m) /\ low (bits_of l) x = le l /\ x < 2 ^ (8 * N.of_nat n).
Proof.
  intros H ->. exists (le_at m p (length (l ++ r))). split; [|split].
  - unfold loadu. rewrite (all_readable_ok B m p (l ++ r)) by (assumption || lia). reflexivity.
  - apply readable_app in H. apply (low_le_at B); [tauto|]. rewrite app_length. lia.
  - apply le_at_bound.
Qed.
Lemma loada_ok s B m p l n : readable B m p l -> length l = n -> (0 < n)%nat -> (p mod Z.of_nat n = 0)%Z ->
  loada s B n p m = Ok (le l, m).
Proof.
  intros H <- Hn Ha. unfold loada. rewrite Ha, (le_at_ok B _ l), (all_readable_ok B m p l) by (assumption || lia).
  destruct l as [|b l]; [cbn [length] in Hn; lia|]. rewrite (some_readable_ok B m p b l) by (assumption || lia).
  destruct s; reflexivity.
Qed.
Lemma loada_part B m p l n : readable B m p l -> l <> [] -> (length l <= n)%nat -> (p mod Z.of_nat n = 0)%Z ->
  exists x, loada false B n p m = Ok (x, m) /\ low (bits_of l) x = le l /\ x < 2 ^ (8 * N.of_nat n).
Proof.
  intros H Hl Hn Ha. exists (le_at m p n). split; [|split].
  - unfold loada. rewrite Ha. destruct l as [|b l]; [congruence|].
    rewrite (some_readable_ok B m p b l) by (assumption || (cbn [length] in Hn; lia)). reflexivity.
  - apply (low_le_at B); assumption.
  - apply le_at_bound.
Qed.

(** ** Instructions *)
Lemma lin_clmul_n_l n b f : lin f -> lin (fun a => clmul_n n (f a) b).
Proof.
  intro Hf. induction n as [|n IH]; cbn [clmul_n]; [apply lin_zero|].
  apply (lin_xor (fun a => clmul_n n (f a) b)); [exact IH|]. apply lin_bit2. auto with lin.
Qed.
Lemma lin_clmul_n_r n a f : lin f -> lin (fun b => clmul_n n a (f b)).
Proof.
  intro Hf. induction n as [|n IH]; cbn [clmul_n]; [apply lin_zero|].
  apply (lin_xor (fun b => clmul_n n a (f b))); [exact IH|]. auto with lin.
Qed.
Lemma clmul_n_bound n a b k : a < 2 ^ k -> clmul_n n a b < 2 ^ (k + N.of_nat n).
Proof.
  intro H. induction n as [|n IH]; cbn [clmul_n]; [pose proof (N.pow_nonzero 2 (k + N.of_nat 0)); lia|].
  apply lt_xor; [eapply lt_weaken; [exact IH|lia]|].
  destruct (N.testbit _ _); [|pose proof (N.pow_nonzero 2 (k + N.of_nat (S n))); lia].
  eapply lt_weaken; [apply lt_shiftl, H|lia].
Qed.
Lemma lin_lo64 f : lin f -> lin (fun a => lo64 (f a)). Proof. unfold lo64. auto with lin. Qed.
Lemma lin_hi64 f : lin f -> lin (fun a => hi64 (f a)). Proof. unfold hi64. auto with lin. Qed.
Lemma lo64_bound x : lo64 x < 2 ^ 64. Proof. apply lt_land_r. reflexivity. Qed.
Lemma hi64_bound x : hi64 x < 2 ^ 64. Proof. apply lt_land_r. reflexivity. Qed.
Lemma lin_mm_clmul f k i : lin f -> lin (fun a => mm_clmul (f a) k i).
Proof.
  intro Hf. unfold mm_clmul, clmul.
  destruct (N.testbit i 0); apply lin_clmul_n_l; [apply lin_hi64|apply lin_lo64]; exact Hf.
Qed.
Lemma lin_mm_clmul_r f a i : lin f -> lin (fun b => mm_clmul a (f b) i).
Proof.
  intro Hf. unfold mm_clmul, clmul.
  destruct (N.testbit i 4); apply lin_clmul_n_r; [apply lin_hi64|apply lin_lo64]; exact Hf.
Qed.
Lemma mm_clmul_bound a b i : mm_clmul a b i < 2 ^ 128.
Proof.
  unfold mm_clmul, clmul. apply (clmul_n_bound 64 _ _ 64).
  destruct (N.testbit i 0); [apply hi64_bound|apply lo64_bound].
Qed.
Lemma lin_of_bytes n (f : N -> N -> N) : (forall i, lin (fun a => f a i)) -> lin (fun a => of_bytes n (f a)).
Proof.
  intro H. induction n as [|n IH]; cbn [of_bytes]; [apply lin_zero|].
  apply (lin_xor (fun a => of_bytes n (f a))); [exact IH|]. auto with lin.
Qed.
Lemma lin_shuffle f idx : lin f -> lin (fun a => shuffle_epi8 (f a) idx).
Proof.
  intro Hf. unfold shuffle_epi8. apply (lin_of_bytes 16 (fun a i => let j := byte_at idx i in
    if N.testbit j 7 then 0 else byte_at (f a) (N.land j 15))).
  intro i. cbv zeta. destruct (N.testbit _ 7); [apply lin_zero|]. unfold byte_at. auto with lin.
Qed.
Lemma lin_srli f k : lin f -> lin (fun a => srli_si128 (f a) k). Proof. unfold srli_si128. auto with lin. Qed.
Lemma lin_slli f k : lin f -> lin (fun a => slli_si128 (f a) k). Proof. unfold slli_si128. auto with lin. Qed.
Lemma lin_extract f i : lin f -> lin (fun a => extract32 (f a) i). Proof. unfold extract32, u32. auto with lin. Qed.
#[export] Hint Resolve lin_lo64 lin_hi64 lin_mm_clmul lin_mm_clmul_r lin_shuffle lin_srli lin_slli lin_extract : lin.

Lemma W128_bit i : N.testbit W128 i = (i <? 128).
Proof.
  change W128 with (N.ones 128). destruct (N.ltb_spec i 128); [apply N.ones_spec_low|apply N.ones_spec_high]; assumption.
Qed.
Lemma bit_below a k i : a < 2 ^ k -> N.testbit a i = N.testbit a i && (i <? k).
Proof.
  intro H. destruct (N.ltb_spec i k); [rewrite andb_true_r; reflexivity|].
  rewrite (proj1 (lt_pow2_bits a k) H i) by assumption. reflexivity.
Qed.
Ltac ternary_bits Ha Hb Hc :=
  let i := fresh "i" in
  apply N.bits_inj; intro i; unfold ternary; cbv zeta;
  repeat match goal with
  | |- context [N.testbit (Npos ?x) ?k] => tryif is_var k then fail else
      (let v := eval vm_compute in (N.testbit (Npos x) k) in change (N.testbit (Npos x) k) with v)
  | |- context [N.testbit 0 ?k] => tryif is_var k then fail else change (N.testbit 0 k) with false
  end; cbv iota;
  repeat progress (rewrite ?N.lor_spec, ?N.land_spec, ?N.lxor_spec, ?N.bits_0, ?W128_bit);
  rewrite (bit_below _ 128 i Ha), (bit_below _ 128 i Hb), (bit_below _ 128 i Hc);
  destruct (i <? 128);
  repeat match goal with |- context [N.testbit ?x i] => is_var x; destruct (N.testbit x i) end; reflexivity.
Lemma ternary_96 a b c : a < 2 ^ 128 -> b < 2 ^ 128 -> c < 2 ^ 128 -> ternary a b c 0x96 = a ⊕ b ⊕ c.
Proof. intros Ha Hb Hc. ternary_bits Ha Hb Hc. Qed.
Lemma ternary_28 a b c : a < 2 ^ 128 -> b < 2 ^ 128 -> c < 2 ^ 128 -> ternary a b c 0x28 = N.land (a ⊕ b) c.
Proof. intros Ha Hb Hc. ternary_bits Ha Hb Hc. Qed.
Lemma ternary_C3 a b c : a < 2 ^ 128 -> b < 2 ^ 128 -> c < 2 ^ 128 -> ternary a b c 0xC3 = a ⊕ b ⊕ W128.
Proof. intros Ha Hb Hc. ternary_bits Ha Hb Hc. Qed.

Lemma xor3_ok avx a b c : a < 2 ^ 128 -> b < 2 ^ 128 -> c < 2 ^ 128 -> xor3 avx a b c = a ⊕ b ⊕ c.
Proof. intros. unfold xor3. destruct avx; [apply ternary_96; assumption|reflexivity]. Qed.

(** ** Folding *)
Local Opaque mm_clmul N.lxor N.land N.shiftl N.shiftr shuffle_epi8 times_x.
Definition fold64 (s : N) : N := mm_clmul s fold4 0x01 ⊕ mm_clmul s fold4 0x10.
Definition fold16 (s : N) : N := mm_clmul s (vec_at crc_k 0) 0x10 ⊕ mm_clmul s (vec_at crc_k 0) 0x01.
Lemma lin_fold64 : lin fold64. Proof. unfold fold64. auto with lin. Qed.
Lemma lin_fold16 : lin fold16. Proof. unfold fold16. auto with lin. Qed.
Lemma fold64_bound s : fold64 s < 2 ^ 128. Proof. apply lt_xor; apply mm_clmul_bound. Qed.
Lemma fold16_bound s : fold16 s < 2 ^ 128. Proof. apply lt_xor; apply mm_clmul_bound. Qed.
Lemma fold64_times s : s < 2 ^ 128 -> times_x 96 (fold64 s) = times_x 608 s.
Proof.
  revert s. apply (lin_check 128 (fun s => times_x 96 (fold64 s)) (fun s => times_x 608 s)).
  - apply lin_times', lin_fold64.
  - apply lin_times.
  - vm_cast_no_check (eq_refl true).
Qed.
Lemma fold16_times s : s < 2 ^ 128 -> times_x 96 (fold16 s) = times_x 224 s.
Proof.
  revert s. apply (lin_check 128 (fun s => times_x 96 (fold16 s)) (fun s => times_x 224 s)).
  - apply lin_times', lin_fold16.
  - apply lin_times.
  - vm_cast_no_check (eq_refl true).
Qed.
Lemma one_fold_ok avx s d : s < 2 ^ 128 -> d < 2 ^ 128 -> one_fold avx s d = fold64 s ⊕ d.
Proof. intros. unfold one_fold. unfold fold64. apply xor3_ok; assumption || apply mm_clmul_bound. Qed.

(** The word the accumulators stand for. *)
Definition small (c : acc) : Prop :=
  let '(c0, c1, c2, c3) := c in c0 < 2 ^ 128 /\ c1 < 2 ^ 128 /\ c2 < 2 ^ 128 /\ c3 < 2 ^ 128.
Definition val (c : acc) : N :=
  let '(c0, c1, c2, c3) := c in times_x 512 c0 ⊕ times_x 384 c1 ⊕ times_x 256 c2 ⊕ times_x 128 c3.
Definition stands (c : acc) (v : N) : Prop := small c /\ val c = v.

Lemma stands_init c : word c -> stands (mm_clmul c 0xdfded7ec 0, 0, 0, 0) c.
Proof.
  intro H. split.
  - repeat split. apply mm_clmul_bound.
  - unfold val. rewrite !times_zero, !xor_0_r. revert c H.
    apply (lin_check 32 (fun c => times_x 512 (mm_clmul c 0xdfded7ec 0)) (fun c => c)).
    + auto with lin.
    + apply lin_id.
    + vm_cast_no_check (eq_refl true).
Qed.

Section Avx.
Variable avx : bool.

(** Sixteen bytes more. *)
Definition push (c : acc) (t : N) : acc := let '(c0, c1, c2, c3) := c in (c1, c2, c3, one_fold avx c0 t).
Lemma push_ok c t v : t < 2 ^ 128 -> stands c v -> stands (push c t) (times_x 128 (v ⊕ t)).
Proof.
  destruct c as [[[c0 c1] c2] c3]. intros Ht [(H0 & H1 & H2 & H3) Hv]. unfold push. rewrite one_fold_ok by assumption.
  split.
  - repeat split; try assumption. apply lt_xor; [apply fold64_bound|assumption].
  - rewrite <- Hv. unfold val.
    assert (E : times_x 128 (fold64 c0) = times_x 640 c0).
    { rewrite <- (times_merge 32 96 128 _ eq_refl), fold64_times by assumption. merge. reflexivity. }
    merge. rewrite E. xor_solve.
Qed.
Lemma push_bytes c l i d : length l = 16%nat -> stands c (crc_bytes i d) -> stands (push c (le l)) (crc_bytes i (d ++ l)).
Proof.
  intros Hl H. rewrite crc_bytes_app, crc_bytes_le. unfold bits_of. rewrite Hl. apply push_ok; [|exact H].
  pose proof (le_bound l) as K. unfold bits_of in K. rewrite Hl in K. exact K.
Qed.

(** Shuffles of partial_fold. *)
Definition idx_shl (n : N) : N := vec_at pshufb_shf_table (n - 1).
Definition idx_shr (n : N) : N := idx_shl n ⊕ 0x80808080808080808080808080808080.
Definition shuffles_check : bool := forallb (fun n => n =? 0) (below 1) &&
  forallb (fun n => (n =? 0) ||
    (same_on_basis 128 (fun x => shuffle_epi8 x (idx_shl n)) (fun x => N.shiftl (low (8 * n) x) (128 - 8 * n)) &&
     same_on_basis 128 (fun x => shuffle_epi8 x (idx_shr n)) (fun x => N.shiftr x (8 * n)))) (below 16).
Lemma shuffles_ok : shuffles_check = true. Proof. vm_cast_no_check (eq_refl true). Qed.
Lemma shuffle_ok n x : 0 < n < 16 -> x < 2 ^ 128 ->
  shuffle_epi8 x (idx_shl n) = N.shiftl (low (8 * n) x) (128 - 8 * n) /\ shuffle_epi8 x (idx_shr n) = N.shiftr x (8 * n).
Proof.
  intros Hn Hx. pose proof shuffles_ok as C. apply andb_prop in C. destruct C as [_ C].
  pose proof (forallb_below _ _ C n ltac:(lia)) as D. cbv beta in D. apply orb_prop in D. destruct D as [D|D]; [lia|].
  apply andb_prop in D. destruct D as [D1 D2]. split; revert x Hx.
  - refine (lin_check 128 (fun x => shuffle_epi8 x (idx_shl n)) (fun x => N.shiftl (low (8 * n) x) (128 - 8 * n)) _ _ D1);
      unfold low; auto with lin.
  - refine (lin_check 128 (fun x => shuffle_epi8 x (idx_shr n)) (fun x => N.shiftr x (8 * n)) _ _ D2); auto with lin.
Qed.

Lemma lor_shifted x y k : x < 2 ^ 128 -> k <= 128 ->
  N.lor (N.shiftr x k) (N.shiftl y (128 - k)) = N.shiftr x k ⊕ N.shiftl y (128 - k).
Proof. intros Hx Hk. apply lor_xor. apply lt_shiftr. replace (128 - k + k) with 128 by lia. exact Hx. Qed.
Lemma shifted_bound x y k : x < 2 ^ 128 -> k <= 128 -> y < 2 ^ k -> N.shiftr x k ⊕ N.shiftl y (128 - k) < 2 ^ 128.
Proof.
  intros Hx Hk Hy. apply lt_xor.
  - eapply lt_weaken; [apply lt_shiftr; replace 128 with (128 - k + k) in Hx by lia; exact Hx|lia].
  - apply (lt_shiftl _ (128 - k)) in Hy. replace (k + (128 - k)) with 128 in Hy by lia. exact Hy.
Qed.

Lemma partial_ok n c part v : 0 < n < 16 -> part < 2 ^ 128 -> stands c v ->
  stands (partial_fold avx n c part) (times_x (8 * n) (v ⊕ low (8 * n) part)).
Proof.
  destruct c as [[[c0 c1] c2] c3]. intros Hn Hp [(H0 & H1 & H2 & H3) Hv]. unfold partial_fold. cbv zeta.
  fold (idx_shl n). fold (idx_shr n).
  rewrite !(proj1 (shuffle_ok n _ Hn H0)), !(proj1 (shuffle_ok n _ Hn H1)), !(proj1 (shuffle_ok n _ Hn H2)),
    !(proj1 (shuffle_ok n _ Hn H3)), !(proj1 (shuffle_ok n _ Hn Hp)),
    !(proj2 (shuffle_ok n _ Hn H0)), !(proj2 (shuffle_ok n _ Hn H1)), !(proj2 (shuffle_ok n _ Hn H2)),
    !(proj2 (shuffle_ok n _ Hn H3)).
  set (k := 8 * n) in *. assert (Hk : k <= 128) by (subst k; lia).
  rewrite !lor_shifted by assumption.
  assert (Bs : N.shiftl (low k c0) (128 - k) < 2 ^ 128).
  { pose proof (lt_shiftl _ (128 - k) _ (low_bound k c0)) as Q. replace (k + (128 - k)) with 128 in Q by lia. exact Q. }
  rewrite one_fold_ok by (assumption || (apply shifted_bound; auto using low_bound)).
  split.
  - repeat split; try (apply shifted_bound; auto using low_bound).
    apply lt_xor; [apply fold64_bound|apply shifted_bound; auto using low_bound].
  - rewrite <- Hv. unfold val.
    assert (S : forall n x, 128 <= n -> times_x n (N.shiftl x (128 - k)) = times_x (n - 128) (times_x k x)).
    { intros j x Hj. rewrite times_shiftl', <- times_add by lia. f_equal. lia. }
    assert (E : times_x 128 (fold64 (N.shiftl (low k c0) (128 - k))) = times_x 512 (times_x k (low k c0))).
    { rewrite <- (times_merge 32 96 128 _ eq_refl), fold64_times by assumption.
      rewrite (times_merge 32 608 640 _ eq_refl), S by lia. reflexivity. }
    rewrite !lin_times. rewrite E. rewrite !S by lia.
    change (512 - 128) with 384. change (384 - 128) with 256. change (256 - 128) with 128. change (128 - 128) with 0.
    rewrite times_0, !(times_comm k).
    rewrite (times_split k c0), (times_split k c1), (times_split k c2), (times_split k c3), !lin_times.
    xor_solve.
Qed.

Lemma partial_bytes c l part i d : (0 < length l < 16)%nat -> part < 2 ^ 128 -> low (bits_of l) part = le l ->
  stands c (crc_bytes i d) -> stands (partial_fold avx (N.of_nat (length l)) c part) (crc_bytes i (d ++ l)).
Proof.
  intros Hl Hp Hlow H. rewrite crc_bytes_app, crc_bytes_le, <- Hlow. apply partial_ok; [lia|assumption|assumption].
Qed.

(** The final reduction. *)
Definition final (c3 : N) : N :=
  let k := vec_at crc_k 1 in
  let c0 := srli_si128 c3 8 in
  let c0 := mm_clmul c3 k 0 ⊕ c0 in
  let c1 := mm_clmul (slli_si128 c0 4) k 0x10 ⊕ N.land c0 crc_mask in
  let k := vec_at crc_k 2 in
  let c3 := mm_clmul (mm_clmul c1 k 0) k 0x10 in
  extract32 (c3 ⊕ c1) 2.
Lemma lin_final : lin final.
Proof. unfold final. cbv zeta. auto 20 with lin. Qed.
Lemma final_times c : c < 2 ^ 128 -> final c = times_x 128 c.
Proof. revert c. apply (lin_check 128 final (times_x 128)); [apply lin_final|apply lin_times|vm_cast_no_check (eq_refl true)]. Qed.

Definition merged (c : acc) : N := let '(c0, c1, c2, c3) := c in c3 ⊕ fold16 (c2 ⊕ fold16 (c1 ⊕ fold16 c0)).
Lemma merged_bound c : small c -> merged c < 2 ^ 128.
Proof. destruct c as [[[c0 c1] c2] c3]. intros (H0 & H1 & H2 & H3). apply lt_xor; [assumption|apply fold16_bound]. Qed.
Lemma merged_times c : small c -> times_x 128 (merged c) = val c.
Proof.
  destruct c as [[[c0 c1] c2] c3]. intros (H0 & H1 & H2 & H3). unfold merged, val.
  assert (F : forall x, x < 2 ^ 128 -> times_x 128 (fold16 x) = times_x 128 (times_x 128 x)).
  { intros x Hx. rewrite <- (times_merge 32 96 128 _ eq_refl), fold16_times by assumption. merge. reflexivity. }
  rewrite lin_times, F by (apply lt_xor; auto using fold16_bound).
  rewrite (lin_times 128 c2), F by (apply lt_xor; auto using fold16_bound).
  rewrite (lin_times 128 c1), F by assumption.
  merge. xor_solve.
Qed.

Lemma mask_low x : x < 2 ^ 128 -> extract32 (x ⊕ crc_mask) 2 = compl (extract32 x 2).
Proof. intro H. rewrite (lin_extract (fun x => x) 2 lin_id). reflexivity. Qed.

Lemma masked c : c < 2 ^ 128 -> N.land (mm_clmul (slli_si128 c 4) (vec_at crc_k 1) 0x10) crc_mask = mm_clmul (slli_si128 c 4) (vec_at crc_k 1) 0x10.
Proof.
  revert c. apply (lin_check 128 (fun c => N.land (mm_clmul (slli_si128 c 4) (vec_at crc_k 1) 0x10) crc_mask)
    (fun c => mm_clmul (slli_si128 c 4) (vec_at crc_k 1) 0x10)); [auto with lin|auto with lin|vm_cast_no_check (eq_refl true)].
Qed.
Lemma srli_bound x k : x < 2 ^ 128 -> srli_si128 x k < 2 ^ 128.
Proof. intro H. unfold srli_si128. apply lt_shiftr. eapply lt_weaken; [exact H|lia]. Qed.
Lemma mask_bound : crc_mask < 2 ^ 128. Proof. reflexivity. Qed.

Lemma fold_done_ok c v : stands c v -> fold_done avx c = compl v.
Proof.
  intros [H <-]. rewrite <- merged_times, <- final_times by auto using merged_bound.
  pose proof (merged_bound c H) as HM.
  destruct c as [[[c0 c1] c2] c3]. destruct H as (H0 & H1 & H2 & H3).
  unfold fold_done. cbv zeta.
  assert (X : forall a b c, c < 2 ^ 128 ->
    xor3 avx c (mm_clmul a (vec_at crc_k 0) 0x10) (mm_clmul b (vec_at crc_k 0) 0x01) =
    c ⊕ mm_clmul a (vec_at crc_k 0) 0x10 ⊕ mm_clmul b (vec_at crc_k 0) 0x01).
  { intros a b c Hc. apply xor3_ok; [assumption|apply mm_clmul_bound|apply mm_clmul_bound]. }
  rewrite !X by assumption.
  assert (E : forall a b, b ⊕ mm_clmul a (vec_at crc_k 0) 0x10 ⊕ mm_clmul a (vec_at crc_k 0) 0x01 = b ⊕ fold16 a).
  { intros a b. unfold fold16. apply xor_assoc. }
  rewrite !E. fold (merged (c0, c1, c2, c3)).
  set (x := merged (c0, c1, c2, c3)) in *. clearbody x. clear - HM avx.
  unfold final. cbv zeta.
  set (y := mm_clmul x (vec_at crc_k 1) 0 ⊕ srli_si128 x 8).
  assert (Hy : y < 2 ^ 128) by (apply lt_xor; [apply mm_clmul_bound|apply srli_bound, HM]).
  clearbody y. clear x HM.
  replace (if avx then ternary (mm_clmul (slli_si128 y 4) (vec_at crc_k 1) 16) y crc_mask 0x28
           else mm_clmul (slli_si128 y 4) (vec_at crc_k 1) 16 ⊕ N.land y crc_mask)
    with (mm_clmul (slli_si128 y 4) (vec_at crc_k 1) 16 ⊕ N.land y crc_mask)
    by (destruct avx; [|reflexivity]; rewrite ternary_28 by (assumption || apply mm_clmul_bound || apply mask_bound);
        rewrite land_xor_l, masked by assumption; reflexivity).
  set (z := mm_clmul (slli_si128 y 4) (vec_at crc_k 1) 16 ⊕ N.land y crc_mask).
  assert (Hz : z < 2 ^ 128) by (apply lt_xor; [apply mm_clmul_bound|apply lt_land, Hy]).
  clearbody z. clear y Hy.
  set (w := mm_clmul (mm_clmul z (vec_at crc_k 2) 0) (vec_at crc_k 2) 16).
  assert (Hw : w < 2 ^ 128) by apply mm_clmul_bound. clearbody w.
  destruct avx.
  - rewrite ternary_C3 by assumption. rewrite (lin_extract (fun x => x) 2 lin_id). reflexivity.
  - rewrite <- xor_assoc, (lin_extract (fun x => x) 2 lin_id). reflexivity.
Qed.

(** ** Running the code *)

Lemma aligned p k : (p mod 16 = 0 -> (p + 16 * k) mod 16 = 0)%Z.
Proof. intro H. rewrite Z.mul_comm, Z.mod_add by lia. exact H. Qed.
Lemma aligned16 p : (p mod 16 = 0 -> (p + 16) mod 16 = 0)%Z.
Proof. exact (aligned p 1). Qed.

(** Cutting sixteen bytes off. *)
Lemma cut16 B m p l : (16 <= zlen l)%Z -> readable B m p l ->
  exists a b, l = a ++ b /\ length a = 16%nat /\ readable B m p a /\ readable B m (p + 16) b /\ zlen b = (zlen l - 16)%Z.
Proof.
  intros Hl H. destruct (cut l 16 ltac:(lia)) as (a & b & -> & Ha). exists a, b.
  rewrite zlen_app in *. apply readable_app in H. rewrite Ha in H. destruct H as [H1 H2].
  split; [reflexivity|]. split; [unfold zlen in *; lia|]. split; [assumption|]. split; [assumption|lia].
Qed.

Variable strict : bool.

Lemma fold_loop_ok B m i : forall fuel src l c d, (Z.to_nat (zlen l) <= fuel)%nat -> readable B m src l ->
  (src mod 16 = 0)%Z -> stands c (crc_bytes i d) ->
  exists l1 l2 c', l = l1 ++ l2 /\ (zlen l2 < 64)%Z /\ readable B m (src + zlen l1) l2 /\ ((src + zlen l1) mod 16 = 0)%Z /\
    stands c' (crc_bytes i (d ++ l1)) /\
    fold_loop avx strict fuel B src (zlen l) c m = Ok ((src + zlen l1, zlen l2, c')%Z, m).
Proof.
  induction fuel as [|fuel IH]; intros src l c d Hf H Ha Hc.
  - exists [], l, c. change (zlen (@nil byte)) with 0%Z. rewrite Z.add_0_r, app_nil_r. pose proof (zlen_nonneg l).
    cbn [fold_loop]. destruct (64 <=? zlen l)%Z eqn:E; [lia|].
    conjs; try assumption; try lia; reflexivity.
  - cbn [fold_loop]. destruct (64 <=? zlen l)%Z eqn:E.
    + destruct c as [[[c0 c1] c2] c3].
      destruct (cut16 B m src l ltac:(lia) H) as (a0 & r0 & E0 & L0 & R0 & H0 & Z0).
      destruct (cut16 B m _ r0 ltac:(lia) H0) as (a1 & r1 & E1 & L1 & R1 & H1 & Z1).
      destruct (cut16 B m _ r1 ltac:(lia) H1) as (a2 & r2 & E2 & L2 & R2 & H2 & Z2).
      destruct (cut16 B m _ r2 ltac:(lia) H2) as (a3 & r3 & E3 & L3 & R3 & H3 & Z3).
      assert (A1 := aligned16 _ Ha). assert (A2 := aligned16 _ A1). assert (A3 := aligned16 _ A2). assert (A4 := aligned16 _ A3).
      replace (src + 32)%Z with (src + 16 + 16)%Z by lia. replace (src + 48)%Z with (src + 16 + 16 + 16)%Z by lia.
      erewrite bind_ok by (apply loada_ok; [exact R0|exact L0|lia|exact Ha]).
      erewrite bind_ok by (apply loada_ok; [exact R1|exact L1|lia|exact A1]).
      erewrite bind_ok by (apply loada_ok; [exact R2|exact L2|lia|exact A2]).
      erewrite bind_ok by (apply loada_ok; [exact R3|exact L3|lia|exact A3]).
      pose proof (push_bytes _ _ _ _ L0 Hc) as P. apply (push_bytes _ _ _ _ L1) in P. apply (push_bytes _ _ _ _ L2) in P.
      apply (push_bytes _ _ _ _ L3) in P. cbn [push] in P.
      replace (src + 64)%Z with (src + 16 + 16 + 16 + 16)%Z by lia. replace (zlen l - 64)%Z with (zlen r3) by lia.
      destruct (IH _ r3 _ _ ltac:(lia) H3 A4 P) as (l1 & l2 & c' & E4 & Hl & Hr & Hal & Hs & Hrun).
      exists (a0 ++ a1 ++ a2 ++ a3 ++ l1), l2, c'.
      replace (src + zlen (a0 ++ a1 ++ a2 ++ a3 ++ l1))%Z with (src + 16 + 16 + 16 + 16 + zlen l1)%Z
        by (rewrite !zlen_app; unfold zlen; lia).
      conjs; try assumption.
      * subst. rewrite <- !app_assoc. reflexivity.
      * rewrite <- !app_assoc in Hs. exact Hs.
    + exists [], l, c. change (zlen (@nil byte)) with 0%Z. rewrite Z.add_0_r, app_nil_r.
      conjs; try assumption; try lia; reflexivity.
Qed.
End Avx.

Section Run.
Variable avx : bool.

(** A final part of less than 16 bytes. *)
Lemma last_part B m p l c i d : (zlen l < 16)%Z -> readable B m p l -> (p mod 16 = 0)%Z -> stands c (crc_bytes i d) ->
  (if (zlen l =? 0)%Z then ret (fold_done avx c)
   else part <- loada false B 16 p ;; ret (fold_done avx (partial_fold avx (Z.to_N (zlen l)) c part))) m =
  Ok (compl (crc_bytes i (d ++ l)), m).
Proof.
  intros Hl H Ha Hc. destruct (zlen l =? 0)%Z eqn:E.
  - destruct l as [|b l]; [|rewrite zlen_cons in E; pose proof (zlen_nonneg l); lia].
    rewrite app_nil_r. unfold ret. rewrite (fold_done_ok avx _ _ Hc). reflexivity.
  - assert (Hn : l <> []) by (intros ->; discriminate).
    destruct (loada_part B m p l 16 H Hn) as (x & Hx & Hlow & Hb); [unfold zlen in *; lia|exact Ha|].
    erewrite bind_ok by exact Hx. unfold ret. do 2 f_equal. apply fold_done_ok.
    replace (Z.to_N (zlen l)) with (N.of_nat (length l)) by (unfold zlen; lia).
    apply partial_bytes; auto. unfold zlen in *. lia.
Qed.

Theorem crc_fold_ok B m src data init : readable B m src data -> word init ->
  crc_fold avx false B src (zlen data) init m = Ok (crc32_spec init data, m).
Proof.
  intros H Hi. unfold crc_fold. cbv zeta. unfold crc32_spec. rewrite not32_compl.
  assert (S0 : stands (mm_clmul (compl init) 0xdfded7ec 0, 0, 0, 0) (crc_bytes (compl init) [])).
  { apply stands_init. apply compl_word, Hi. }
  set (i := compl init) in *.
  destruct (zlen data <? 16)%Z eqn:E16.
  - destruct (zlen data =? 0)%Z eqn:E0.
    + destruct data as [|b l]; [|rewrite zlen_cons in E0; pose proof (zlen_nonneg l); lia].
      unfold ret. do 2 f_equal. symmetry. apply compl_compl.
    + destruct (zlen data <? 0)%Z eqn:En; [pose proof (zlen_nonneg data); lia|].
      replace (Z.to_nat (zlen data)) with (length data) by (unfold zlen; lia).
      erewrite bind_ok by (apply loadu_ok; exact H). unfold ret. do 2 f_equal. apply fold_done_ok.
      replace (Z.to_N (zlen data)) with (N.of_nat (length data)) by (unfold zlen; lia).
      change data with ([] ++ data) at 3.
      apply (partial_bytes avx _ data); [unfold zlen in *; lia| | |exact S0].
      * eapply lt_weaken; [apply le_bound|]. unfold bits_of, zlen in *. lia.
      * unfold low. rewrite N.land_ones. apply N.mod_small, le_bound.
  - set (ad := ((- src) mod 16)%Z).
    assert (Had : (0 <= ad < 16)%Z) by (apply Z.mod_pos_bound; lia).
    assert (Hal : ((src + ad) mod 16 = 0)%Z).
    { subst ad. rewrite Zplus_mod_idemp_r, Z.add_opp_diag_r. reflexivity. }
    (* alignment *)
    assert (P : exists d0 l c, data = d0 ++ l /\ zlen d0 = ad /\ stands c (crc_bytes i d0) /\
      (if (ad =? 0)%Z then ret (src, zlen data, (mm_clmul i 0xdfded7ec 0, 0, 0, 0))
       else part <- loadu B 16 src ;;
         ret ((src + ad)%Z, (zlen data - ad)%Z, partial_fold avx (Z.to_N ad) (mm_clmul i 0xdfded7ec 0, 0, 0, 0) part)) m =
      Ok ((src + ad, zlen l, c)%Z, m)).
    { destruct (ad =? 0)%Z eqn:Ea.
      - exists [], data, (mm_clmul i 0xdfded7ec 0, 0, 0, 0). conjs; try assumption; try reflexivity.
        + change (zlen (@nil byte)) with 0%Z. lia.
        + replace (src + ad)%Z with src by lia. reflexivity.
      - destruct (cut data 16 ltac:(lia)) as (a & b & Ed & La). destruct (cut a ad ltac:(lia)) as (d0 & r & Ea' & Ld).
        assert (Hr : readable B m src (d0 ++ r)).
        { rewrite Ed, Ea' in H. apply readable_app in H. tauto. }
        destruct (loadu_low B m src d0 r 16 Hr) as (x & Hx & Hlow & Hb).
        { rewrite <- Ea'. unfold zlen in La. lia. }
        exists d0, (r ++ b), (partial_fold avx (N.of_nat (length d0)) (mm_clmul i 0xdfded7ec 0, 0, 0, 0) x). conjs.
        + rewrite Ed, Ea', <- app_assoc. reflexivity.
        + exact Ld.
        + change (crc_bytes i d0) with (crc_bytes i ([] ++ d0)). apply (partial_bytes avx _ d0 x); [unfold zlen in *; lia|exact Hb|exact Hlow|exact S0].
        + erewrite bind_ok by exact Hx. unfold ret. do 2 f_equal.
          replace (Z.to_N ad) with (N.of_nat (length d0)) by (unfold zlen in *; lia).
          replace (zlen data - ad)%Z with (zlen (r ++ b)) by (rewrite Ed, Ea', !zlen_app; lia). reflexivity. }
    destruct P as (d0 & l & c & Ed & Ld & Sc & Run).
    erewrite bind_ok by exact Run. cbv beta iota. clear Run.
    assert (Hl : readable B m (src + ad) l).
    { rewrite Ed in H. apply readable_app in H. rewrite Ld in H. tauto. }
    destruct (fold_loop_ok avx false B m i (Z.to_nat (zlen l)) _ l c d0 ltac:(lia) Hl Hal Sc)
      as (l1 & l2 & c' & El & L2 & R2 & A2 & S2 & Run).
    erewrite bind_ok by exact Run. cbv beta iota. clear Run.
    assert (Ed2 : data = (d0 ++ l1) ++ l2) by (rewrite Ed, El, app_assoc; reflexivity).
    rewrite Ed2. set (d := d0 ++ l1) in *. clearbody d. clear Ed El Ed2 Hl Sc.
    set (p := (src + ad + zlen l1)%Z) in *. clearbody p. clear - R2 A2 S2 L2.
    pose proof (aligned16 _ A2) as A3. pose proof (aligned16 _ A3) as A4. pose proof (aligned16 _ A4) as A5.
    replace (p + 32)%Z with (p + 16 + 16)%Z by lia. replace (p + 48)%Z with (p + 16 + 16 + 16)%Z by lia.
    destruct c' as [[[c0 c1] c2] c3].
    destruct (48 <=? zlen l2)%Z eqn:F48; [|destruct (32 <=? zlen l2)%Z eqn:F32; [|destruct (16 <=? zlen l2)%Z eqn:F16]].
    + destruct (cut16 B m _ l2 ltac:(lia) R2) as (a0 & r0 & E0 & L0 & R0 & H0 & Z0).
      destruct (cut16 B m _ r0 ltac:(lia) H0) as (a1 & r1 & E1 & L1 & R1 & H1 & Z1).
      destruct (cut16 B m _ r1 ltac:(lia) H1) as (a2 & r2 & E2' & L2' & R2' & H2 & Z2).
      erewrite bind_ok by (apply loada_ok; [exact R0|exact L0|lia|exact A2]).
      erewrite bind_ok by (apply loada_ok; [exact R1|exact L1|lia|exact A3]).
      erewrite bind_ok by (apply loada_ok; [exact R2'|exact L2'|lia|exact A4]).
      apply (push_bytes avx _ _ _ _ L0) in S2. apply (push_bytes avx _ _ _ _ L1) in S2. apply (push_bytes avx _ _ _ _ L2') in S2.
      cbn [push] in S2. replace (zlen l2 - 48)%Z with (zlen r2) by lia.
      rewrite (last_part _ _ _ r2 _ _ _ ltac:(lia) H2 A5 S2). subst. rewrite <- !app_assoc. reflexivity.
    + destruct (cut16 B m _ l2 ltac:(lia) R2) as (a0 & r0 & E0 & L0 & R0 & H0 & Z0).
      destruct (cut16 B m _ r0 ltac:(lia) H0) as (a1 & r1 & E1 & L1 & R1 & H1 & Z1).
      erewrite bind_ok by (apply loada_ok; [exact R0|exact L0|lia|exact A2]).
      erewrite bind_ok by (apply loada_ok; [exact R1|exact L1|lia|exact A3]).
      apply (push_bytes avx _ _ _ _ L0) in S2. apply (push_bytes avx _ _ _ _ L1) in S2.
      cbn [push] in S2. replace (zlen l2 - 32)%Z with (zlen r1) by lia.
      rewrite (last_part _ _ _ r1 _ _ _ ltac:(lia) H1 A4 S2). subst. rewrite <- !app_assoc. reflexivity.
    + destruct (cut16 B m _ l2 ltac:(lia) R2) as (a0 & r0 & E0 & L0 & R0 & H0 & Z0).
      erewrite bind_ok by (apply loada_ok; [exact R0|exact L0|lia|exact A2]).
      apply (push_bytes avx _ _ _ _ L0) in S2.
      cbn [push] in S2. replace (zlen l2 - 16)%Z with (zlen r0) by lia.
      rewrite (last_part _ _ _ r0 _ _ _ ltac:(lia) H0 A3 S2). subst. rewrite <- !app_assoc. reflexivity.
    + apply (last_part _ _ _ l2 _ _ _ ltac:(lia) R2 A2 S2).
Qed.
End Run.
