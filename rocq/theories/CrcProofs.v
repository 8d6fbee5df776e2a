(** The portable CRC code computes the specification. *)
From Verif Require Import Base BaseLemmas CrcSpec CrcLin CrcModel CrcAlg.
From Coq Require Import NArith Lia ZifyN ZifyBool ZifyNat.
Open Scope N_scope.

(** ** Consuming bytes *)

Lemma times_shiftl k b : times_x k (N.shiftl b k) = b.
Proof.
  revert b. induction k as [|k IH] using N.peano_ind; intro b; [apply N.shiftl_0_r|].
  rewrite <- N.add_1_r, times_add. rewrite <- (IH b) at 2. f_equal.
  rewrite <- N.shiftl_shiftl, times_1. unfold step.
  rewrite N.shiftr_shiftl_l by lia. rewrite N.sub_diag, N.shiftl_0_r.
  replace (N.odd (N.shiftl (N.shiftl b k) 1)) with false; [apply xor_0_r|].
  rewrite <- N.bit0_odd. symmetry. apply N.shiftl_spec_low. lia.
Qed.

Lemma crc_byte_word c b : word c -> word (crc_byte c b).
Proof.
  intro H. apply times_word, xor_word; [exact H|]. eapply lt_weaken; [apply byte_lt|lia].
Qed.
Lemma crc_bytes_word c l : word c -> word (crc_bytes c l).
Proof. revert c; induction l as [|b l IH]; intros c H; [exact H|]. apply IH, crc_byte_word, H. Qed.

Definition bits_of (l : list byte) : N := 8 * N.of_nat (length l).

Lemma crc_bytes_app c a b : crc_bytes c (a ++ b) = crc_bytes (crc_bytes c a) b.
Proof. unfold crc_bytes. apply fold_left_app. Qed.

Lemma crc_bytes_xor a b l : crc_bytes (a ⊕ b) l = crc_bytes a l ⊕ times_x (bits_of l) b.
Proof.
  revert a b; induction l as [|x l IH]; intros a b; [reflexivity|].
  unfold crc_bytes in *. cbn [fold_left].
  replace (crc_byte (a ⊕ b) x) with (crc_byte a x ⊕ times_x 8 b).
  - rewrite IH, <- times_add. f_equal. f_equal. unfold bits_of. cbn [length]. lia.
  - unfold crc_byte. rewrite <- (lin_times 8). f_equal. xor_solve.
Qed.
Lemma crc_bytes_from0 c l : crc_bytes c l = crc_bytes 0 l ⊕ times_x (bits_of l) c.
Proof. rewrite <- crc_bytes_xor, xor_0_l. reflexivity. Qed.

(** Collecting the exponents of nested products with powers of x. *)
Lemma times_merge a b n c : a + b = n -> times_x a (times_x b c) = times_x n c.
Proof. intros <-. symmetry. apply times_add. Qed.
Ltac merge :=
  rewrite ?lin_times;
  repeat match goal with |- context [times_x ?a (times_x ?b ?c)] =>
    let n := eval vm_compute in (a + b) in rewrite (times_merge a b n c eq_refl) end.

(** Little endian words. *)
Definition le32 (b0 b1 b2 b3 : byte) : N :=
  Byte.to_N b0 ⊕ N.shiftl (Byte.to_N b1) 8 ⊕ N.shiftl (Byte.to_N b2) 16 ⊕ N.shiftl (Byte.to_N b3) 24.

Lemma le32_word b0 b1 b2 b3 : word (le32 b0 b1 b2 b3).
Proof.
  unfold le32, word.
  pose proof (byte_lt b0) as H0. pose proof (byte_lt b1) as H1. pose proof (byte_lt b2) as H2. pose proof (byte_lt b3) as H3.
  apply (lt_shiftl _ 8) in H1. apply (lt_shiftl _ 16) in H2. apply (lt_shiftl _ 24) in H3.
  repeat apply lt_xor; (eapply lt_weaken; [eassumption|lia]).
Qed.

Lemma crc_bytes_4 c b0 b1 b2 b3 : crc_bytes c [b0; b1; b2; b3] = times_x 32 (c ⊕ le32 b0 b1 b2 b3).
Proof.
  unfold crc_bytes, le32. cbn [fold_left]. unfold crc_byte.
  rewrite !lin_times.
  rewrite <- (times_shiftl 8 (Byte.to_N b1)) at 1.
  rewrite <- (times_shiftl 16 (Byte.to_N b2)) at 1.
  rewrite <- (times_shiftl 24 (Byte.to_N b3)) at 1.
  merge. rewrite !xor_assoc. reflexivity.
Qed.

Lemma lor_xor a b k : a < 2 ^ k -> N.lor a (N.shiftl b k) = a ⊕ N.shiftl b k.
Proof.
  intro H. symmetry. apply N.lxor_lor. apply N.bits_inj. intro i. rewrite N.land_spec, N.bits_0.
  destruct (N.lt_ge_cases i k) as [L|L].
  - rewrite N.shiftl_spec_low by assumption. apply andb_false_r.
  - rewrite (proj1 (lt_pow2_bits _ _) H i L). reflexivity.
Qed.

Lemma load32_val b0 b1 b2 b3 :
  N.lor (Byte.to_N b0) (N.lor (N.shiftl (Byte.to_N b1) 8) (N.lor (N.shiftl (Byte.to_N b2) 16) (N.shiftl (Byte.to_N b3) 24)))
  = le32 b0 b1 b2 b3.
Proof.
  replace (N.lor (N.shiftl (Byte.to_N b2) 16) (N.shiftl (Byte.to_N b3) 24))
    with (N.shiftl (N.lor (Byte.to_N b2) (N.shiftl (Byte.to_N b3) 8)) 16)
    by (rewrite N.shiftl_lor, N.shiftl_shiftl; reflexivity).
  replace (N.lor (N.shiftl (Byte.to_N b1) 8) (N.shiftl (N.lor (Byte.to_N b2) (N.shiftl (Byte.to_N b3) 8)) 16))
    with (N.shiftl (N.lor (Byte.to_N b1) (N.shiftl (N.lor (Byte.to_N b2) (N.shiftl (Byte.to_N b3) 8)) 8)) 8)
    by (rewrite N.shiftl_lor, N.shiftl_shiftl; reflexivity).
  rewrite !lor_xor by apply byte_lt. unfold le32.
  rewrite !N.shiftl_lxor, !N.shiftl_shiftl, !xor_assoc. reflexivity.
Qed.

(** ** Tables *)

Lemma neg32_land1 c k : word k -> N.land (neg32 (N.land c 1)) k = if N.odd c then k else 0.
Proof.
  intro Hk. replace (N.land c 1) with (if N.odd c then 1 else 0).
  - destruct (N.odd c); [|reflexivity]. change (neg32 1) with (N.ones 32).
    rewrite N.land_comm, N.land_ones. apply N.mod_small. exact Hk.
  - change 1 with (N.ones 1) at 2. rewrite N.land_ones. change (2 ^ 1) with 2.
    rewrite <- N.bit0_mod, N.bit0_odd. destruct (N.odd c); reflexivity.
Qed.

Lemma table_bits_times j c : table_bits j c = times_x (N.of_nat j) c.
Proof.
  revert c; induction j as [|j IH]; intro c; [reflexivity|].
  cbn [table_bits]. rewrite neg32_land1 by reflexivity.
  change (N.shiftr c 1 ⊕ (if N.odd c then 0xEDB88320 else 0)) with (step c).
  rewrite IH, <- (times_1 c), <- times_add. f_equal. lia.
Qed.

Lemma tab_map (f : N -> N) v : v < 256 -> tab (map f range256) v = f v.
Proof.
  intro H. unfold tab, range256. rewrite map_map.
  rewrite (nth_indep _ 0 (f (N.of_nat 0))) by (rewrite map_length, seq_length; lia).
  rewrite (map_nth (fun n => f (N.of_nat n))), seq_nth by lia. f_equal. lia.
Qed.
Lemma tab_base v : v < 256 -> tab gen_base v = times_x 8 v.
Proof. intro H. unfold gen_base. rewrite tab_map by assumption. apply (table_bits_times 8). Qed.

Lemma times8_split c : word c -> times_x 8 c = N.shiftr c 8 ⊕ times_x 8 (N.land c 0xff).
Proof.
  revert c. apply (lin_check 32 (times_x 8) (fun c => N.shiftr c 8 ⊕ times_x 8 (N.land c 0xff))).
  - auto with lin.
  - auto 10 with lin.
  - vm_cast_no_check (eq_refl true).
Qed.

Lemma land_ff c : N.land c 0xff < 256.
Proof. apply (lt_land_r c 0xff 8). reflexivity. Qed.

Lemma byte_step_spec c b : word c -> byte_step gen_base c (Byte.to_N b) = crc_byte c b.
Proof.
  intro H. unfold byte_step, crc_byte.
  rewrite tab_base by (apply (lt_xor _ _ 8); [apply land_ff|apply byte_lt]).
  rewrite !lin_times. rewrite (times8_split c H), xor_assoc. reflexivity.
Qed.

Lemma zero_steps_times n c : word c -> zero_steps gen_base n c = times_x (8 * N.of_nat n) c.
Proof.
  revert c; induction n as [|n IH]; intros c H; [reflexivity|].
  cbn [zero_steps]. rewrite tab_base by apply land_ff. rewrite <- times8_split by assumption.
  rewrite IH by (apply times_word; assumption). rewrite <- times_add. f_equal. lia.
Qed.

Lemma slice_times i v : v < 256 -> tab (gen_slice gen_base i) v = times_x (8 * (13 + N.of_nat i)) v.
Proof.
  intro H. unfold gen_slice. rewrite tab_map by assumption.
  assert (word v) by (unfold word; lia).
  rewrite tab_base by assumption. rewrite (zero_steps_times (4 * 4 - 5)) by (apply times_word; assumption).
  rewrite zero_steps_times by (repeat apply times_word; assumption).
  rewrite <- !times_add. f_equal. lia.
Qed.

Notation T := generate_crc32_slice_table.

Lemma proc4_spec v w : word v -> word w -> proc4 T v w = times_x 128 (v ⊕ w).
Proof.
  intros Hv Hw. unfold proc4. cbv zeta. pose proof (xor_word v w Hv Hw) as Hu.
  revert Hu. generalize (v ⊕ w). intros u Hu. unfold generate_crc32_slice_table. cbv zeta. cbn [t0 t1 t2 t3].
  rewrite !slice_times by first [apply land_ff | apply (lt_shiftr u 24 8); exact Hu].
  revert u Hu.
  apply (lin_check 32 (fun u => times_x (8 * (13 + N.of_nat 0)) (N.shiftr u 24)
     ⊕ times_x (8 * (13 + N.of_nat 1)) (N.land (N.shiftr u 16) 255)
     ⊕ times_x (8 * (13 + N.of_nat 2)) (N.land (N.shiftr u 8) 255)
     ⊕ times_x (8 * (13 + N.of_nat 3)) (N.land u 255)) (times_x 128)).
  - auto 20 with lin.
  - auto with lin.
  - vm_cast_no_check (eq_refl true).
Qed.

(** ** Running the code *)

Definition readable (B : bufs) (m : mem) (p : Z) (l : list byte) : Prop :=
  (rlo B <= p /\ p + zlen l <= rhi B)%Z /\ bytes_at m p l.

Lemma readable_app B m p a b : readable B m p (a ++ b) <-> readable B m p a /\ readable B m (p + zlen a) b.
Proof.
  unfold readable. rewrite bytes_at_app, zlen_app. pose proof (zlen_nonneg a). pose proof (zlen_nonneg b).
  split; intros; repeat split; try tauto; lia.
Qed.
Lemma readable_cons B m p x l : readable B m p (x :: l) <->
  ((rlo B <= p < rhi B)%Z /\ m p = x) /\ readable B m (p + 1) l.
Proof.
  unfold readable. rewrite zlen_cons. cbn [bytes_at]. pose proof (zlen_nonneg l).
  split; intros; repeat split; try tauto; lia.
Qed.

Lemma load8_ok B m p x l : readable B m p (x :: l) -> load8 B p m = Ok (Byte.to_N x, m).
Proof.
  rewrite readable_cons. intros [[H1 H2] _]. unfold load8. erewrite bind_ok by (apply load_r; exact H1).
  rewrite H2. reflexivity.
Qed.

Lemma load32_ok B m p b0 b1 b2 b3 l : readable B m p (b0 :: b1 :: b2 :: b3 :: l) ->
  load32 B p m = Ok (le32 b0 b1 b2 b3, m).
Proof.
  intro H. unfold load32.
  erewrite bind_ok by (eapply load8_ok; exact H). apply readable_cons in H; destruct H as [_ H].
  erewrite bind_ok by (eapply load8_ok; exact H). apply readable_cons in H; destruct H as [_ H].
  replace (p + 1 + 1)%Z with (p + 2)%Z in H by lia.
  erewrite bind_ok by (eapply load8_ok; exact H). apply readable_cons in H; destruct H as [_ H].
  replace (p + 2 + 1)%Z with (p + 3)%Z in H by lia.
  erewrite bind_ok by (eapply load8_ok; exact H). rewrite load32_val. reflexivity.
Qed.

Lemma bytes_step_ok B m l : forall p c, word c -> readable B m p l ->
  bytes_step T B (length l) p c m = Ok (crc_bytes c l, m).
Proof.
  induction l as [|x l IH]; intros p c Hc H; [reflexivity|].
  cbn [bytes_step length]. erewrite bind_ok by (eapply load8_ok; exact H).
  change (tbase T) with gen_base. rewrite byte_step_spec by assumption.
  apply readable_cons in H; destruct H as [_ H]. rewrite IH; auto using crc_byte_word.
Qed.

Lemma tail_loop_ok B m l : forall fuel p c, word c -> readable B m p l -> (length l <= fuel)%nat ->
  tail_loop fuel T B p (p + zlen l) c m = Ok (crc_bytes c l, m).
Proof.
  induction l as [|x l IH]; intros fuel p c Hc H Hf.
  - change (zlen (@nil byte)) with 0%Z. rewrite Z.add_0_r.
    destruct fuel; cbn [tail_loop]; rewrite Z.eqb_refl; reflexivity.
  - destruct fuel as [|fuel]; [cbn [length] in Hf; lia|]. cbn [tail_loop]. rewrite zlen_cons.
    pose proof (zlen_nonneg l). destruct (p =? p + (zlen l + 1))%Z eqn:E; [lia|].
    erewrite bind_ok by (eapply load8_ok; exact H).
    change (tbase T) with gen_base. rewrite byte_step_spec by assumption.
    apply readable_cons in H; destruct H as [_ H].
    replace (p + (zlen l + 1))%Z with (p + 1 + zlen l)%Z by lia.
    rewrite IH; auto using crc_byte_word. cbn [length] in Hf. lia.
Qed.

(** Cutting off [n] bytes. *)
Lemma cut {A} (l : list A) n : (0 <= n <= zlen l)%Z -> exists a b, l = a ++ b /\ zlen a = n.
Proof. apply list_split_len. Qed.

Lemma four (l : list byte) : zlen l = 4%Z -> exists b0 b1 b2 b3, l = [b0; b1; b2; b3].
Proof.
  unfold zlen. destruct l as [|b0 [|b1 [|b2 [|b3 [|b4 l]]]]]; cbn [length]; try lia. eauto.
Qed.

(** The state the four accumulators stand for, 12 bytes further on. *)
Definition phi (c0 c1 c2 c3 : N) : N := times_x 96 c0 ⊕ times_x 64 c1 ⊕ times_x 32 c2 ⊕ c3.

Lemma four4 (l : list byte) : zlen l = 16%Z -> exists a b c d, l = a ++ b ++ c ++ d /\
  zlen a = 4%Z /\ zlen b = 4%Z /\ zlen c = 4%Z /\ zlen d = 4%Z.
Proof.
  intro H. destruct (cut l 4) as (a & l1 & -> & Ha); [lia|]. rewrite zlen_app in H.
  destruct (cut l1 4) as (b & l2 & -> & Hb); [lia|]. rewrite zlen_app in H.
  destruct (cut l2 4) as (c & d & -> & Hc); [lia|]. rewrite zlen_app in H.
  exists a, b, c, d. repeat split; auto; lia.
Qed.

Lemma load32_list B m p l : zlen l = 4%Z -> readable B m p l ->
  exists w, word w /\ load32 B p m = Ok (w, m) /\ (forall c, crc_bytes c l = times_x 32 (c ⊕ w)).
Proof.
  intros H R. destruct (four l H) as (b0 & b1 & b2 & b3 & ->). exists (le32 b0 b1 b2 b3).
  split; [apply le32_word|]. split; [eapply load32_ok; exact R|]. intro. apply crc_bytes_4.
Qed.

Lemma words_ok B m p l : zlen l = 16%Z -> readable B m p l ->
  exists w0 w1 w2 w3, word w0 /\ word w1 /\ word w2 /\ word w3 /\
    load32 B p m = Ok (w0, m) /\ load32 B (p + 4) m = Ok (w1, m) /\
    load32 B (p + 8) m = Ok (w2, m) /\ load32 B (p + 12) m = Ok (w3, m) /\
    forall c, crc_bytes c l = times_x 128 c ⊕ times_x 32 (phi w0 w1 w2 w3).
Proof.
  intros H R. destruct (four4 l H) as (a & b & c & d & -> & Ha & Hb & Hc & Hd).
  apply readable_app in R. destruct R as [Ra R]. rewrite Ha in R.
  apply readable_app in R. destruct R as [Rb R]. rewrite Hb in R.
  apply readable_app in R. destruct R as [Rc Rd]. rewrite Hc in Rd.
  destruct (load32_list _ _ _ _ Ha Ra) as (w0 & W0 & L0 & E0).
  destruct (load32_list _ _ _ _ Hb Rb) as (w1 & W1 & L1 & E1).
  destruct (load32_list _ _ _ _ Hc Rc) as (w2 & W2 & L2 & E2).
  destruct (load32_list _ _ _ _ Hd Rd) as (w3 & W3 & L3 & E3).
  exists w0, w1, w2, w3.
  replace (p + 4 + 4)%Z with (p + 8)%Z in * by lia. replace (p + 8 + 4)%Z with (p + 12)%Z in * by lia.
  repeat split; auto. intro s. rewrite !crc_bytes_app, E3, E2, E1, E0. unfold phi.
  merge. xor_solve.
Qed.

Lemma phi_xor a0 a1 a2 a3 b0 b1 b2 b3 :
  phi (a0 ⊕ b0) (a1 ⊕ b1) (a2 ⊕ b2) (a3 ⊕ b3) = phi a0 a1 a2 a3 ⊕ phi b0 b1 b2 b3.
Proof. unfold phi. rewrite !lin_times. xor_solve. Qed.
Lemma phi_times n a0 a1 a2 a3 :
  phi (times_x n a0) (times_x n a1) (times_x n a2) (times_x n a3) = times_x n (phi a0 a1 a2 a3).
Proof.
  unfold phi. rewrite !lin_times. rewrite (times_comm 96 n), (times_comm 64 n), (times_comm 32 n). reflexivity.
Qed.

Lemma main_loop_ok B m : forall k fuel p l c0 c1 c2 c3 s,
  zlen l = (16 * Z.of_nat k)%Z -> readable B m p l -> (k <= fuel)%nat ->
  word c0 -> word c1 -> word c2 -> word c3 -> word s ->
  phi c0 c1 c2 c3 = times_x 96 s ->
  exists d0 d1 d2 d3, word d0 /\ word d1 /\ word d2 /\ word d3 /\
    main_loop fuel T B p (p + zlen l) c0 c1 c2 c3 m = Ok ((p + zlen l)%Z, d0, d1, d2, d3, m) /\
    phi d0 d1 d2 d3 = times_x 96 (crc_bytes s l).
Proof.
  induction k as [|k IH]; intros fuel p l c0 c1 c2 c3 s Hl R Hf H0 H1 H2 H3 Hs Hphi.
  - assert (l = []) by (destruct l; [reflexivity|rewrite zlen_cons in Hl; pose proof (zlen_nonneg l); lia]). subst.
    exists c0, c1, c2, c3. change (zlen (@nil byte)) with 0%Z. rewrite Z.add_0_r.
    repeat split; auto. destruct fuel; cbn [main_loop]; rewrite Z.eqb_refl; reflexivity.
  - destruct fuel as [|fuel]; [lia|].
    destruct (cut l 16) as (w & l2 & -> & Hw); [lia|]. rewrite zlen_app in *.
    apply readable_app in R. destruct R as [Rw R]. rewrite Hw in R.
    destruct (words_ok B m p w Hw Rw) as (w0 & w1 & w2 & w3 & W0 & W1 & W2 & W3 & L0 & L1 & L2 & L3 & E).
    cbn [main_loop]. destruct (p =? p + (zlen w + zlen l2))%Z eqn:Ep; [lia|].
    erewrite bind_ok by exact L0. erewrite bind_ok by exact L1.
    erewrite bind_ok by exact L2. erewrite bind_ok by exact L3.
    rewrite !proc4_spec by assumption.
    destruct (IH fuel (p + 16)%Z l2 (times_x 128 (c0 ⊕ w0)) (times_x 128 (c1 ⊕ w1)) (times_x 128 (c2 ⊕ w2))
       (times_x 128 (c3 ⊕ w3)) (crc_bytes s w)) as (d0 & d1 & d2 & d3 & D0 & D1 & D2 & D3 & Rn & P);
      auto using times_word, xor_word, crc_bytes_word; try lia.
    + rewrite phi_times, phi_xor, lin_times, Hphi, E. merge. reflexivity.
    + exists d0, d1, d2, d3. repeat split; auto.
      * replace (p + (zlen w + zlen l2))%Z with (p + 16 + zlen l2)%Z by lia. exact Rn.
      * rewrite P, crc_bytes_app. reflexivity.
Qed.

Lemma bytes4_ok B m p l c : zlen l = 4%Z -> word c -> readable B m p l ->
  bytes_step T B 4 p c m = Ok (crc_bytes c l, m).
Proof.
  intros H Hc R. assert (length l = 4%nat) as <- by (unfold zlen in H; lia). apply bytes_step_ok; assumption.
Qed.

Lemma aggregate_ok B m p l c0 c1 c2 c3 s : (12 <= zlen l < 28)%Z -> readable B m p l ->
  word c0 -> word c1 -> word c2 -> word c3 -> word s -> phi c0 c1 c2 c3 = times_x 96 s ->
  exists a b, l = a ++ b /\
    aggregate T B p (p + zlen l) c0 c1 c2 c3 m = Ok ((p + zlen a)%Z, crc_bytes s a, m).
Proof.
  intros Hl R H0 H1 H2 H3 Hs Hphi. unfold aggregate. rewrite Z.add_simpl_l.
  destruct (Z.land (zlen l) 16 =? 0)%Z eqn:E; cbn [negb].
  - destruct (cut l 12) as (a & b & -> & Ha); [lia|]. exists a, b. split; [reflexivity|].
    apply readable_app in R. destruct R as [R _].
    destruct (cut a 4) as (a0 & a1 & -> & Ha0); [lia|]. rewrite zlen_app in Ha.
    destruct (cut a1 4) as (a2 & a3 & -> & Ha2); [lia|]. rewrite zlen_app in Ha.
    apply readable_app in R. destruct R as [R0 R]. rewrite Ha0 in R.
    apply readable_app in R. destruct R as [R1 R2]. rewrite Ha2 in R2.
    replace (p + 4 + 4)%Z with (p + 8)%Z in R2 by lia.
    erewrite bind_ok by (apply (bytes4_ok _ _ _ a0); assumption). cbv zeta.
    erewrite bind_ok by (apply (bytes4_ok _ _ _ a2); auto using xor_word, crc_bytes_word).
    erewrite bind_ok by (apply (bytes4_ok _ _ _ a3); [lia|auto 10 using xor_word, crc_bytes_word|assumption]).
    rewrite !zlen_app, Ha0, Ha2. replace (zlen a3) with 4%Z by lia.
    unfold ret. replace (4 + (4 + 4))%Z with 12%Z by lia.
    match goal with |- Ok (_, ?x, _) = Ok (_, ?y, _) => enough (x = y) as -> by reflexivity end.
    destruct (load32_list _ _ _ _ Ha0 R0) as (w0 & _ & _ & E0).
    destruct (load32_list _ _ _ _ Ha2 R1) as (w1 & _ & _ & E1).
    assert (Ha3 : zlen a3 = 4%Z) by lia.
    destruct (load32_list _ _ _ _ Ha3 R2) as (w2 & _ & _ & E2).
    rewrite !crc_bytes_app, !E2, !E1, !E0. merge.
    rewrite <- Hphi. unfold phi. xor_solve.
  - assert (16 <= zlen l)%Z.
    { destruct (Z_lt_ge_dec (zlen l) 16) as [L|L]; [|lia]. exfalso.
      assert (C : forallb (fun z => Z.land z 16 =? 0)%Z (map Z.of_nat (seq 0 16)) = true) by reflexivity.
      rewrite forallb_forall in C. rewrite (C (zlen l)) in E; [discriminate|].
      apply in_map_iff. exists (length l). split; [reflexivity|]. apply in_seq. unfold zlen in *. lia. }
    destruct (cut l 16) as (a & b & -> & Ha); [lia|]. exists a, b. split; [reflexivity|].
    apply readable_app in R. destruct R as [R _].
    destruct (four4 a Ha) as (a0 & a1 & a2 & a3 & -> & Ha0 & Ha1 & Ha2 & Ha3).
    apply readable_app in R. destruct R as [R0 R]. rewrite Ha0 in R.
    apply readable_app in R. destruct R as [R1 R]. rewrite Ha1 in R.
    apply readable_app in R. destruct R as [R2 R3]. rewrite Ha2 in R3.
    replace (p + 4 + 4 + 4)%Z with (p + 4 + 8)%Z in R3 by lia.
    destruct (load32_list _ _ _ _ Ha0 R0) as (w0 & W0 & L0 & E0).
    erewrite bind_ok by exact L0. cbv zeta. rewrite proc4_spec by assumption.
    erewrite bind_ok by (apply (bytes4_ok _ _ _ a1); assumption).
    erewrite bind_ok by (apply (bytes4_ok _ _ _ a2); auto using xor_word, crc_bytes_word).
    erewrite bind_ok by (apply (bytes4_ok _ _ _ a3); auto 10 using xor_word, crc_bytes_word).
    rewrite Ha. unfold ret. replace (p + 4 + 12)%Z with (p + 16)%Z by lia.
    match goal with |- Ok (_, ?x, _) = Ok (_, ?y, _) => enough (x = y) as -> by reflexivity end.
    destruct (load32_list _ _ _ _ Ha1 R1) as (w1 & _ & _ & E1).
    destruct (load32_list _ _ _ _ Ha2 R2) as (w2 & _ & _ & E2).
    destruct (load32_list _ _ _ _ Ha3 R3) as (w3 & _ & _ & E3).
    rewrite !crc_bytes_app, !E3, !E2, !E1, !E0.
    assert (P : times_x 128 s = times_x 32 (phi c0 c1 c2 c3)) by (rewrite Hphi; merge; reflexivity).
    revert P. unfold phi. merge. intro P. rewrite P. xor_solve.
Qed.

Lemma not32_compl c : not32 c = compl c. Proof. reflexivity. Qed.

Theorem crc_generic_ok B m src data init :
  readable B m src data -> word init ->
  do_crc32_incremental_generic T B src (zlen data) init m = Ok (crc32_spec init data, m).
Proof.
  intros R Hi. unfold do_crc32_incremental_generic. rewrite not32_compl.
  assert (Hc : word (compl init)) by (apply compl_word; exact Hi).
  (* first alignment byte *)
  assert (S1 : exists a b, data = a ++ b /\
    (if (Z.land src 1 =? 1)%Z && (1 <=? zlen data)%Z
     then c <- bytes_step T B 1 src (compl init) ;; ret ((src + 1)%Z, (zlen data - 1)%Z, c)
     else ret (src, zlen data, compl init)) m = Ok ((src + zlen a)%Z, zlen b, crc_bytes (compl init) a, m)).
  { destruct ((Z.land src 1 =? 1)%Z && (1 <=? zlen data)%Z) eqn:E.
    - destruct (cut data 1) as (a & b & -> & Ha); [lia|]. exists a, b. split; [reflexivity|].
      apply readable_app in R. destruct R as [R _].
      assert (length a = 1%nat) as La by (unfold zlen in Ha; lia). rewrite <- La.
      erewrite bind_ok by (apply bytes_step_ok; assumption). rewrite zlen_app, Ha.
      replace (1 + zlen b - 1)%Z with (zlen b) by lia. reflexivity.
    - exists [], data. split; [reflexivity|]. change (zlen (@nil byte)) with 0%Z. rewrite Z.add_0_r. reflexivity. }
  destruct S1 as (a & b & -> & S1). cbv zeta. erewrite bind_ok by exact S1. clear S1. cbv iota beta.
  unfold crc32_spec. rewrite crc_bytes_app.
  assert (Hs : word (crc_bytes (compl init) a)) by (apply crc_bytes_word; exact Hc).
  revert Hs. generalize (crc_bytes (compl init) a). intros s Hs.
  apply readable_app in R. destruct R as [_ R].
  assert (Hf : (length b <= Z.to_nat (zlen (a ++ b)))%nat).
  { unfold zlen. rewrite app_length. lia. }
  revert Hf. generalize (Z.to_nat (zlen (a ++ b))). intros fuel Hf.
  revert R. generalize (src + zlen a)%Z. clear Hc Hi init a src. intros src R.
  assert (S2 : exists a d, b = a ++ d /\
    (if (Z.land src 2 =? 2)%Z && (2 <=? zlen b)%Z
     then c <- bytes_step T B 2 src s ;; ret ((src + 2)%Z, (zlen b - 2)%Z, c)
     else ret (src, zlen b, s)) m = Ok ((src + zlen a)%Z, zlen d, crc_bytes s a, m)).
  { destruct ((Z.land src 2 =? 2)%Z && (2 <=? zlen b)%Z) eqn:E.
    - destruct (cut b 2) as (a & d & -> & Ha); [lia|]. exists a, d. split; [reflexivity|].
      apply readable_app in R. destruct R as [R _].
      assert (length a = 2%nat) as La by (unfold zlen in Ha; lia). rewrite <- La.
      erewrite bind_ok by (apply bytes_step_ok; assumption). rewrite zlen_app, Ha.
      replace (2 + zlen d - 2)%Z with (zlen d) by lia. reflexivity.
    - exists [], b. split; [reflexivity|]. change (zlen (@nil byte)) with 0%Z. rewrite Z.add_0_r. reflexivity. }
  destruct S2 as (a & d & -> & S2). erewrite bind_ok by exact S2. clear S2. cbv iota beta.
  rewrite crc_bytes_app.
  assert (Hs2 : word (crc_bytes s a)) by (apply crc_bytes_word; exact Hs).
  revert Hs2. generalize (crc_bytes s a). clear s Hs. intros s Hs.
  apply readable_app in R. destruct R as [_ R].
  revert R. generalize (src + zlen a)%Z. clear src. intros p R.
  assert (Hfd : (length d <= fuel)%nat) by (rewrite app_length in Hf; lia). clear Hf a.
  destruct (8 * 4 - 4 <=? zlen d)%Z eqn:E.
  - assert (Hn : (0 <= (zlen d - (4 - 1) * 4) / 4 / 4)%Z).
    { apply Z.div_pos; [|lia]. apply Z.div_pos; lia. }
    pose proof (Z.div_mod (zlen d - (4 - 1) * 4) 4 ltac:(lia)) as D1.
    pose proof (Z.mod_pos_bound (zlen d - (4 - 1) * 4) 4 ltac:(lia)) as D2.
    pose proof (Z.div_mod ((zlen d - (4 - 1) * 4) / 4) 4 ltac:(lia)) as D3.
    pose proof (Z.mod_pos_bound ((zlen d - (4 - 1) * 4) / 4) 4 ltac:(lia)) as D4.
    revert Hn D1 D2 D3 D4. generalize ((zlen d - (4 - 1) * 4) mod 4)%Z.
    generalize ((zlen d - (4 - 1) * 4) / 4)%Z. intros lm r Hn D1 D2.
    generalize (lm mod 4)%Z. revert Hn. generalize (lm / 4)%Z. intros q Hn r2 D3 D4.
    destruct (cut d (16 * q)) as (u & v & -> & Hu); [lia|]. rewrite zlen_app in *.
    apply readable_app in R. destruct R as [Ru Rv].
    destruct (main_loop_ok B m (Z.to_nat q) (S fuel) p u s 0 0 0 s) as (d0 & d1 & d2 & d3 & G0 & G1 & G2 & G3 & GR & GP);
      auto; try reflexivity; try lia.
    { rewrite app_length in Hfd. unfold zlen in Hu. lia. }
    { unfold phi. rewrite !times_zero, !xor_0_r. reflexivity. }
    replace (p + 4 * (q * 4))%Z with (p + zlen u)%Z by lia.
    destruct (aggregate_ok B m (p + zlen u) v d0 d1 d2 d3 (crc_bytes s u)) as (v1 & v2 & -> & A); auto using crc_bytes_word; try lia.
    erewrite bind_ok.
    2: { erewrite bind_ok by exact GR. cbv iota beta. rewrite Z.add_assoc. exact A. }
    cbv iota beta. rewrite zlen_app in *. apply readable_app in Rv. destruct Rv as [_ Rv].
    replace (p + (zlen u + (zlen v1 + zlen v2)))%Z with (p + zlen u + zlen v1 + zlen v2)%Z by lia.
    erewrite bind_ok by (apply tail_loop_ok; [repeat apply crc_bytes_word; exact Hs|exact Rv|rewrite !app_length in Hfd; lia]).
    rewrite !crc_bytes_app. reflexivity.
  - rewrite bind_ret. erewrite bind_ok by (apply tail_loop_ok; [exact Hs|exact R|lia]). reflexivity.
Qed.
