(** Memory safety of the SIMD front-end for kernels that decode wrongly, or do not come
    to an end: only the places they read and write matter. *)
From Verif Require Import Base BaseLemmas Frame EncSpec DecSpec DecModel DecProofs DecEndProofs DecText DecNode DecNodeSpec DecNodeProofs
  PropsDecLemmas DecGrow DecSimdModel DecSimdSpec DecSimdProofs DecSimdMain DecVec DecVecProofs DecKernelModel PropsSimdLemmas.
From Coq Require Import ZifyBool ZifyNat ZifyN.
Ltac Zify.zify_post_hook ::= Z.div_mod_to_equations.

(** [x] run in [m] does nothing undefined; if it ends its result satisfies [Q], and
    that it does not end is possible only if [H]. *)
Definition may (H : Prop) {A} (x : M A) (m : mem) (Q : A -> mem -> Prop) : Prop :=
  match x m with Ok (a, m') => Q a m' | UB => False | NoFuel => H end.

Lemma may_ret H {A} (a : A) m (Q : A -> mem -> Prop) : Q a m -> may H (ret a) m Q.
Proof. intro. exact H0. Qed.

Lemma may_bind H {A C} (x : M A) (f : A -> M C) m (P : A -> mem -> Prop) (Q : C -> mem -> Prop) :
  may H x m P -> (forall a m', P a m' -> may H (f a) m' Q) -> may H (bind x f) m Q.
Proof. intros X Y. unfold may, bind in *. destruct (x m) as [[a m']| |]; [exact (Y a m' X)|exact X|exact X]. Qed.

Lemma may_mono H {A} (x : M A) m (P Q : A -> mem -> Prop) : may H x m P -> (forall a m', P a m' -> Q a m') -> may H x m Q.
Proof. unfold may. destruct (x m) as [[a m']| |]; auto. Qed.

Lemma may_load H B a m : rlo B <= a < rhi B -> may H (load B a) m (fun _ m' => m' = m).
Proof. intro Ha. unfold may. rewrite load_r by exact Ha. reflexivity. Qed.

Lemma read_n_at m : forall n a, bytes_at m a (read_n m a n).
Proof. induction n as [|n IH]; intro a; [exact I|]. split; [reflexivity|apply IH]. Qed.

Lemma read_n_length m : forall n a, length (read_n m a n) = n.
Proof. induction n as [|n IH]; intro a; [reflexivity|]. cbn [read_n length]. rewrite IH. reflexivity. Qed.

Lemma may_load_n H B a n m : rlo B <= a -> a + Z.of_nat n <= rhi B -> may H (load_n B a n) m (fun l m' => m' = m /\ length l = n).
Proof.
  intros H1 H2. unfold may. pose proof (load_n_ok B (read_n m a n) a m (read_n_at m n a) H1) as E.
  rewrite read_n_length in E. rewrite E; [split; [reflexivity|apply read_n_length]|]. unfold zlen. rewrite read_n_length. exact H2.
Qed.

Lemma may_store_n H B p v m : wlo B <= p -> p + zlen v <= whi B ->
  may H (store_n B p v) m (fun _ m' => forall q, ~ (p <= q < p + zlen v) -> m' q = m q).
Proof. intros H1 H2. unfold may. destruct (store_n_ok B v p m H1 H2) as (m' & -> & _ & F). exact F. Qed.

Lemma may_eq H B a c m : rlo B <= a < rhi B -> may H (loads_eq B a c) m (fun _ m' => m' = m).
Proof. intro Ha. eapply may_bind; [apply may_load, Ha|]. intros b m' ->. apply may_ret. reflexivity. Qed.

Lemma may_andm H b (x : M bool) m : may H x m (fun _ m' => m' = m) -> may H (andm b x) m (fun _ m' => m' = m).
Proof. unfold andm. destruct b; [auto|]. intros _. apply may_ret. reflexivity. Qed.

Lemma may_back H r B src len nm m : 0 < len -> (r = true -> 2 <= len /\ rlo B <= src - len /\ src + 2 <= rhi B) ->
  may H (nextMask_back r B src len nm) m (fun _ m' => m' = m).
Proof.
  intros Hl Hr. unfold nextMask_back. destruct r; [|apply may_ret; reflexivity]. destruct (Hr eq_refl) as (H1 & H2 & H3).
  replace (len =? 0) with false by lia. cbn [negb].
  eapply may_bind; [apply may_eq; lia|]. intros a m1 ->.
  eapply may_bind; [apply may_andm, may_eq; lia|]. intros b m1 ->.
  eapply may_bind; [apply may_andm, may_eq; lia|]. intros [|] m1 ->; [apply may_ret; reflexivity|].
  eapply may_bind; [apply may_eq; lia|]. intros a' m1 ->.
  eapply may_bind; [apply may_andm, may_eq; lia|]. intros b' m1 ->.
  eapply may_bind; [apply may_andm, may_eq; lia|]. intros [|] m1 ->; apply may_ret; reflexivity.
Qed.

Lemma may_fwd H r B x k m : rlo B <= x -> x + 2 <= rhi B -> may H (nextMask_fwd r B x k) m (fun _ m' => m' = m).
Proof.
  intros H1 H2. unfold nextMask_fwd. destruct r; [|apply may_ret; reflexivity].
  eapply may_bind; [apply may_eq; lia|]. intros [|] m1 ->; [apply may_ret; reflexivity|].
  eapply may_bind; [apply may_eq; lia|]. intros [|] m1 ->; apply may_ret; reflexivity.
Qed.

(** What is asked of a kernel here. *)
Definition kernel_may (H : Prop) (isRaw searchEnd : bool) (w : Z) (K : kernel) : Prop :=
  forall B src dest n look esc nm m, 0 < n -> n mod w = 0 -> src mod w = 0 -> lookahead isRaw searchEnd <= look ->
    rlo B <= src -> src + n + look <= rhi B -> wlo B <= dest -> dest + n <= whi B ->
    may H (K B (src + n) n dest esc nm) m (fun x m' => let '(n', p', _, _) := x in
      0 <= n' <= n /\ dest <= p' <= dest + n' /\ forall q, ~ (dest <= q < dest + n) -> m' q = m q).

(** The loop over blocks. *)
Lemma may_loop (H : Prop) {T} w (body : Z -> T -> M (Z + T)) (pos : T -> Z) n dest : 0 < w ->
  (forall i st m, - n <= i -> i + w <= 0 -> i mod w = 0 -> dest <= pos st <= dest + (n + i) ->
     may H (body i st) m (fun x m' => match x with
       | inl _ => m' = m
       | inr st' => pos st <= pos st' <= pos st + w /\ forall q, ~ (dest <= q < dest + n) -> m' q = m q
       end)) ->
  forall f i st m, - i <= Z.of_nat f -> - n <= i <= 0 -> i mod w = 0 -> dest <= pos st <= dest + (n + i) ->
  may H (block_loop f w body i st) m (fun x m' =>
    let '(stop, st') := x in let i' := match stop with Some (i', _) => i' | None => 0 end in
    - n <= i' <= 0 /\ dest <= pos st' <= dest + (n + i') /\ forall q, ~ (dest <= q < dest + n) -> m' q = m q).
Proof.
  intros Hw Hb. induction f as [|f IH]; intros i st m Hf Hi Hm Hp.
  - cbn [block_loop]. replace (i =? 0) with true by lia. apply may_ret. cbv beta iota zeta. split; [lia|]. split; [lia|auto].
  - cbn [block_loop]. destruct (i =? 0) eqn:E.
    + apply may_ret. cbv beta iota zeta. split; [lia|]. split; [lia|auto].
    + assert (Hi' : i + w <= 0).
      { pose proof (Z_div_exact_full_2 i w ltac:(lia) Hm) as D. assert (i / w < 0) by (apply Z.div_lt_upper_bound; lia). nia. }
      eapply may_bind; [apply Hb; [lia|lia|exact Hm|lia]|]. intros [nm|st'] m1.
      * intros ->. apply may_ret. cbv beta iota zeta. split; [lia|]. split; [lia|auto].
      * intros [P F]. eapply may_mono.
        { apply IH; [lia|lia| |lia]. rewrite Zplus_mod, Hm, Z_mod_same_full. reflexivity. }
        intros [stop st2] m2. cbv beta iota zeta. intros (A & B' & F2). split; [exact A|]. split; [lia|].
        intros q Hq. rewrite F2, F; auto.
Qed.

(** ** The front-end *)

Lemma may_scalar H r e B src dest data m state : (e = true -> r = true /\ state <> None) ->
  dgeom B src (zlen data) dest -> bytes_at m src data ->
  may H (do_decode_scalar r e B src dest (zlen data) state) m (fun x m' => let '(e', src', dest', st) := x in
    src <= src' <= src + zlen data /\ dest <= dest' <= dest + (src' - src) /\ (e' = E_NONE -> src' = src + zlen data) /\
    (state <> None -> st <> None) /\ forall q, ~ (dest <= q < dest + zlen data) -> m' q = m q).
Proof.
  intros Hre G Hm. destruct (scalar_mode r e B src dest data m state Hre G Hm) as (m' & o & s' & e' & rst & R & C & Q & F).
  unfold may. rewrite C. pose proof (zlen_nonneg rst). pose proof (zlen_nonneg o).
  assert (L : zlen rst <= zlen data /\ zlen o <= zlen data - zlen rst /\ (e' = E_NONE -> rst = [])).
  { unfold run_mode in R. destruct e.
    - pose proof (rst_len _ _ _ _ _ _ R). pose proof (run_end_len _ _ _ _ _ _ R). split; [lia|]. split; [lia|].
      intros ->. eapply run_end_done. exact R.
    - pose proof (zlen_nonneg data). destruct r.
      + pose proof (run_raw_len (start state) data). destruct (run_raw (start state) data) as [o1 s1].
        injection R as <- <- <- <-. cbn [fst] in *. change (zlen (@nil byte)) with 0 in *. repeat split; lia.
      + pose proof (run_plain_len (start state) data). destruct (run_plain (start state) data) as [o1 s1].
        injection R as <- <- <- <-. cbn [fst] in *. change (zlen (@nil byte)) with 0 in *. repeat split; lia. }
  assert (U : 0 <= uncounted r e state data <= zlen o).
  { unfold uncounted. destruct r; cbn [andb]; [|lia]. destruct e; cbn [negb andb]; [lia|].
    destruct (lost state data) eqn:E; [|lia]. apply lost_out in E. unfold run_mode in R.
    destruct (run_raw (start state) data) as [o1 s1]. injection R as <- <- <- <-. cbn [fst] in E. lia. }
  destruct L as (L1 & L2 & L3). split; [lia|]. split; [lia|]. split; [intro X; rewrite (L3 X); change (zlen (@nil byte)) with 0; lia|].
  split; [|exact F]. unfold closes. destruct state; congruence.
Qed.

(** The result lies within the buffers. *)
Definition within (src dest len : Z) (m : mem) (x : eres) (m' : mem) : Prop :=
  let '(_, src', dest', _) := x in
  src <= src' <= src + len /\ dest <= dest' <= dest + (src' - src) /\ forall q, ~ (dest <= q < dest + len) -> m' q = m q.

Lemma may_switch H r e B src s m l : (e = true -> r = true) -> bytes_at m src l -> (if e then 4 else 2) <= zlen l ->
  rlo B <= src -> src + zlen l <= rhi B ->
  may H (simd_switch r e B src s) m (fun x m' => m' = m /\ match x with inl (_, src', _) => src <= src' <= src + zlen l | inr _ => True end).
Proof.
  intros Hre Hm Hl H1 H2. unfold may. destruct e.
  - rewrite (Hre eq_refl) in *. destruct (switch_end B src s l m Hm Hl H1 H2) as [(e' & s' & rst & -> & He & R)|[-> _]].
    + split; [reflexivity|]. pose proof (rst_len _ _ _ _ _ _ R). pose proof (zlen_nonneg rst). lia.
    + split; [reflexivity|exact I].
  - rewrite (switch_noend r B src s l m Hm Hl H1 H2). split; [reflexivity|exact I].
Qed.

Section Front.
Variables (H : Prop) (K : kernel) (r e : bool) (n : Z).
Hypothesis HK : kernel_may H r e (2 ^ n) K.
Hypothesis Hre : e = true -> r = true.
Hypothesis Hn : 2 <= n.
Local Notation w := (2 ^ n).

Lemma may_tail B src dest len s m : 0 <= len -> dgeom B src len dest ->
  may H (simd_tail r e B src dest len s) m (within src dest len m).
Proof.
  intros Hl G. unfold simd_tail. destruct (len =? 0) eqn:E; cbn [negb].
  - apply may_ret. cbn. split; [lia|]. split; [lia|auto].
  - assert (L : zlen (read_n m src (Z.to_nat len)) = len) by (unfold zlen; rewrite read_n_length; lia).
    rewrite <- L in G |- *. eapply may_mono.
    + apply may_scalar; [intro He; split; [auto|discriminate]|exact G|apply read_n_at].
    + intros [[[e' s'] d'] st] m'. cbv beta iota. unfold within. tauto.
Qed.

Lemma may_aligned B src dest len s m : 0 < len -> src mod w = 0 -> dgeom B src len dest -> (e = false -> len_buffer r e w < len) ->
  may H (simd_aligned K r e w B src dest len s) m (within src dest len m).
Proof.
  intros Hl Hal G Hb. unfold simd_aligned. cbv zeta.
  assert (W : 4 <= w) by (change 4 with (2 ^ 2); apply Z.pow_le_mono_r; lia).
  assert (LB : w - 1 <= len_buffer r e w <= w + 3) by (unfold len_buffer; destruct e, r; lia).
  destruct (len_buffer r e w <? len) eqn:E; [|apply may_tail; [lia|exact G]].
  assert (L : zlen (read_n m src (Z.to_nat len)) = len) by (unfold zlen; rewrite read_n_length; lia).
  pose proof G as [G1 G2 G3 G4 G5].
  eapply may_bind.
  { apply (may_switch H r e B src s m (read_n m src (Z.to_nat len)) Hre); [apply read_n_at| |exact G1|lia].
    rewrite L. destruct e; lia. }
  rewrite L. intros [[[e' src'] s']|nm] m1 [-> X].
  - apply may_ret. unfold within. split; [lia|]. split; [lia|auto].
  - rewrite align_down_pow2 by lia.
    set (dl := len - len_buffer r e w + (w - 1) - (len - len_buffer r e w + (w - 1)) mod w).
    assert (DM : dl mod w = 0).
    { subst dl. rewrite Zminus_mod, Zmod_mod, Z.sub_diag. reflexivity. }
    assert (DL : len - len_buffer r e w <= dl < len - len_buffer r e w + w).
    { pose proof (Z.mod_pos_bound (len - len_buffer r e w + (w - 1)) w ltac:(lia)). subst dl. lia. }
    clearbody dl.
    eapply may_bind.
    { apply (HK B src dest dl (len - dl)); try assumption; try lia. unfold lookahead, len_buffer in *. destruct e; [rewrite (Hre eq_refl) in *|destruct r]; lia. }
    intros [[[n' p'] ef] nm'] m1 (N1 & N2 & F). eapply may_mono.
    + apply may_tail; [lia|]. constructor; lia.
    + intros [[[e' s'] d'] st] m'. unfold within. intros (S1 & S2 & F2). split; [lia|]. split; [lia|].
      intros q Hq. rewrite F2, F by lia. reflexivity.
Qed.

Lemma may_front B src dest len state m : 0 <= len -> dgeom B src len dest -> (e = true -> state <> None) ->
  may H (do_decode_simd K r e w B src dest len state) m (within src dest len m).
Proof.
  intros Hl G Hs. unfold do_decode_simd.
  assert (W : 4 <= w) by (change 4 with (2 ^ 2); apply Z.pow_le_mono_r; lia).
  assert (SC : forall a st, 0 <= a <= len -> (e = true -> st <> None) ->
    may H (do_decode_scalar r e B src dest a st) m (fun x m' => let '(e', src', dest', st') := x in
    src <= src' <= src + a /\ dest <= dest' <= dest + (src' - src) /\ (e' = E_NONE -> src' = src + a) /\
    (st <> None -> st' <> None) /\ forall q, ~ (dest <= q < dest + a) -> m' q = m q)).
  { intros a st Ha He. assert (L : zlen (read_n m src (Z.to_nat a)) = a) by (unfold zlen; rewrite read_n_length; lia).
    rewrite <- L. apply may_scalar; [intro; split; auto| |apply read_n_at]. destruct G as [G1 G2 G3 G4 G5]. constructor; lia. }
  destruct (len <=? w * 2) eqn:E.
  - eapply may_mono; [apply SC; [lia|exact Hs]|]. intros [[[e' s'] d'] st] m'. cbv beta iota. unfold within. tauto.
  - cbv zeta. assert (LB : w - 1 <= len_buffer r e w <= w + 3) by (unfold len_buffer; destruct e, r; lia).
    assert (LE : e = false -> len_buffer r e w <= w + 1) by (intros ->; unfold len_buffer; destruct r; lia).
    eapply (may_bind H _ _ m (within src dest len m)).
    2: { intros [[[e' s'] d'] st] m' X. apply may_ret. exact X. }
    set (s0 := match state with Some s => s | None => S_CRLF end).
    rewrite land_pow2, align_down_pow2 by lia. destruct (src mod w =? 0) eqn:E1; cbn [negb].
    + apply may_aligned; [lia|apply Z.eqb_eq, E1|exact G|]. intro He. specialize (LE He). lia.
    + pose proof (Z.mod_pos_bound (src + (w - 1)) w ltac:(lia)) as MB.
      set (a := src + (w - 1) - (src + (w - 1)) mod w - src) in *.
      assert (AB : 0 <= a <= w - 1) by (subst a; lia).
      assert (AM : (src + a) mod w = 0).
      { replace (src + a) with (src + (w - 1) - (src + (w - 1)) mod w) by (subst a; lia).
        rewrite Zminus_mod, Zmod_mod, Z.sub_diag. reflexivity. }
      clearbody a.
      eapply may_bind; [apply (SC a (Some s0)); [lia|discriminate]|].
      intros [[[e' s'] d'] st] m1 (S1 & S2 & S3 & S4 & F).
      assert (DONE : within src dest len m (e', s', d', st) m1).
      { unfold within. split; [lia|]. split; [lia|]. intros q Hq. apply F. lia. }
      destruct e'; try (apply may_ret; exact DONE). destruct st as [s1|]; [|apply may_ret; exact DONE].
      specialize (S3 eq_refl). subst s'. destruct G as [G1 G2 G3 G4 G5]. eapply may_mono.
      * apply may_aligned; [lia|exact AM|constructor; lia|]. intro He. specialize (LE He). lia.
      * intros [[[e2 s2] d2] st2] m2. unfold within. intros (T1 & T2 & F2). split; [lia|]. split; [lia|].
        intros q Hq. rewrite F2, F by lia. reflexivity.
Qed.
End Front.
