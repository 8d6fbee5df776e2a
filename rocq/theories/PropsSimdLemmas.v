(** Consequences for JavaScript of the SIMD front-end's correctness. *)
From Verif Require Import Base BaseLemmas Frame EncSpec EncNode EncNodeSpec DecSpec DecModel DecProofs DecEndProofs DecText DecNode
  DecNodeSpec DecNodeProofs PropsDecLemmas DecGrow DecSimdModel DecSimdSpec DecSimdProofs DecSimdMain.
From Coq Require Import ZifyBool ZifyNat ZifyN.
Ltac Zify.zify_post_hook ::= Z.div_mod_to_equations.

Lemma dgeom_frame B src len dest (m m' : mem) : dgeom B src len dest ->
  (forall q, ~ (dest <= q < dest + len) -> m' q = m q) -> forall q, ~ (wlo B <= q < whi B) -> m' q = m q.
Proof. intros [? ? ? ? ?] H q Hq. apply H. lia. Qed.

Lemma simd_plain n K : 1 <= n -> kernel_ok false false (2 ^ n) K ->
  runs_none (do_decode_simd K false false (2 ^ n)) decode_text.
Proof.
  intros Hn HK B src dest data m G Hm.
  destruct (simd_run K false false n HK ltac:(auto) Hn B src dest data m None G Hm) as
    (m' & o & s' & e' & rst & u & R & C & Q & F & U1 & U2); try discriminate.
  { intro. exact I. }
  assert (u = 0) as ->. { destruct U1 as [->| ->]; auto. destruct (proj1 U2 eq_refl) as (_ & X & _). discriminate X. }
  cbn [start closes] in *. unfold run_mode in R.
  pose proof (run_plain_text S_CRLF data ltac:(discriminate)) as T.
  destruct (run_plain S_CRLF data) as [o1 s1]. injection R as -> -> <- <-. cbn [fst] in T. subst o.
  exists m', (src + zlen data). rewrite C. change (zlen (@nil byte)) with 0. rewrite !Z.sub_0_r. split; [reflexivity|]. split; [exact Q|].
  eapply dgeom_frame; eauto.
Qed.

Lemma simd_end n K : 1 <= n -> kernel_ok true true (2 ^ n) K -> runs_end (do_decode_simd K true true (2 ^ n)).
Proof.
  intros Hn HK B src dest data m s G Hm.
  destruct (simd_run K true true n HK ltac:(auto) Hn B src dest data m (Some s) G Hm) as
    (m' & o & s' & e' & rst & u & R & C & Q & F & U1 & U2); try discriminate.
  assert (u = 0) as ->. { destruct U1 as [->| ->]; auto. destruct (proj1 U2 eq_refl) as (_ & _ & X & _). discriminate X. }
  cbn [start closes] in *. unfold run_mode in R. exists m', o, s', e', rst. split; [exact R|].
  rewrite C, (Z.sub_0_r (dest + _)). split; [reflexivity|]. split; [exact Q|]. eapply dgeom_frame; eauto.
Qed.

(** ** Dot-unstuffing *)

Definition short_case (n src : Z) (data : list byte) : Prop :=
  2 * 2 ^ n < zlen data /\ (src + zlen data - 2) mod 2 ^ n = 0 /\
  exists p, data = p ++ [CR; LF] /\ snd (run_raw S_CRLF p) = S_EQ.

Lemma simd_raw n K : 1 <= n -> kernel_ok true false (2 ^ n) K ->
  forall B src dest data m, dgeom B src (zlen data) dest -> bytes_at m src data ->
  exists m' src' u, do_decode_simd K true false (2 ^ n) B src dest (zlen data) None m =
      Ok ((E_NONE, src', dest + zlen (decode_text (unstuff true data)) - u, None), m') /\
    bytes_at m' dest (decode_text (unstuff true data)) /\ (forall q, ~ (wlo B <= q < whi B) -> m' q = m q) /\
    (u = 0 \/ u = 1) /\ (u = 1 <-> short_case n src data).
Proof.
  intros Hn HK B src dest data m G Hm.
  destruct (simd_run K true false n HK ltac:(auto) Hn B src dest data m None G Hm) as
    (m' & o & s' & e' & rst & u & R & C & Q & F & U1 & U2); try discriminate.
  { intro. exact I. }
  cbn [start closes] in *. unfold run_mode in R. pose proof (run_raw_text data) as T.
  destruct (run_raw S_CRLF data) as [o1 s1]. injection R as -> -> <- <-. cbn [fst] in T. subst o.
  exists m', (src + zlen data - zlen (@nil byte)), u. rewrite C. split; [reflexivity|]. split; [exact Q|].
  split; [eapply dgeom_frame; eauto|]. split; [exact U1|]. rewrite U2. unfold short_case, short_by_one. tauto.
Qed.

Lemma raw_eq_last s l : l <> [] -> snd (run_raw s l) = S_EQ -> exists p, l = p ++ [EQS].
Proof.
  destruct l as [|x l] using rev_ind; [congruence|]. intros _ H. exists l. f_equal.
  rewrite run_raw_app in H. cbn [prep snd run_raw] in H. revert H. generalize (snd (run_raw s l)). intros s1 H.
  destruct (beq x EQS) eqn:E; [apply beq_true in E; subst; reflexivity|]. exfalso. revert H.
  unfold step_raw, step_normal, step_esc. rewrite E. destruct s1;
    repeat match goal with |- context [if ?c then _ else _] => destruct c end; discriminate.
Qed.

Lemma short_ends n src data : 1 <= n -> short_case n src data -> ends_with [EQS; CR; LF] data.
Proof.
  intros Hn (H1 & _ & p & -> & H2). pose proof (w_ge n Hn). destruct p as [|x p].
  - cbn [app] in H1. change (zlen [CR; LF]) with 2 in H1. lia.
  - destruct (raw_eq_last S_CRLF (x :: p)) as [p0 E]; [discriminate|exact H2|].
    rewrite E. exists p0. rewrite <- app_assoc. reflexivity.
Qed.

Lemma decode_raw_simd n Kp Kr Ke malloc src data m : 1 <= n -> kernel_ok true false (2 ^ n) Kr ->
  bytes_at m src data -> fresh_malloc malloc src (zlen data) ->
  exists u, (u = 0 \/ u = 1) /\ (u = 1 <-> short_case n src data) /\
   node_decode (simd (2 ^ n) Kp Kr Ke) malloc src (zlen data) true m =
     Ok (firstn (length (decode_text (unstuff true data)) - Z.to_nat u) (decode_text (unstuff true data))).
Proof.
  intros Hn HK Hm Hf. unfold node_decode. destruct (zlen data =? 0) eqn:E0.
  { exists 0. split; [auto|]. split.
    - split; [discriminate|]. intros (X & _). pose proof (w_ge n Hn). lia.
    - destruct data as [|c t]; [reflexivity|]. rewrite zlen_cons in E0. pose proof (zlen_nonneg t). lia. }
  pose proof (zlen_nonneg data). specialize (Hf (zlen data) ltac:(lia)). unfold apart in Hf.
  cbv zeta. match goal with |- context [decode _ true ?B] =>
    destruct (simd_raw n Kr Hn HK B src (malloc (zlen data)) data m) as (m' & src' & u & R & Q & F & U1 & U2); auto;
    [constructor; cbn [rlo rhi wlo whi]; lia|] end.
  exists u. split; [exact U1|]. split; [exact U2|].
  unfold decode. cbn [dec_raw simd]. erewrite bind_ok by exact R. unfold ret.
  f_equal. set (o := decode_text (unstuff true data)) in *.
  replace (malloc (zlen data) + zlen o - u - malloc (zlen data)) with (zlen o - u) by lia.
  set (k := (length o - Z.to_nat u)%nat).
  replace (Z.to_nat (zlen o - u)) with k by (unfold zlen; subst k; lia).
  rewrite <- (firstn_skipn k o) in Q. apply bytes_at_app in Q. destruct Q as [Q _].
  apply bytes_at_read in Q. rewrite firstn_length in Q.
  replace (Init.Nat.min k (length o)) with k in Q by lia. exact Q.
Qed.

(** A text hitting that case. *)
Definition short_text (n : Z) : list byte := repeat x2a (Z.to_nat (2 * 2 ^ n - 1)) ++ [EQS; CR; LF].

Lemma run_raw_repeat k s : s = S_NONE \/ s = S_CRLF -> 
  run_raw s (repeat x2a (S k)) = (repeat x00 (S k), S_NONE).
Proof.
  revert s; induction k as [|k IH]; intros s Hs.
  - destruct Hs as [-> | ->]; reflexivity.
  - change (repeat x2a (S (S k))) with (x2a :: repeat x2a (S k)). rewrite run_raw_cons.
    assert (E : step_raw s x2a = ([x00], S_NONE)) by (destruct Hs as [-> | ->]; reflexivity).
    rewrite E. cbn [fst snd]. rewrite IH by auto. reflexivity.
Qed.

Lemma short_text_hits n : 1 <= n -> short_case n 0 (short_text n) /\
  decode_text (unstuff true (short_text n)) = repeat x00 (Z.to_nat (2 * 2 ^ n - 1)) ++ [unescape CR].
Proof.
  intro Hn. pose proof (w_ge n Hn). unfold short_text, short_case.
  set (k := Z.to_nat (2 * 2 ^ n - 2)). replace (Z.to_nat (2 * 2 ^ n - 1)) with (S k) by lia.
  assert (RR : run_raw S_CRLF (repeat x2a (S k) ++ [EQS]) = (repeat x00 (S k), S_EQ)).
  { rewrite run_raw_app, run_raw_repeat by auto. cbn [fst snd]. unfold prep. cbn. rewrite app_nil_r. reflexivity. }
  assert (ZL : zlen (repeat x2a (S k) ++ [EQS; CR; LF]) = 2 * 2 ^ n + 2).
  { rewrite zlen_app. unfold zlen. rewrite repeat_length. cbn [length]. lia. }
  split.
  - rewrite ZL. split; [lia|]. split.
    + replace (0 + (2 * 2 ^ n + 2) - 2) with (2 * 2 ^ n) by lia. apply Z.mod_mul. lia.
    + exists (repeat x2a (S k) ++ [EQS]). rewrite <- app_assoc. split; [reflexivity|]. rewrite RR. reflexivity.
  - rewrite <- run_raw_text. change [EQS; CR; LF] with ([EQS] ++ [CR; LF]). rewrite app_assoc, run_raw_app, RR. reflexivity.
Qed.

(** ** The entry points that use one decoder only *)

Lemma only_plain D data : runs_none (dec_plain D) decode_text ->
  decode_returns D data false (decode_text data) /\ decodeTo_returns D data false (decode_text data).
Proof.
  intro H. set (D' := {| dec_plain := dec_plain D; dec_raw := dec_raw scalar; dec_end := dec_end scalar |}).
  assert (HD : meets_dec D') by (split; [exact H|split; [apply scalar_raw|apply scalar_end]]).
  split; [exact (decode_spec D' HD data false)|exact (decodeTo_spec D' HD data false)].
Qed.

(** [D] with the scalar code for everything but decodeChunk. *)
Definition end_only (D : decoders) : decoders :=
  {| dec_plain := dec_plain scalar; dec_raw := dec_raw scalar; dec_end := dec_end D |}.

Lemma end_only_meets D : runs_end (dec_end D) -> meets_dec (end_only D).
Proof. intro H. split; [apply scalar_plain|split; [apply scalar_raw|exact H]]. Qed.

Lemma chunk_end_only D data prev r : decodeChunk_returns (end_only D) data prev r <-> decodeChunk_returns D data prev r.
Proof. reflexivity. Qed.

(** ** Memory safety *)

Lemma simd_safe n K r e : 1 <= n -> (e = true -> r = true) -> kernel_ok r e (2 ^ n) K ->
  forall src dest data state m, (if e then state <> None else state = None) ->
  bytes_at m src data -> dec_layout src (zlen data) dest ->
  exists e' src' dest' state' m',
    do_decode_simd K r e (2 ^ n) {| rlo := src; rhi := src + zlen data; wlo := dest; whi := dest + zlen data |}
      src dest (zlen data) state m = Ok ((e', src', dest', state'), m') /\
    src <= src' <= src + zlen data /\ dest <= dest' <= dest + (src' - src) /\
    (forall q, ~ (dest <= q < dest + zlen data) -> m' q = m q).
Proof.
  intros Hn Her HK src dest data state m Hst Hm Hl.
  set (B := {| rlo := src; rhi := src + zlen data; wlo := dest; whi := dest + zlen data |}).
  assert (G : dgeom B src (zlen data) dest).
  { unfold dec_layout in Hl. constructor; cbn [B rlo rhi wlo whi]; lia. }
  destruct (simd_run K r e n HK Her Hn B src dest data m state G Hm) as
    (m' & o & s' & e' & rst & u & R & C & Q & F & U1 & U2).
  { intros ->. exact Hst. }
  { intros ->. rewrite Hst. exact I. }
  { intros _ ->. rewrite Hst. discriminate. }
  pose proof (zlen_nonneg rst). pose proof (zlen_nonneg data). pose proof (zlen_nonneg o).
  assert (zlen rst <= zlen data /\ zlen o <= zlen data - zlen rst).
  { unfold run_mode in R. destruct e.
    - pose proof (rst_len _ _ _ _ _ _ R). pose proof (run_end_len _ _ _ _ _ _ R). lia.
    - destruct r.
      + pose proof (run_raw_len (start state) data). destruct (run_raw (start state) data) as [o1 s1].
        injection R as <- <- <- <-. cbn [fst] in *. change (zlen (@nil byte)) with 0 in *. lia.
      + pose proof (run_plain_len (start state) data). destruct (run_plain (start state) data) as [o1 s1].
        injection R as <- <- <- <-. cbn [fst] in *. change (zlen (@nil byte)) with 0 in *. lia. }
  assert (u <= zlen o).
  { destruct U1 as [->| ->]; [lia|]. destruct (proj1 U2 eq_refl) as (_ & -> & -> & _ & p & -> & Hp). rewrite Hst in *.
    unfold run_mode in R. rewrite run_raw_app in R. cbn [start] in *. rewrite Hp in R. unfold prep in R. cbn in R. injection R as <- _ _ _.
    rewrite zlen_app. pose proof (zlen_nonneg (fst (run_raw S_CRLF p))). change (zlen [unescape CR]) with 1 in *. unfold zlen in *. cbn [length]. lia. }
  eexists _, _, _, _, m'. split; [exact C|]. split; [lia|]. split; [lia|exact F].
Qed.

Lemma chain_end_only D prev ds o n e st : chunk_chain (end_only D) prev ds o n e st -> chunk_chain D prev ds o n e st.
Proof.
  induction 1 as [prev|prev d ds r os n e st H He Hc IH|prev d ds r H He].
  - apply cchain_nil.
  - apply cchain_go; [exact (proj1 (chunk_end_only D d prev r) H)|exact He|exact IH].
  - apply cchain_end; [exact (proj1 (chunk_end_only D d prev r) H)|exact He].
Qed.
