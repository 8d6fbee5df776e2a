(** What a decoder does depends only on its buffers: with a larger destination it does the same, unless it
    ran into undefined behaviour, and it changes nothing outside the destination.  As [EncLocal.v] for the
    encoders. *)
From Verif Require Import Base BaseLemmas EncModel EncLocal DecSpec DecModel DecNode DecVec DecSimdModel DecKernelModel DecSseModel DecAvxModel DecEvexModel DecRvvModel DecNeonModel JsBuilds.
Open Scope Z_scope.

(** The addresses [P] may be read too (by the NEON code, behind the source). *)
Definition agreex (P : Z -> Prop) (B : bufs) (m m' : mem) : Prop := forall a, can_read B a = true \/ P a -> m a = m' a.
Definition relx {A} (P : Z -> Prop) (B : bufs) (x x' : M A) : Prop := forall m m', agreex P B m m' ->
  match x m with
  | UB => True
  | NoFuel => x' m' = NoFuel
  | Ok (a, m1) => exists m1', x' m' = Ok (a, m1') /\ agreex P B m1 m1' /\ forall z, can_write B z = false -> m1' z = m' z
  end.

Section Decoders.
Context (P : Z -> Prop) (B B' : bufs) (W : within B B').
Notation rel := (relx P).

Lemma rel_ret {A} (a : A) : rel B (ret a) (ret a).
Proof. intros m m' H. cbn. exists m'. auto. Qed.
Lemma rel_ub {A} (x : M A) : rel B ub x.
Proof. intros m m' H. exact I. Qed.
Lemma rel_nofuel {A} : rel B (@nofuel A) nofuel.
Proof. intros m m' H. reflexivity. Qed.
Lemma rel_bind {A C} (x x' : M A) (k k' : A -> M C) : rel B x x' -> (forall a, rel B (k a) (k' a)) -> rel B (bind x k) (bind x' k').
Proof.
  intros X K m m' H. unfold bind. specialize (X m m' H). destruct (x m) as [[a m1]| |]; [|exact I|rewrite X; reflexivity].
  destruct X as (m1' & E & G & F). rewrite E. specialize (K a m1 m1' G). destruct (k a m1) as [[c m2]| |]; [|exact I|exact K].
  destruct K as (m2' & E2 & G2 & F2). exists m2'. split; [exact E2|]. split; [exact G2|]. intros z Hz. rewrite F2 by exact Hz. apply F, Hz.
Qed.
Lemma rel_load a : rel B (load B a) (load B' a).
Proof.
  intros m m' H. unfold load. destruct (can_read B a) eqn:E; [|exact I]. rewrite (w_read B B' W a E). exists m'. rewrite (H a (or_introl E)). auto.
Qed.
Lemma rel_store a b : rel B (store B a b) (store B' a b).
Proof.
  intros m m' H. unfold store. destruct (can_write B a) eqn:E; [|exact I]. rewrite (w_write B B' W a E). eexists. split; [reflexivity|]. split.
  - intros z Hz. unfold upd. destruct (z =? a); [reflexivity|apply H, Hz].
  - intros z Hz. unfold upd. destruct (z =? a) eqn:F; [|reflexivity]. apply Z.eqb_eq in F. subst. congruence.
Qed.
Lemma rel_chk z : rel B (chk_int z) (chk_int z).
Proof. intros m m' H. unfold chk_int. destruct (in_int z); [exists m'; auto|exact I]. Qed.
Lemma rel_lift {A} (o : out A) : rel B (lift o) (lift o).
Proof. intros m m' H. unfold lift. destruct o; [exists m'; auto|exact I|reflexivity]. Qed.

Ltac head x := lazymatch x with ?f _ => head f | _ => x end.
Ltac lc :=
  cbv beta zeta;
  lazymatch goal with
  | |- relx _ _ (bind _ _) _ => apply rel_bind; [lc|intro; lc]
  | |- relx _ _ (ret _) _ => apply rel_ret
  | |- relx _ _ ub _ => apply rel_ub
  | |- relx _ _ nofuel _ => apply rel_nofuel
  | |- relx _ _ (load _ _) _ => apply rel_load
  | |- relx _ _ (store _ _ _) _ => apply rel_store
  | |- relx _ _ (chk_int _) _ => apply rel_chk
  | |- relx _ _ (lift _) _ => apply rel_lift
  | |- relx _ _ (if ?b then _ else _) _ => destruct b; lc
  | |- relx _ _ (match ?x with _ => _ end) _ => destruct x; lc
  | |- relx _ _ ?x _ => first [solve [auto] | let h := head x in first [progress unfold h; lc | lazymatch h with match ?y with _ => _ end => destruct y; lc end]]
  end.

Lemma k_load_n n : forall a, rel B (load_n B a n) (load_n B' a n).
Proof. induction n; intro a; cbn [load_n]; lc. Qed.
Lemma k_store_n v : forall a, rel B (store_n B a v) (store_n B' a v).
Proof. induction v; intro b; cbn [store_n]; lc. Qed.
Hint Resolve k_load_n k_store_n : core.

Lemma k_raw_loop f es : forall i p, rel B (raw_loop f B es i p) (raw_loop f B' es i p).
Proof. induction f; intros; cbn [raw_loop]; lc. Qed.
Lemma k_plain_loop f es : forall i p, rel B (plain_loop f B es i p) (plain_loop f B' es i p).
Proof. induction f; intros; cbn [plain_loop]; lc. Qed.
Lemma k_end_switch f r es st : forall l i p, rel B (end_switch f r B es st l i p) (end_switch f r B' es st l i p).
Proof. induction f; intros; cbn [end_switch]; lc. Qed.
Lemma k_end_loop f r es st : forall i p, rel B (end_loop f r B es st i p) (end_loop f r B' es st i p).
Proof. induction f; intros; cbn [end_loop]; lc. Qed.
Hint Resolve k_raw_loop k_plain_loop k_end_switch k_end_loop : core.
Lemma k_scalar r s src dest len st : rel B (do_decode_scalar r s B src dest len st) (do_decode_scalar r s B' src dest len st).
Proof. lc. Qed.
Hint Resolve k_scalar : core.

Lemma k_block_loop {T} f w (b1 b2 : Z -> T -> M (Z + T)) : (forall i st, rel B (b1 i st) (b2 i st)) ->
  forall i st, rel B (block_loop f w b1 i st) (block_loop f w b2 i st).
Proof.
  intro K. induction f as [|f IH]; intros i st; cbn [block_loop]; destruct (i =? 0); try apply rel_ret; [apply rel_nofuel|].
  apply rel_bind; [apply K|]. intros [n|st2]; [apply rel_ret|apply IH].
Qed.

Lemma k_simd (K : kernel) r s w src dest len st : (forall a b c d e, rel B (K B a b c d e) (K B' a b c d e)) ->
  rel B (do_decode_simd K r s w B src dest len st) (do_decode_simd K r s w B' src dest len st).
Proof. intro H. lc. Qed.

Lemma k_n_store k lut d : forall p m c, rel B (n_store k lut B p d m c) (n_store k lut B' p d m c).
Proof. induction d; intros; cbn [n_store]; lc. Qed.
Lemma k_store_vecs l : forall p, rel B (store_vecs B p l) (store_vecs B' p l).
Proof. induction l; intros; cbn [store_vecs]; lc. Qed.
Lemma k_load_vecs k : forall p, rel B (load_vecs B p k) (load_vecs B' p k).
Proof. induction k; intros; cbn [load_vecs]; lc. Qed.
Hint Resolve k_n_store k_store_vecs k_load_vecs : core.
Ltac kern := intros; unfold do_decode_sse, do_decode_avx2, do_decode_evex, do_decode_with, do_decode_rvv, do_decode_neon; cbv beta zeta;
  repeat first [apply k_block_loop; intros; lc | lazymatch goal with
  | |- relx _ _ (bind _ _) _ => apply rel_bind; [|intro]
  | |- relx _ _ (if ?b then _ else _) _ => destruct b
  | |- relx _ _ (match ?x with _ => _ end) _ => destruct x
  end | progress lc].

Lemma k_sse isa r s a b c d e : rel B (do_decode_sse isa r s B a b c d e) (do_decode_sse isa r s B' a b c d e).
Proof. kern. Qed.
Lemma k_avx isa r s a b c d e : rel B (do_decode_avx2 isa r s B a b c d e) (do_decode_avx2 isa r s B' a b c d e).
Proof. kern. Qed.
Lemma k_evex isa r s a b c d e : rel B (do_decode_evex isa r s B a b c d e) (do_decode_evex isa r s B' a b c d e).
Proof. kern. Qed.
Lemma k_rvv rv r s a b c d e : rel B (do_decode_rvv rv r s B a b c d e) (do_decode_rvv rv r s B' a b c d e).
Proof. kern. Qed.
Lemma k_newlines ne r x data cmpEq mask maskEq packed next :
  rel B (n_newlines ne r false B x data cmpEq mask maskEq packed next) (n_newlines ne r false B' x data cmpEq mask maskEq packed next).
Proof. unfold n_newlines. destruct r; cbn [orb andb negb]; lc. Qed.
Hint Resolve k_newlines : core.
Lemma k_neon ne r a b c d e : rel B (do_decode_neon ne r false B a b c d e) (do_decode_neon ne r false B' a b c d e).
Proof. kern. Qed.

Section Line.
Hypothesis (HP : forall q, rhi B <= q < rhi B + 15 -> P q).
Lemma rel_line a : rel B (load_line B a) (load_line B' a).
Proof.
  intros m m' H. unfold load_line. destruct W as (W1 & W2 & _). rewrite W1, W2.
  destruct ((a mod 16 =? 0) && (rlo B <=? a) && (a <? rhi B))%bool eqn:E; [|exact I].
  exists m'. split; [|auto]. do 2 f_equal. symmetry.
  assert (K : forall n b, a <= b -> b + Z.of_nat n <= a + 16 -> read_n m b n = read_n m' b n).
  { induction n as [|n IH]; intros b H1 H2; [reflexivity|]. cbn [read_n]. f_equal.
    - apply H. destruct (Z.ltb_spec b (rhi B)); [left; unfold can_read|right; apply HP]; lia.
    - apply IH; lia. }
  apply K; lia.
Qed.
Lemma k_next ne x : rel B (n_next ne B x) (n_next ne B' x).
Proof. unfold n_next. destruct (n_line ne); [apply rel_line|lc]. Qed.
Hint Resolve k_next : core.
Lemma k_neon_end ne r s a b c d e : rel B (do_decode_neon ne r s B a b c d e) (do_decode_neon ne r s B' a b c d e).
Proof. kern. Qed.
End Line.

Lemma a_decoder_local_end D src dest len st : a_decoder D ->
  (forall ne, D = neon_decoders ne -> forall q, rhi B <= q < rhi B + 15 -> P q) ->
  rel B (dec_end D B src dest len st) (dec_end D B' src dest len st).
Proof.
  intros [|isa|isa|rv L|ne|isa F] HP; try (apply k_simd; intros).
  all: first [apply k_scalar|apply k_sse|apply k_avx|apply k_rvv|apply k_evex|apply k_neon_end; exact (HP _ eq_refl)].
Qed.

Lemma a_decoder_local D src dest len st : a_decoder D ->
  rel B (dec_plain D B src dest len st) (dec_plain D B' src dest len st) /\
  rel B (dec_raw D B src dest len st) (dec_raw D B' src dest len st).
Proof.
  intros [|isa|isa|rv L|ne|isa F]; split; try (apply k_simd; intros).
  all: first [apply k_scalar|apply k_sse|apply k_avx|apply k_rvv|apply k_neon|apply k_evex].
Qed.

End Decoders.

Lemma relx_rel {A} B (x x' : M A) : relx (fun _ => False) B x x' -> EncLocal.rel B x x'.
Proof.
  intros R m m' H. specialize (R m m' ltac:(intros a [K|[]]; apply H, K)). destruct (x m) as [[a m1]| |]; [|exact I|exact R].
  destruct R as (m1' & E & G & F). exists m1'. split; [exact E|]. split; [|exact F]. intros z K. apply G. left. exact K.
Qed.
