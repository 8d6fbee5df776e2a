(** The portable encoder on hosts of either byte order compared with the little-endian model: a simulation. *)
From Verif Require Import Base BaseLemmas EncModel EncSpec EncNode EncNodeSpec EncNodeProofs EndianModel EndianSpec.
From Coq Require Import ZifyBool.
Open Scope Z_scope.

Definition VT : byte := x0b.

(** Characters whose encoding wraps around and that are not escaped at the start of a line. *)
Definition wraps (c : byte) : bool := (214 <=? bz c) && (escapedLUT c =? 0).

Lemma esc_zero o c : (o_escapedLUT o c =? 0) = (escapedLUT c =? 0).
Proof. destruct o, c; vm_compute; reflexivity. Qed.
Lemma esc_bytes c : let w := escapedLUT c in
  (u8 (o_escapedLUT Big c / 256), u8 (o_escapedLUT Big c)) = (u8 w, u8 (w / 256)) /\ o_escapedLUT Little c = w.
Proof. destruct c; vm_compute; auto. Qed.
Definition b4 (w : Z) : list byte := [u8 w; u8 (w / 256); u8 (w / 65536); u8 (w / 16777216)].
Lemma eol_esc c : let w := pack16 13 10 + 65536 * escapedLUT c in let v o := o_pack32_16 o (o_pack16 o 13 10) (o_escapedLUT o c) in
  escapedLUT c =? 0 = false -> b4 (v Little) = b4 w /\ rev (b4 (v Big)) = b4 w.
Proof. destruct c; vm_compute; auto; discriminate. Qed.
Lemma eol_plain c : let w := 13 + 256 * 10 + 65536 * (bz c + 42) in let v o := o_pack32 o 13 10 (bz c + 42) 0 in
  escapedLUT c =? 0 = true -> b4 (v Little) = b4 w /\ firstn 3 (b4 w) = [CR; LF; u8 (bz c + 42)] /\
  firstn 3 (rev (b4 (v Big))) = [CR; if 214 <=? bz c then VT else LF; u8 (bz c + 42)].
Proof. destruct c; vm_compute; auto; discriminate. Qed.

Lemma esc_store o B p c : o_store16 o B p (o_escapedLUT o c) = store16 B p (escapedLUT c).
Proof. destruct (esc_bytes c) as [E1 E2]. unfold store16, o_store16. destruct o; [rewrite E2|injection E1 as -> ->]; reflexivity. Qed.
Lemma eol_esc_store o B p c : escapedLUT c =? 0 = false ->
  o_store32 o B p (o_pack32_16 o (o_pack16 o 13 10) (o_escapedLUT o c)) = store32 B p (pack16 13 10 + 65536 * escapedLUT c).
Proof.
  intro E. destruct (eol_esc c E) as (K1 & K2). unfold store32, o_store32.
  revert K1 K2. generalize (pack16 13 10 + 65536 * escapedLUT c). intro w.
  destruct o; generalize (o_pack32_16 Little (o_pack16 Little 13 10) (o_escapedLUT Little c)), (o_pack32_16 Big (o_pack16 Big 13 10) (o_escapedLUT Big c)).
  all: intros v1 v2 K1 K2; unfold b4 in K1, K2; cbn [rev app] in K1, K2.
  - injection K1 as -> -> -> ->. reflexivity.
  - injection K2 as -> -> -> ->. reflexivity.
Qed.
Definition four (B : bufs) (p : Z) (a b c d : byte) : M unit := store B p a ;;; store B (p + 1) b ;;; store B (p + 2) c ;;; store B (p + 3) d.
Lemma eol_plain_store o B p c : escapedLUT c =? 0 = true -> exists x y l,
  store32 B p (13 + 256 * 10 + 65536 * (bz c + 42)) = four B p CR LF (u8 (bz c + 42)) x /\
  o_store32 o B p (o_pack32 o 13 10 (bz c + 42) 0) = four B p CR l (u8 (bz c + 42)) y /\
  (l = LF \/ o = Big /\ wraps c = true /\ l = VT).
Proof.
  intro E. destruct (eol_plain c E) as (K1 & K2 & K3). revert K1 K2 K3.
  generalize (13 + 256 * 10 + 65536 * (bz c + 42)). intro w.
  generalize (u8 (bz c + 42)). intro u.
  destruct o; generalize (o_pack32 Little 13 10 (bz c + 42) 0), (o_pack32 Big 13 10 (bz c + 42) 0); intros v1 v2 K1 K2 K3;
    unfold b4 in K1, K2, K3; cbn [rev app firstn] in K1, K2, K3;
  injection K2 as W1 W2 W3; unfold store32, o_store32, four.
  - injection K1 as -> -> -> ->. rewrite W1, W2, W3. do 3 eexists. auto.
  - injection K3 as V1 V2 V3. rewrite W1, W2, W3, V1, V2, V3. do 3 eexists. split; [reflexivity|]. split; [reflexivity|].
    unfold wraps. rewrite E. destruct (214 <=? bz c); auto.
Qed.

Section Sim.
Variables (o : order) (bad : Prop) (B : bufs) (src len : Z).
Hypothesis (H3 : src + len <= wlo B \/ whi B <= src).
Let es := src + len.

Record R (p : Z) (m mb : mem) : Prop := {
  r_out : forall a, ~ (wlo B <= a < whi B) -> m a = mb a;
  r_txt : forall a, wlo B <= a < p -> m a = mb a \/ (bad /\ m a = LF /\ mb a = VT);
  r_src : o = Big -> forall a, src <= a < es -> wraps (m a) = true -> bad }.

Definition sim {A} (p : Z) (x y : M A) (pf : A -> Z) (Q : A -> Prop) : Prop :=
  forall m mb, R p m mb -> forall a m', x m = Ok (a, m') -> Q a /\ exists mb', y mb = Ok (a, mb') /\ R (pf a) m' mb'.

Lemma R_le p s m mb : R p m mb -> s <= p -> R s m mb.
Proof. intros [X Y Z] H. constructor; auto. intros a Ha. apply Y. lia. Qed.

Lemma s_ret {A} p (a : A) pf (Q : A -> Prop) : pf a <= p -> Q a -> sim p (ret a) (ret a) pf Q.
Proof. intros Hp HQ m mb HR a' m' E. injection E as <- <-. split; [exact HQ|]. exists mb. split; [reflexivity|]. apply (R_le p); auto. Qed.
Lemma s_bind {A C} p (x y : M A) (f g : A -> M C) pf Q pf' Q' : sim p x y pf Q -> (forall a, Q a -> sim (pf a) (f a) (g a) pf' Q') ->
  sim p (bind x f) (bind y g) pf' Q'.
Proof.
  intros X K m mb HR a m' E. unfold bind in *. destruct (x m) as [[b m1]| |] eqn:Ex; try discriminate.
  destruct (X m mb HR b m1 Ex) as (HQ & mb1 & Ey & HR1). rewrite Ey. exact (K b HQ m1 mb1 HR1 a m' E).
Qed.
Lemma s_weak {A} p (x y : M A) pf Q (Q' : A -> Prop) : sim p x y pf Q -> (forall a, Q a -> Q' a) -> sim p x y pf Q'.
Proof. intros X K m mb HR a m' E. destruct (X m mb HR a m' E). auto. Qed.
Lemma s_load p a : src <= a < es -> sim p (load B a) (load B a) (fun _ => p) (fun c => o = Big -> wraps c = true -> bad).
Proof.
  intros Ha m mb HR c m' E. unfold load in *. destruct (can_read B a) eqn:C; [|discriminate]. injection E as <- <-. split.
  - intros Eo. apply (r_src _ _ _ HR Eo). exact Ha.
  - exists mb. rewrite (r_out _ _ _ HR a) by (unfold es in *; lia). auto.
Qed.
Lemma s_chk p z : sim p (chk_int z) (chk_int z) (fun _ => p) (fun r => r = z).
Proof. intros m mb HR c m' E. unfold chk_int in *. destruct (in_int z); [|discriminate]. injection E as <- <-. eauto. Qed.
(** Stores of related bytes at [a], in the text or next to it. *)
Lemma s_put p a b c : (b = c \/ (bad /\ b = LF /\ c = VT)) -> a <= p -> sim p (store B a b) (store B a c) (fun _ => Z.max p (a + 1)) (fun _ => True).
Proof.
  intros Hb Ha m mb HR [] m' E. unfold store in *. destruct (can_write B a) eqn:C; [|discriminate]. injection E as <-. split; [exact I|].
  eexists. split; [reflexivity|]. unfold can_write in C. constructor.
  - intros q Hq. unfold upd. destruct (q =? a) eqn:F; [lia|]. apply (r_out _ _ _ HR q Hq).
  - intros q Hq. unfold upd. destruct (q =? a) eqn:F; [exact Hb|]. apply (r_txt _ _ _ HR q). lia.
  - intros Eo q Hq. unfold upd. destruct (q =? a) eqn:F; [unfold es in *; lia|]. apply (r_src _ _ _ HR Eo q Hq).
Qed.
Lemma s_next p b c : (b = c \/ (bad /\ b = LF /\ c = VT)) -> sim p (store B p b) (store B p c) (fun _ => p + 1) (fun _ => True).
Proof. intro Hb. pose proof (s_put p p b c Hb ltac:(lia)) as K. rewrite Z.max_r in K by lia. exact K. Qed.
Lemma s_junk p a b c : p <= a -> sim p (store B a b) (store B a c) (fun _ => p) (fun _ => True).
Proof.
  intros Ha m mb HR [] m' E. unfold store in *. destruct (can_write B a) eqn:C; [|discriminate]. injection E as <-. split; [exact I|].
  eexists. split; [reflexivity|]. unfold can_write in C. constructor.
  - intros q Hq. unfold upd. destruct (q =? a) eqn:F; [lia|]. apply (r_out _ _ _ HR q Hq).
  - intros q Hq. unfold upd. destruct (q =? a) eqn:F; [lia|]. apply (r_txt _ _ _ HR q). lia.
  - intros Eo q Hq. unfold upd. destruct (q =? a) eqn:F; [unfold es in *; lia|]. apply (r_src _ _ _ HR Eo q Hq).
Qed.

Lemma s_esc p c : sim p (store16 B p (escapedLUT c)) (o_store16 o B p (o_escapedLUT o c)) (fun _ => p + 2) (fun _ => True).
Proof.
  rewrite esc_store. unfold store16. replace (p + 2) with (p + 1 + 1) by lia.
  eapply s_bind; [apply s_next; left; reflexivity|]. intros ? _. cbv beta. apply s_next. left. reflexivity.
Qed.

Lemma s_first p i : - len <= i < 0 -> sim p (enc_first B es i p) (o_first o B es i p) (fun '(_, p, _) => p) (fun '(i', _, _) => i' = i + 1).
Proof.
  intro Hi. unfold enc_first, o_first. eapply s_bind; [apply s_load; unfold es; lia|]. intros c _. cbv beta. rewrite esc_zero.
  destruct (negb _).
  - eapply s_bind; [apply s_esc|]. intros ? _. apply s_ret; lia.
  - eapply s_bind; [apply s_next; left; reflexivity|]. intros ? _. apply s_ret; lia.
Qed.

Lemma s_thing p i n : - len <= i + n < 0 -> sim p (do_thing B es i n p) (o_thing o B es i n p) (fun p => p) (fun p' => p <= p').
Proof.
  intro Hi. unfold do_thing, o_thing. eapply s_bind; [apply s_load; unfold es; lia|]. intros c _. cbv beta.
  destruct (negb _).
  - eapply s_bind; [apply s_next; left; reflexivity|]. intros ? _. apply s_ret; lia.
  - eapply s_bind; [apply s_esc|]. intros ? _. apply s_ret; lia.
Qed.

Lemma s_block8 p i : - len <= i < -8 -> sim p (enc_block8 B es i p) (o_block8 o B es i p) (fun p => p) (fun p' => p <= p').
Proof.
  intro Hi. unfold enc_block8, o_block8.
  do 7 (eapply s_bind; [apply s_thing; lia|]; intros ? ?; cbv beta).
  cbv beta in *. eapply s_weak; [apply s_thing; lia|]. cbv beta. intros. lia.
Qed.

Lemma s_unrolled L i0 f : forall i p col sp, - len <= i0 <= i -> i < 0 -> match sp with Some s => s <= p /\ i0 + 8 <= i | None => True end ->
  sim p (enc_unrolled f B es L i p col sp) (o_unrolled o f B es L i p col sp) (fun '(_, p, _, _) => p)
    (fun '(i', p', _, sp') => i0 <= i' < 0 /\ match sp' with Some s => s <= p' /\ i0 + 8 <= i' | None => True end).
Proof.
  induction f as [|f IH]; intros i p col sp Hi Hn Hs; cbn [enc_unrolled o_unrolled]; [intros m mb _ a m' E; discriminate|].
  eapply s_bind; [apply s_chk|]. intros t1 _. cbv beta. eapply s_bind; [apply s_chk|]. intros room _. cbv beta.
  destruct ((i <? -1 - 8) && (8 <? room))%bool eqn:E.
  - cbv zeta. eapply s_bind; [apply s_block8; lia|]. intros p1 Hp. cbv beta. eapply s_bind; [apply s_chk|]. intros c1 _. cbv beta in *.
    apply IH; lia.
  - apply s_ret; [lia|]. split; [lia|exact Hs].
Qed.

Lemma s_rest L f : forall i p col, - len <= i < 0 ->
  sim p (enc_rest f B es L i p col) (o_rest o f B es L i p col) (fun '(_, p, _, _) => p) (fun '(i', _, _, ended) => i <= i' /\ (ended = false -> i' < 0)).
Proof.
  induction f as [|f IH]; intros i p col Hi; cbn [enc_rest o_rest]; [intros m mb _ a m' E; discriminate|].
  eapply s_bind; [apply s_chk|]. intros last _. cbv beta. destruct (col <? last); [|apply s_ret; lia].
  eapply s_bind; [apply s_load; unfold es; lia|]. intros c _. cbv beta.
  eapply s_bind with (pf := fun '(p, _) => p) (Q := fun _ => True).
  { destruct (negb _).
    - eapply s_bind; [apply s_next; left; reflexivity|]. intros ? _. cbv beta. eapply s_bind; [apply s_chk|]. intros c1 _. apply s_ret; auto. lia.
    - eapply s_bind; [apply s_esc|]. intros ? _. cbv beta. eapply s_bind; [apply s_chk|]. intros c1 _. apply s_ret; auto. lia. }
  intros [p1 c1] _. cbv beta iota. destruct (0 <=? i + 1) eqn:E; [apply s_ret; [lia|]; split; [lia|discriminate]|].
  eapply s_weak; [apply IH; lia|]. intros [[[i' p'] c'] e'] [Ha Hb]. split; [lia|exact Hb].
Qed.

Lemma s_last L i p col : - len <= i < 0 ->
  sim p (enc_last B es L i p col) (o_last o B es L i p col) (fun '(_, p) => p) (fun '(i', _) => i <= i').
Proof.
  intro Hi. unfold enc_last, o_last. destruct (col <? L); [|apply s_ret; lia].
  eapply s_bind; [apply s_load; unfold es; lia|]. intros c _. cbv beta. rewrite esc_zero. destruct (_ && _)%bool.
  - eapply s_bind; [apply s_esc|]. intros ? _. apply s_ret; lia.
  - eapply s_bind; [apply s_next; left; reflexivity|]. intros ? _. apply s_ret; lia.
Qed.

Lemma s_eol c p : (o = Big -> wraps c = true -> bad) -> sim p (enc_eol B c p) (o_eol o B c p) (fun '(p, _) => p) (fun _ => True).
Proof.
  intro Hb. unfold enc_eol, o_eol. rewrite esc_zero. destruct (escapedLUT c =? 0) eqn:E; cbn [negb].
  - destruct (eol_plain_store o B p c E) as (x & y & l & -> & -> & Hl).
    eapply s_bind with (pf := fun _ => p + 3) (Q := fun _ => True); [|intros ? _; apply s_ret; auto; lia]. unfold four.
    eapply s_bind; [apply s_next; left; reflexivity|]. intros ? _. cbv beta.
    eapply s_bind; [apply s_next|]. { destruct Hl as [->|(Eo & Hw & ->)]; auto. }
    intros ? _. cbv beta.
    eapply s_bind; [replace (p + 2) with (p + 1 + 1) by lia; apply s_next; left; reflexivity|]. intros ? _. cbv beta.
    replace (p + 1 + 1 + 1) with (p + 3) by lia. apply s_junk. lia.
  - rewrite eol_esc_store by exact E.
    eapply s_bind with (pf := fun _ => p + 4) (Q := fun _ => True); [|intros ? _; apply s_ret; auto; lia].
    unfold store32. replace (p + 4) with (p + 1 + 1 + 1 + 1) by lia.
    replace (p + 2) with (p + 1 + 1) by lia. replace (p + 3) with (p + 1 + 1 + 1) by lia.
    do 3 (eapply s_bind; [apply s_next; left; reflexivity|]; intros ? _; cbv beta). apply s_next; left; reflexivity.
Qed.

Lemma s_lines L f : forall i p col, - len <= i ->
  sim p (enc_lines f B es L i p col) (o_lines o f B es L i p col) (fun '(p, _) => p) (fun _ => True).
Proof.
  induction f as [|f IH]; intros i p col Hi; cbn [enc_lines o_lines]; [intros m mb _ a m' E; discriminate|].
  destruct (i <? 0) eqn:E; [|apply s_ret; auto; lia].
  eapply s_bind; [apply (s_unrolled L i); auto; lia|]. intros [[[i1 p1] c1] sp] [Hi1 Hsp]. cbv beta iota.
  eapply s_bind with (pf := fun '(_, p, _) => p) (Q := fun '(i', _, _) => i <= i' < 0).
  { destruct sp as [s|]; [|apply s_ret; lia]. destruct (L - 1 <=? c1); [|apply s_ret; lia].
    eapply s_bind; [apply s_chk|]. intros c2 _. cbv beta. apply s_ret; lia. }
  intros [[i2 p2] c2] Hi2. cbv beta iota. eapply s_bind; [apply s_rest; lia|]. intros [[[i3 p3] c3] ended] [Hi3 He]. cbv beta iota.
  destruct ended; [apply s_ret; auto; lia|]. specialize (He eq_refl).
  eapply s_bind; [apply s_last; lia|]. intros [i4 p4] Hi4. cbv beta iota. destruct (0 <=? i4) eqn:E4; [apply s_ret; auto; lia|].
  eapply s_bind; [apply s_load; unfold es; lia|]. intros c Hc. cbv beta.
  eapply s_bind; [apply s_eol; exact Hc|]. intros [p5 c5] _. cbv beta iota. apply IH. lia.
Qed.

Lemma s_end fin p col : sim p (enc_end B fin p col) (enc_end B fin p col) (fun '(p, _) => p) (fun _ => True).
Proof.
  unfold enc_end. destruct fin; [|apply s_ret; auto; lia].
  intros m mb HR a m' E. unfold bind in E. unfold bind at 1. unfold load in *. destruct (can_read B (p - 1)); [|discriminate]. cbn beta iota in *.
  assert (K : (beq (m (p - 1)) TAB || beq (m (p - 1)) SP)%bool = (beq (mb (p - 1)) TAB || beq (mb (p - 1)) SP)%bool /\
    ((beq (m (p - 1)) TAB || beq (m (p - 1)) SP)%bool = true -> m (p - 1) = mb (p - 1))).
  { assert (D : wlo B <= p - 1 < whi B \/ ~ (wlo B <= p - 1 < whi B)) by lia.
    destruct D as [D|D]; [|rewrite (r_out _ _ _ HR _ D); auto].
    destruct (r_txt _ _ _ HR (p - 1) ltac:(lia)) as [->|(_ & -> & ->)]; [auto|]. vm_compute. split; [reflexivity|discriminate]. }
  destruct K as [K1 K2]. rewrite <- K1. destruct (_ || _)%bool.
  - rewrite <- (K2 eq_refl).
    assert (S : sim p (store B (p - 1) EQS ;;; store B p (u8 (bz (m (p - 1)) + 64)) ;;; c <- chk_int (col + 1) ;; ret (p + 1, c))
                  (store B (p - 1) EQS ;;; store B p (u8 (bz (m (p - 1)) + 64)) ;;; c <- chk_int (col + 1) ;; ret (p + 1, c))
                  (fun '(p, _) => p) (fun _ => True)).
    { eapply s_bind; [apply s_put; [left; reflexivity|lia]|]. intros ? _. cbv beta. rewrite Z.max_l by lia.
      eapply s_bind; [apply s_next; left; reflexivity|]. intros ? _. cbv beta. eapply s_bind; [apply s_chk|]. intros c _. apply s_ret; auto. lia. }
    exact (S m mb HR a m' E).
  - injection E as <- <-. split; [exact I|]. exists mb. split; [reflexivity|]. exact HR.
Qed.

Lemma s_generic L col dest fin : 0 < len ->
  forall m mb, R dest m mb -> forall n c m', do_encode_generic B L col src dest len fin m = Ok ((n, c), m') ->
  exists mb', o_encode_generic o B L col src dest len fin mb = Ok ((n, c), mb') /\ R (dest + n) m' mb'.
Proof.
  intros Hl m mb HR n c m' E.
  assert (S : sim dest (do_encode_generic B L col src dest len fin) (o_encode_generic o B L col src dest len fin) (fun '(n, _) => dest + n) (fun _ => True)).
  { unfold do_encode_generic, o_encode_generic. fold es.
    eapply s_bind with (pf := fun '(_, p, _) => p) (Q := fun '(i, _, _) => - len <= i).
    { destruct (col =? 0); [|apply s_ret; lia]. eapply s_weak; [apply s_first; lia|]. intros [[i p] c1] K. lia. }
    intros [[i p] c1] Hi. cbv beta iota. eapply s_bind; [apply s_lines; exact Hi|]. intros [p1 c2] _. cbv beta iota.
    eapply s_bind; [apply s_end|]. intros [p2 c3] _. cbv beta iota. apply s_ret; auto. lia. }
  destruct (S m mb HR (n, c) m' E) as (_ & mb' & E' & HR'). eauto.
Qed.
End Sim.

(** [t] is [s] but for vertical tabs in place of line feeds, and those only if [bad]. *)
Definition blurred (bad : Prop) (s t : list byte) : Prop := Forall2 (fun x y => x = y \/ (bad /\ x = LF /\ y = VT)) s t.

Lemma blurred_at bad m mb s : forall a, bytes_at m a s -> (forall q, a <= q < a + zlen s -> m q = mb q \/ (bad /\ m q = LF /\ mb q = VT)) ->
  exists t, bytes_at mb a t /\ blurred bad s t.
Proof.
  induction s as [|x s IH]; intros a Hm H; [exists []; split; [exact I|constructor]|].
  destruct Hm as [Hx Hm]. rewrite zlen_cons in H. pose proof (zlen_nonneg s).
  destruct (IH (a + 1) Hm) as (t & Ht & Hb); [intros q Hq; apply H; lia|].
  exists (mb a :: t). split; [split; [reflexivity|exact Ht]|]. constructor; [|exact Hb]. rewrite <- Hx. apply H. lia.
Qed.
Lemma bytes_in m l : forall a q, bytes_at m a l -> a <= q < a + zlen l -> In (m q) l.
Proof.
  induction l as [|x l IH]; intros a q Hm Hq; [cbn in Hq; lia|]. destruct Hm as [Hx Hm]. rewrite zlen_cons in Hq.
  destruct (Z.eq_dec q a) as [->|]; [left; auto|right; apply (IH (a + 1)); auto; lia].
Qed.

Lemma either_order o (bad : Prop) B L fin col src dest data m :
  rlo B = src -> rhi B = src + zlen data -> wlo B = dest -> (rhi B <= wlo B \/ whi B <= rlo B) ->
  data <> [] -> bytes_at m src data -> 1 <= L <= INT_MAX -> 0 <= col < L -> in_range L col data ->
  dest + zlen (yenc L fin col data) + 32 <= whi B ->
  (o = Big -> forall c, In c data -> wraps c = true -> bad) ->
  exists m' t, o_encode_generic o B L col src dest (zlen data) fin m = Ok ((zlen (yenc L fin col data), ret_col L fin col data), m') /\
    bytes_at m' dest t /\ blurred bad (yenc L fin col data) t.
Proof.
  intros H1 H2 H3 H4 Hd Hm HL Hc Hr Hw Hb.
  destruct (generic_meets B L fin col src dest data m H1 H2 H3 H4 Hd Hm HL Hc Hr Hw) as (m1 & R1 & Q1).
  assert (Hp : 0 < zlen data) by (destruct data; [congruence|]; rewrite zlen_cons; pose proof (zlen_nonneg data); lia).
  assert (R0 : R o bad B src (zlen data) dest m m).
  { constructor; auto. intros Eo a Ha Hwr. apply (Hb Eo (m a)); auto. apply (bytes_in m data src); auto. }
  destruct (s_generic o bad B src (zlen data) ltac:(lia) L col dest fin Hp m m R0 _ _ _ R1) as (m2 & R2 & Q2).
  destruct (blurred_at bad m1 m2 _ dest Q1) as (t & Ht & Hbl).
  { intros q Hq. apply (r_txt _ _ _ _ _ _ _ _ Q2). lia. }
  exists m2, t. auto.
Qed.

Lemma blurred_false s t (bad : Prop) : ~ bad -> blurred bad s t -> t = s.
Proof. intros N. induction 1 as [|x y s t H _ IH]; [reflexivity|]. destruct H as [->|(F & _)]; [congruence|destruct (N F)]. Qed.

Lemma wraps_spec c : wraps c = true <-> first_plain c.
Proof.
  unfold first_plain. cbn [In]. unfold wraps. split; intro H.
  - apply andb_prop in H as [A E]. split; [lia|]. revert E. unfold escapedLUT. intros E K.
    assert (F : ((bz c =? 214) || (bz c =? 214 + 13) || (bz c =? 214 + 10) || (bz c =? 61 - 42) || (bz c =? 214 + 9) || (bz c =? 214 + 32) || (bz c =? 46 - 42))%bool = true) by lia.
    rewrite F in E. destruct K as [K|[K|[K|[K|[K|[]]]]]]; rewrite <- K in E; discriminate E.
  - destruct H as [A N]. unfold escapedLUT.
    destruct ((bz c =? 214) || (bz c =? 214 + 13) || (bz c =? 214 + 10) || (bz c =? 61 - 42) || (bz c =? 214 + 9) || (bz c =? 214 + 32) || (bz c =? 46 - 42))%bool eqn:F; lia.
Qed.

Lemma little_text B L fin col src dest data m :
  rlo B = src -> rhi B = src + zlen data -> wlo B = dest -> (rhi B <= wlo B \/ whi B <= rlo B) ->
  data <> [] -> bytes_at m src data -> 1 <= L <= INT_MAX -> 0 <= col < L -> in_range L col data ->
  dest + zlen (yenc L fin col data) + 32 <= whi B ->
  exists m', o_encode_generic Little B L col src dest (zlen data) fin m = Ok ((zlen (yenc L fin col data), ret_col L fin col data), m') /\
    bytes_at m' dest (yenc L fin col data).
Proof.
  intros. destruct (either_order Little False B L fin col src dest data m) as (m' & t & E & Ht & Hb); auto; [discriminate|].
  apply blurred_false in Hb; [|tauto]. subst t. eauto.
Qed.

Lemma big_text B L fin col src dest data m :
  rlo B = src -> rhi B = src + zlen data -> wlo B = dest -> (rhi B <= wlo B \/ whi B <= rlo B) ->
  data <> [] -> bytes_at m src data -> 1 <= L <= INT_MAX -> 0 <= col < L -> in_range L col data ->
  dest + zlen (yenc L fin col data) + 32 <= whi B ->
  exists m' t, o_encode_generic Big B L col src dest (zlen data) fin m = Ok ((zlen (yenc L fin col data), ret_col L fin col data), m') /\
    bytes_at m' dest t /\ Forall2 (fun x y => x = y \/ (x = x0a /\ y = x0b)) (yenc L fin col data) t /\
    ((forall c, In c data -> ~ first_plain c) -> t = yenc L fin col data).
Proof.
  intros. destruct (either_order Big (exists c, In c data /\ first_plain c) B L fin col src dest data m) as (m' & t & E & Ht & Hb); auto.
  { intros _ c Hc Hwr. exists c. split; [exact Hc|apply wraps_spec, Hwr]. }
  exists m', t. split; [exact E|]. split; [exact Ht|]. split.
  - clear - Hb. induction Hb as [|x y s t K _ IH]; constructor; auto. tauto.
  - intro N. apply (blurred_false _ _ _ (fun '(ex_intro _ c (conj Hc Hf)) => N c Hc Hf) Hb).
Qed.
