(** Which line feeds the portable encoder loses on big-endian hosts. *)
From Verif Require Import Base BaseLemmas EncModel EncSpec EncNode EncNodeSpec EncNodeProofs EndianModel EndianSpec EndianProofs.
From Coq Require Import ZifyBool.
Open Scope Z_scope.

Definition lf_or_vt (y : byte) : byte := if bz y <? 42 then VT else LF.

Lemma lut_not_lf c : escapeLUT c <> LF.
Proof. destruct c; vm_compute; discriminate. Qed.
Lemma escaped_not_lf c : u8 (escapedLUT c) <> LF /\ u8 (escapedLUT c / 256) <> LF.
Proof. destruct c; vm_compute; split; discriminate. Qed.
Lemma plain_not_lf c : negb (negb (escapedLUT c =? 0) && negb (bz c =? 46 - 42)) = true -> u8 (bz c + 42) <> LF.
Proof. destruct c; vm_compute; discriminate. Qed.
Lemma plain_start c : escapedLUT c =? 0 = true ->
  let u := u8 (bz c + 42) in u <> LF /\ u <> TAB /\ u <> SP /\ (if 214 <=? bz c then VT else LF) = lf_or_vt u.
Proof. destruct c; vm_compute; intro E; try discriminate E; repeat split; discriminate. Qed.
Lemma esc_start c : escapedLUT c =? 0 = false -> let w := pack16 13 10 + 65536 * escapedLUT c in
  u8 w = CR /\ u8 (w / 256) = LF /\ u8 (w / 65536) = EQS /\ u8 (w / 16777216) <> LF.
Proof. destruct c; vm_compute; intro E; try discriminate E; repeat split; discriminate. Qed.
Lemma plain_stores B p c : escapedLUT c =? 0 = true -> exists x y,
  store32 B p (13 + 256 * 10 + 65536 * (bz c + 42)) = four B p CR LF (u8 (bz c + 42)) x /\
  o_store32 Big B p (o_pack32 Big 13 10 (bz c + 42) 0) = four B p CR (lf_or_vt (u8 (bz c + 42))) (u8 (bz c + 42)) y.
Proof.
  intro E. destruct (eol_plain c E) as (_ & K2 & K3). destruct (plain_start c E) as (_ & _ & _ & P). rewrite P in K3. revert K2 K3.
  generalize (13 + 256 * 10 + 65536 * (bz c + 42)), (lf_or_vt (u8 (bz c + 42))). intros w l.
  generalize (u8 (bz c + 42)). intro u. generalize (o_pack32 Big 13 10 (bz c + 42) 0). intros v K2 K3.
  unfold b4 in K2, K3. cbn [rev app firstn] in K2, K3. injection K2 as W1 W2 W3. injection K3 as V1 V2 V3.
  unfold store32, o_store32, four. rewrite W1, W2, W3, V1, V2, V3. do 2 eexists. auto.
Qed.

Section Exact.
Variables (B : bufs) (src len : Z).
Hypothesis (H3 : src + len <= wlo B \/ whi B <= src).
Let es := src + len.

(** The two texts up to p: the second has lost exactly the line feeds in front of bytes below 42. *)
Record X (p : Z) (m mb : mem) : Prop := {
  x_out : forall a, ~ (wlo B <= a < whi B) -> m a = mb a;
  x_txt : forall a, wlo B <= a < p -> (m a <> LF /\ mb a = m a) \/
    (m a = LF /\ a + 1 < p /\ mb a = lf_or_vt (m (a + 1)) /\ m (a + 1) <> TAB /\ m (a + 1) <> SP) }.
Definition st := (option Z * Z)%type.
Definition XX (s : st) (m mb : mem) : Prop := X (snd s) m mb /\ match fst s with Some q => q <= snd s /\ X q m mb | None => True end.

Definition xsim {A} (s : st) (x y : M A) (pf : A -> st) (Q : A -> Prop) : Prop :=
  forall m mb, XX s m mb -> forall a m', x m = Ok (a, m') -> Q a /\ exists mb', y mb = Ok (a, mb') /\ XX (pf a) m' mb'.

Lemma x_pre {A} s s' (x y : M A) pf Q : (forall m mb, XX s m mb -> XX s' m mb) -> xsim s' x y pf Q -> xsim s x y pf Q.
Proof. intros K S m mb HX. apply S, K, HX. Qed.
Lemma x_ret {A} s (a : A) pf (Q : A -> Prop) : pf a = s -> Q a -> xsim s (ret a) (ret a) pf Q.
Proof. intros E HQ m mb HX a' m' K. injection K as <- <-. split; [exact HQ|]. exists mb. rewrite E. auto. Qed.
Lemma x_bind {A C} s (x y : M A) (f g : A -> M C) pf Q pf' Q' : xsim s x y pf Q -> (forall a, Q a -> xsim (pf a) (f a) (g a) pf' Q') ->
  xsim s (bind x f) (bind y g) pf' Q'.
Proof.
  intros S K m mb HX a m' E. unfold bind in *. destruct (x m) as [[b m1]| |] eqn:Ex; try discriminate.
  destruct (S m mb HX b m1 Ex) as (HQ & mb1 & Ey & HX1). rewrite Ey. exact (K b HQ m1 mb1 HX1 a m' E).
Qed.
Lemma x_weak {A} s (x y : M A) pf Q (Q' : A -> Prop) : xsim s x y pf Q -> (forall a, Q a -> Q' a) -> xsim s x y pf Q'.
Proof. intros S K m mb HX a m' E. destruct (S m mb HX a m' E). auto. Qed.
Lemma x_load s a : src <= a < es -> xsim s (load B a) (load B a) (fun _ => s) (fun _ => True).
Proof.
  intros Ha m mb HX c m' E. unfold load in *. destruct (can_read B a) eqn:C; [|discriminate]. injection E as <- <-. split; [exact I|].
  exists mb. destruct HX as [HX HS]. rewrite (x_out _ _ _ HX a) by (unfold es in *; lia). split; [reflexivity|split; auto].
Qed.
Lemma x_chk s z : xsim s (chk_int z) (chk_int z) (fun _ => s) (fun r => r = z).
Proof. intros m mb HX c m' E. unfold chk_int in *. destruct (in_int z); [|discriminate]. injection E as <- <-. eauto. Qed.

(** A store in the window, not below q. *)
Lemma X_above q a b c m mb : can_write B a = true -> q <= a -> X q m mb -> X q (upd m a b) (upd mb a c).
Proof.
  intros C Ha [O T]. unfold can_write in C. constructor.
  - intros z Hz. unfold upd. destruct (z =? a) eqn:F; [lia|]. apply O, Hz.
  - intros z Hz. unfold upd. destruct (z =? a) eqn:F; [lia|]. destruct (T z Hz) as [K|(K1 & K2 & K)]; [left; exact K|].
    destruct (z + 1 =? a) eqn:G; [lia|]. right. auto.
Qed.
Lemma X_next p b m mb : can_write B p = true -> b <> LF -> X p m mb -> X (p + 1) (upd m p b) (upd mb p b).
Proof.
  intros C Hb HX. destruct (X_above p p b b m mb C ltac:(lia) HX) as [O T]. constructor; [exact O|].
  intros z Hz. destruct (Z.eq_dec z p) as [->|].
  - left. unfold upd. rewrite Z.eqb_refl. auto.
  - destruct (T z ltac:(lia)) as [K|(K1 & K2 & K)]; [left; exact K|right; split; [exact K1|split; [lia|exact K]]].
Qed.
Lemma X_break p u m mb : can_write B p = true -> can_write B (p + 1) = true -> can_write B (p + 2) = true ->
  u <> LF -> u <> TAB -> u <> SP -> X p m mb ->
  X (p + 3) (upd (upd (upd m p CR) (p + 1) LF) (p + 2) u) (upd (upd (upd mb p CR) (p + 1) (lf_or_vt u)) (p + 2) u).
Proof.
  intros C0 C1 C2 U1 U2 U3 HX.
  pose proof (X_above p (p + 2) u u _ _ C2 ltac:(lia) (X_above p (p + 1) LF (lf_or_vt u) _ _ C1 ltac:(lia) (X_above p p CR CR m mb C0 ltac:(lia) HX))) as [O T].
  constructor; [exact O|]. intros z Hz.
  assert (D : z < p \/ z = p \/ z = p + 1 \/ z = p + 2) by lia. destruct D as [D|[-> |[-> | ->]]].
  - destruct (T z ltac:(lia)) as [K|(K1 & K2 & K)]; [left; exact K|right; split; [exact K1|split; [lia|exact K]]].
  - left. unfold upd. replace (p =? p + 2) with false by lia. replace (p =? p + 1) with false by lia. rewrite Z.eqb_refl. split; [discriminate|reflexivity].
  - right. unfold upd. replace (p + 1 + 1) with (p + 2) by lia. rewrite !Z.eqb_refl. replace (p + 1 =? p + 2) with false by lia.
    split; [reflexivity|]. split; [lia|]. auto.
  - left. unfold upd. rewrite Z.eqb_refl. auto.
Qed.

Lemma x_next q p b : b <> LF -> xsim (q, p) (store B p b) (store B p b) (fun _ => (q, p + 1)) (fun _ => True).
Proof.
  intros Hb m mb [HX HS] [] m' E. unfold store in *. destruct (can_write B p) eqn:C; [|discriminate]. injection E as <-. split; [exact I|].
  eexists. split; [reflexivity|]. cbn [fst snd] in *. split; cbn [fst snd]; [apply X_next; auto|]. destruct q as [q|]; [|exact I].
  destruct HS. split; [lia|]. apply X_above; auto.
Qed.
Lemma x_four q p u x y : u <> LF -> u <> TAB -> u <> SP ->
  xsim (q, p) (four B p CR LF u x) (four B p CR (lf_or_vt u) u y) (fun _ => (q, p + 3)) (fun _ => True).
Proof.
  intros U1 U2 U3 m mb [HX HS] [] m' E. unfold four, bind, store in *.
  destruct (can_write B p) eqn:C0; [|discriminate]. destruct (can_write B (p + 1)) eqn:C1; [|discriminate].
  destruct (can_write B (p + 2)) eqn:C2; [|discriminate]. destruct (can_write B (p + 3)) eqn:C3; [|discriminate]. injection E as <-.
  split; [exact I|]. eexists. split; [reflexivity|]. cbn [fst snd] in *. split; cbn [fst snd].
  - apply X_above; [exact C3|lia|]. apply X_break; auto.
  - destruct q as [q|]; [|exact I]. destruct HS as [Hq HS]. split; [lia|]. repeat (apply X_above; [assumption|lia|]). exact HS.
Qed.
Lemma lf_or_vt_eqs : lf_or_vt EQS = LF. Proof. vm_compute. reflexivity. Qed.
Lemma x_esc4 q p u : u <> LF ->
  xsim (q, p) (store B p CR ;;; store B (p + 1) LF ;;; store B (p + 2) EQS ;;; store B (p + 3) u)
    (store B p CR ;;; store B (p + 1) LF ;;; store B (p + 2) EQS ;;; store B (p + 3) u) (fun _ => (q, p + 4)) (fun _ => True).
Proof.
  intros U m mb [HX HS] [] m' E. unfold bind, store in *.
  destruct (can_write B p) eqn:C0; [|discriminate]. destruct (can_write B (p + 1)) eqn:C1; [|discriminate].
  destruct (can_write B (p + 2)) eqn:C2; [|discriminate]. destruct (can_write B (p + 3)) eqn:C3; [|discriminate]. injection E as <-.
  split; [exact I|]. eexists. split; [reflexivity|]. cbn [fst snd] in *. split; cbn [fst snd].
  - replace (p + 4) with (p + 3 + 1) by lia. apply X_next; auto.
    pose proof (X_break p EQS m mb C0 C1 C2 ltac:(discriminate) ltac:(discriminate) ltac:(discriminate) HX) as K. rewrite lf_or_vt_eqs in K. exact K.
  - destruct q as [q|]; [|exact I]. destruct HS as [Hq HS]. split; [lia|]. repeat (apply X_above; [assumption|lia|]). exact HS.
Qed.

Lemma x_esc q p c : xsim (q, p) (store16 B p (escapedLUT c)) (o_store16 Big B p (o_escapedLUT Big c)) (fun _ => (q, p + 2)) (fun _ => True).
Proof.
  rewrite esc_store. unfold store16. replace (p + 2) with (p + 1 + 1) by lia. destruct (escaped_not_lf c).
  eapply x_bind; [apply x_next; assumption|]. intros ? _. cbv beta. apply x_next. assumption.
Qed.

Lemma x_first q p i : - len <= i < 0 -> xsim (q, p) (enc_first B es i p) (o_first Big B es i p) (fun '(_, p, _) => (q, p)) (fun '(i', _, _) => i' = i + 1).
Proof.
  intro Hi. unfold enc_first, o_first. eapply x_bind; [apply x_load; unfold es; lia|]. intros c _. cbv beta. rewrite esc_zero.
  destruct (escapedLUT c =? 0) eqn:E; cbn [negb].
  - eapply x_bind; [apply x_next; apply (plain_start c E)|]. intros ? _. apply x_ret; auto.
  - eapply x_bind; [apply x_esc|]. intros ? _. apply x_ret; auto.
Qed.

Lemma x_thing q p i n : - len <= i + n < 0 -> xsim (q, p) (do_thing B es i n p) (o_thing Big B es i n p) (fun p => (q, p)) (fun p' => p <= p').
Proof.
  intro Hi. unfold do_thing, o_thing. eapply x_bind; [apply x_load; unfold es; lia|]. intros c _. cbv beta.
  destruct (negb _).
  - eapply x_bind; [apply x_next; apply lut_not_lf|]. intros ? _. apply x_ret; [reflexivity|lia].
  - eapply x_bind; [apply x_esc|]. intros ? _. apply x_ret; [reflexivity|lia].
Qed.

Lemma x_block8 q p i : - len <= i < -8 -> xsim (q, p) (enc_block8 B es i p) (o_block8 Big B es i p) (fun p => (q, p)) (fun p' => p <= p').
Proof.
  intro Hi. unfold enc_block8, o_block8.
  do 7 (eapply x_bind; [apply x_thing; lia|]; intros ? ?; cbv beta).
  cbv beta in *. eapply x_weak; [apply x_thing; lia|]. cbv beta. intros. lia.
Qed.

Lemma x_unrolled L i0 f : forall i p col sp, - len <= i0 <= i -> i < 0 -> match sp with Some s => i0 + 8 <= i | None => True end ->
  xsim (sp, p) (enc_unrolled f B es L i p col sp) (o_unrolled Big f B es L i p col sp) (fun '(_, p, _, sp) => (sp, p))
    (fun '(i', p', _, sp') => i0 <= i' < 0 /\ match sp' with Some s => i0 + 8 <= i' | None => True end).
Proof.
  induction f as [|f IH]; intros i p col sp Hi Hn Hs; cbn [enc_unrolled o_unrolled]; [intros m mb _ a m' E; discriminate|].
  eapply x_bind; [apply x_chk|]. intros t1 _. cbv beta. eapply x_bind; [apply x_chk|]. intros room _. cbv beta.
  destruct ((i <? -1 - 8) && (8 <? room))%bool eqn:E.
  - cbv zeta. apply (x_pre _ (Some p, p)).
    { intros m mb [HX _]. cbn [fst snd] in *. split; cbn [fst snd]; [exact HX|]. split; [lia|exact HX]. }
    eapply x_bind; [apply x_block8; lia|]. intros p1 Hp. cbv beta. eapply x_bind; [apply x_chk|]. intros c1 _. cbv beta in *.
    apply IH; lia.
  - apply x_ret; [reflexivity|]. split; [lia|exact Hs].
Qed.

Lemma x_rest q L f : forall i p col, - len <= i < 0 ->
  xsim (q, p) (enc_rest f B es L i p col) (o_rest Big f B es L i p col) (fun '(_, p, _, _) => (q, p)) (fun '(i', _, _, ended) => i <= i' /\ (ended = false -> i' < 0)).
Proof.
  induction f as [|f IH]; intros i p col Hi; cbn [enc_rest o_rest]; [intros m mb _ a m' E; discriminate|].
  eapply x_bind; [apply x_chk|]. intros last _. cbv beta. destruct (col <? last); [|apply x_ret; [reflexivity|lia]].
  eapply x_bind; [apply x_load; unfold es; lia|]. intros c _. cbv beta.
  eapply x_bind with (pf := fun '(p, _) => (q, p)) (Q := fun _ => True).
  { destruct (negb _).
    - eapply x_bind; [apply x_next; apply lut_not_lf|]. intros ? _. cbv beta. eapply x_bind; [apply x_chk|]. intros c1 _. apply x_ret; auto.
    - eapply x_bind; [apply x_esc|]. intros ? _. cbv beta. eapply x_bind; [apply x_chk|]. intros c1 _. apply x_ret; auto. }
  intros [p1 c1] _. cbv beta iota. destruct (0 <=? i + 1) eqn:E; [apply x_ret; [reflexivity|]; split; [lia|discriminate]|].
  eapply x_weak; [apply IH; lia|]. intros [[[i' p'] c'] e'] [Ha Hb]. split; [lia|exact Hb].
Qed.

Lemma x_last q L i p col : - len <= i < 0 ->
  xsim (q, p) (enc_last B es L i p col) (o_last Big B es L i p col) (fun '(_, p) => (q, p)) (fun '(i', _) => i <= i').
Proof.
  intro Hi. unfold enc_last, o_last. destruct (col <? L); [|apply x_ret; [reflexivity|lia]].
  eapply x_bind; [apply x_load; unfold es; lia|]. intros c _. cbv beta. rewrite esc_zero.
  pose proof (plain_not_lf c) as N. destruct (_ && _)%bool.
  - eapply x_bind; [apply x_esc|]. intros ? _. apply x_ret; [reflexivity|lia].
  - eapply x_bind; [apply x_next; apply N; reflexivity|]. intros ? _. apply x_ret; [reflexivity|lia].
Qed.

Lemma x_eol q c p : xsim (q, p) (enc_eol B c p) (o_eol Big B c p) (fun '(p, _) => (q, p)) (fun _ => True).
Proof.
  unfold enc_eol, o_eol. rewrite esc_zero. destruct (escapedLUT c =? 0) eqn:E; cbn [negb].
  - destruct (plain_stores B p c E) as (x & y & -> & ->). destruct (plain_start c E) as (U1 & U2 & U3 & _).
    eapply x_bind; [apply x_four; assumption|]. intros ? _. apply x_ret; auto.
  - rewrite eol_esc_store by exact E. unfold store32. destruct (esc_start c E) as (-> & -> & -> & U).
    eapply x_bind; [apply x_esc4; exact U|]. intros ? _. apply x_ret; auto.
Qed.

Lemma x_lines L f : forall i p col, - len <= i ->
  xsim (None, p) (enc_lines f B es L i p col) (o_lines Big f B es L i p col) (fun '(p, _) => (None, p)) (fun _ => True).
Proof.
  induction f as [|f IH]; intros i p col Hi; cbn [enc_lines o_lines]; [intros m mb _ a m' E; discriminate|].
  destruct (i <? 0) eqn:E; [|apply x_ret; auto].
  eapply x_bind; [apply (x_unrolled L i); auto; lia|]. intros [[[i1 p1] c1] sp] [Hi1 Hsp]. cbv beta iota.
  eapply x_bind with (pf := fun '(_, p, _) => (None, p)) (Q := fun '(i', _, _) => i <= i' < 0).
  { destruct sp as [s|]; [|apply x_ret; [reflexivity|lia]]. destruct (L - 1 <=? c1).
    - eapply x_bind; [apply x_chk|]. intros c2 _. cbv beta. apply (x_pre _ (None, s)).
      { intros m mb [_ [_ HX]]. split; [exact HX|exact I]. }
      apply x_ret; [reflexivity|lia].
    - apply (x_pre _ (None, p1)). { intros m mb [HX _]. split; [exact HX|exact I]. }
      apply x_ret; [reflexivity|lia]. }
  intros [[i2 p2] c2] Hi2. cbv beta iota. eapply x_bind; [apply x_rest; lia|]. intros [[[i3 p3] c3] ended] [Hi3 He]. cbv beta iota.
  destruct ended; [apply x_ret; auto|]. specialize (He eq_refl).
  eapply x_bind; [apply x_last; lia|]. intros [i4 p4] Hi4. cbv beta iota. destruct (0 <=? i4) eqn:E4; [apply x_ret; auto|].
  eapply x_bind; [apply x_load; unfold es; lia|]. intros c _. cbv beta.
  eapply x_bind; [apply x_eol|]. intros [p5 c5] _. cbv beta iota. apply IH. lia.
Qed.

Lemma x_end fin p col : xsim (None, p) (enc_end B fin p col) (enc_end B fin p col) (fun '(p, _) => (None, p)) (fun _ => True).
Proof.
  unfold enc_end. destruct fin; [|apply x_ret; auto].
  intros m mb [HX _] a m' E. cbn [fst snd] in *. unfold bind in E. unfold bind at 1. unfold load in *. destruct (can_read B (p - 1)); [|discriminate]. cbn beta iota in *.
  assert (K : m (p - 1) = mb (p - 1)).
  { assert (D : wlo B <= p - 1 < whi B \/ ~ (wlo B <= p - 1 < whi B)) by lia.
    destruct D as [D|D]; [|exact (x_out _ _ _ HX _ D)].
    destruct (x_txt _ _ _ HX (p - 1) ltac:(lia)) as [[_ F]|(_ & F & _)]; [auto|lia]. }
  rewrite <- K. destruct (_ || _)%bool eqn:W.
  - unfold bind, store, chk_int in *. destruct (can_write B (p - 1)) eqn:C1; [|discriminate]. destruct (can_write B p) eqn:C0; [|discriminate].
    destruct (in_int (col + 1)); [|discriminate]. injection E as <- <-. split; [exact I|]. eexists. split; [reflexivity|]. split; cbn [fst snd]; [|exact I].
    apply X_next; [exact C0| |].
    { apply orb_prop in W. revert W. destruct (m (p - 1)); vm_compute; intros [W|W]; discriminate. }
    pose proof C1 as C1'. unfold can_write in C1'. destruct HX as [O T]. constructor.
    + intros z Hz. unfold upd. destruct (z =? p - 1) eqn:F; [lia|]. apply O, Hz.
    + intros z Hz. unfold upd. destruct (z =? p - 1) eqn:F; [left; split; [discriminate|reflexivity]|].
      destruct (T z Hz) as [Y|(Y1 & Y2 & Y3 & Y4 & Y5)]; [left; exact Y|]. right. split; [exact Y1|]. split; [exact Y2|].
      destruct (z + 1 =? p - 1) eqn:G; [|auto]. exfalso. replace (z + 1) with (p - 1) in Y4, Y5 by lia.
      apply orb_prop in W. revert W Y4 Y5. destruct (m (p - 1)); vm_compute; intros [W|W] A1 A2; try discriminate; congruence.
  - injection E as <- <-. split; [exact I|]. exists mb. split; [reflexivity|]. split; [exact HX|exact I].
Qed.

Lemma x_generic L col dest fin : 0 < len ->
  forall m mb, X dest m mb -> forall n c m', do_encode_generic B L col src dest len fin m = Ok ((n, c), m') ->
  exists mb', o_encode_generic Big B L col src dest len fin mb = Ok ((n, c), mb') /\ X (dest + n) m' mb'.
Proof.
  intros Hl m mb HX n c m' E.
  assert (S : xsim (None, dest) (do_encode_generic B L col src dest len fin) (o_encode_generic Big B L col src dest len fin) (fun '(n, _) => (None, dest + n)) (fun _ => True)).
  { unfold do_encode_generic, o_encode_generic. fold es.
    eapply x_bind with (pf := fun '(_, p, _) => (None, p)) (Q := fun '(i, _, _) => - len <= i).
    { destruct (col =? 0); [|apply x_ret; [reflexivity|lia]]. eapply x_weak; [apply x_first; lia|]. intros [[i p] c1] K. lia. }
    intros [[i p] c1] Hi. cbv beta iota. eapply x_bind; [apply x_lines; exact Hi|]. intros [p1 c2] _. cbv beta iota.
    eapply x_bind; [apply x_end|]. intros [p2 c3] _. cbv beta iota. apply x_ret; auto. f_equal. lia. }
  destruct (S m mb (conj HX I) (n, c) m' E) as (_ & mb' & E' & HX' & _). eauto.
Qed.
End Exact.

Lemma bz_lf x : (bz x =? 10) = true -> x = LF.
Proof. destruct x; vm_compute; intro E; try discriminate E; reflexivity. Qed.

Lemma with_vt_at B p m mb s : forall a, wlo B <= a -> a + zlen s = p -> bytes_at m a s -> X B p m mb -> bytes_at mb a (with_vt s).
Proof.
  induction s as [|x s IH]; intros a Ha Hp Hm HX; [exact I|]. destruct Hm as [Hx Hm]. rewrite zlen_cons in Hp. pose proof (zlen_nonneg s).
  specialize (IH (a + 1) ltac:(lia) ltac:(lia) Hm HX). destruct (x_txt _ _ _ _ HX a ltac:(lia)) as [[N E]|(N & Q & E & _)]; rewrite Hx in N, E || rewrite Hx in N.
  - destruct s as [|y s]; [split; [exact E|exact I]|]. change (with_vt (x :: y :: s)) with ((if (bz x =? 10) && (bz y <? 42) then x0b else x) :: with_vt (y :: s))%bool. destruct (bz x =? 10) eqn:F; [apply bz_lf in F; congruence|].
    split; [exact E|exact IH].
  - destruct s as [|y s]; [cbn in Hp; lia|]. change (with_vt (x :: y :: s)) with ((if (bz x =? 10) && (bz y <? 42) then x0b else x) :: with_vt (y :: s))%bool. destruct Hm as [Hy _]. rewrite Hy in E. subst x. cbn [andb].
    split; [|exact IH]. rewrite E, N. reflexivity.
Qed.

Lemma big_exact B L fin col src dest data m :
  rlo B = src -> rhi B = src + zlen data -> wlo B = dest -> (rhi B <= wlo B \/ whi B <= rlo B) ->
  data <> [] -> bytes_at m src data -> 1 <= L <= INT_MAX -> 0 <= col < L -> in_range L col data ->
  dest + zlen (yenc L fin col data) + 32 <= whi B ->
  exists m', o_encode_generic Big B L col src dest (zlen data) fin m = Ok ((zlen (yenc L fin col data), ret_col L fin col data), m') /\
    bytes_at m' dest (with_vt (yenc L fin col data)).
Proof.
  intros H1 H2 H3 H4 Hd Hm HL Hc Hr Hw.
  destruct (generic_meets B L fin col src dest data m H1 H2 H3 H4 Hd Hm HL Hc Hr Hw) as (m1 & R1 & Q1).
  assert (Hp : 0 < zlen data) by (destruct data; [congruence|]; rewrite zlen_cons; pose proof (zlen_nonneg data); lia).
  assert (X0 : X B dest m m) by (constructor; [auto|intros; lia]).
  destruct (x_generic B src (zlen data) ltac:(lia) L col dest fin Hp m m X0 _ _ _ R1) as (m2 & R2 & Q2).
  exists m2. split; [exact R2|]. apply (with_vt_at B (dest + zlen (yenc L fin col data)) m1); auto; lia.
Qed.
