(** Facts about a block of characters and what follows it, used by all kernels. *)
From Verif Require Import Base BaseLemmas EncSpec DecSpec DecModel DecProofs DecMaskSpec DecMaskModel DecMaskProofs
  DecSimdModel DecSimdSpec DecVec DecKernelModel DecBlock DecKernel DecVecProofs.
From Coq Require Import ZifyBool ZifyNat ZifyN.
Ltac Zify.zify_post_hook ::= Z.div_mod_to_equations.

(** ** Two characters *)

Lemma dot_next_cases s t : dot_next s t = 0 \/ dot_next s t = 1 \/ dot_next s t = 2.
Proof.
  destruct s; cbn [dot_next]; auto.
  - destruct t; auto. destruct (beq b DOT); auto.
  - destruct t as [|c [|d t]]; auto. destruct (beq c LF && beq d DOT); auto.
Qed.

Lemma dot_next_1 s t : dot_next s t = 1 -> exists r, t = DOT :: r.
Proof.
  destruct s; cbn [dot_next]; try discriminate.
  - destruct t as [|c r]; [discriminate|]. destruct (beq_spec c DOT) as [->|]; [eauto|discriminate].
  - destruct t as [|c [|d t]]; try discriminate. destruct (beq c LF && beq d DOT); discriminate.
Qed.

Lemma dot_next_2 s t : dot_next s t = 2 -> exists r, t = LF :: DOT :: r.
Proof.
  destruct s; cbn [dot_next]; try discriminate.
  - destruct t as [|c r]; [discriminate|]. destruct (beq c DOT); discriminate.
  - destruct t as [|c [|d t]]; try discriminate. destruct (beq_spec c LF) as [->|]; [|discriminate].
    destruct (beq_spec d DOT) as [->|]; [eauto|discriminate].
Qed.

Lemma nldot_excl u v t : nldot (u :: v :: t) = true -> nldot (v :: t) = false.
Proof.
  unfold nldot, at_. cbn [nth_error]. destruct (beq_spec v LF) as [->|]; [intros _; reflexivity|].
  rewrite andb_false_r. discriminate.
Qed.

Lemma kills_split s n t : simple_state s -> (2 <= n)%nat ->
  flags nldot n (pre s ++ t) = (dot_next s t =? 1) :: (dot_next s t =? 2) :: flags nldot (n - 2) t.
Proof.
  intros Hs Hn. destruct (pre_ctx s Hs) as (u & v & -> & Hc). rewrite (dot_next_ctx _ _ _ _ Hc).
  destruct n as [|[|n]]; try lia. replace (S (S n) - 2)%nat with n by lia. cbn [app flags tl].
  destruct (nldot (u :: v :: t)) eqn:E; [rewrite (nldot_excl _ _ _ E); reflexivity|].
  destruct (nldot (v :: t)); reflexivity.
Qed.

Lemma skipn_app_len {A} (l k : list A) n : length l = n -> skipn n (l ++ k) = k.
Proof. intros <-. rewrite skipn_app, skipn_all, Nat.sub_diag. reflexivity. Qed.

(** The flag left for the next block. *)
Lemma next_dot s l look o s1 n : simple_state s -> run_raw s l = (o, s1) -> length l = n -> (2 <= n)%nat ->
  dot_next s1 look = (if nldot (skipn (n - 2) (l ++ look)) then 1 else if nldot (skipn (n - 1) (l ++ look)) then 2 else 0) /\
  (nldot (skipn (n - 2) (l ++ look)) = true -> nldot (skipn (n - 1) (l ++ look)) = false).
Proof.
  intros Hs Hr Hl Hn. destruct (raw_block _ _ _ _ Hs Hr) as (_ & _ & u & v & Hc & x & Hx).
  assert (Hdd : exists y, l = y ++ [u; v]).
  { exists (skipn 2 x). destruct (pre_ctx s Hs) as (a & b & Hp & _). rewrite Hp in Hx.
    destruct x as [|x0 [|x1 x]]; cbn [app] in Hx; injection Hx as _ _ Hx; subst l; cbn in Hl; try lia. reflexivity. }
  destruct Hdd as [y ->]. rewrite app_length in Hl. cbn [length] in Hl.
  rewrite (dot_next_ctx _ _ _ _ Hc). rewrite <- app_assoc. cbn [app].
  rewrite (skipn_app_len y) by lia. replace (u :: v :: look) with ([u] ++ v :: look) by reflexivity.
  rewrite app_assoc. rewrite (skipn_app_len (y ++ [u])) by (rewrite app_length; cbn; lia).
  cbn [app]. split; [reflexivity|]. apply nldot_excl.
Qed.

(** ** End markers *)

Definition endf (t : list byte) : bool :=
  (nldot t && ((at_ 3 CR t && at_ 4 LF t) || (at_ 3 EQS t && at_ 4 YY t))) || (crlf t && (at_ 2 EQS t && at_ 3 YY t)).

Lemma at_true k c t : at_ k c t = true <-> nth_error t k = Some c.
Proof.
  unfold at_. destruct (nth_error t k) as [x|]; [|split; discriminate].
  rewrite beq_true. split; congruence.
Qed.

Lemma endf_marker t : marker_at t <-> endf t = true.
Proof.
  unfold marker_at, endf, nldot, crlf, starts_with. split.
  - intros [[r ->]|[[r ->]|[r ->]]]; reflexivity.
  - rewrite !orb_true_iff, !andb_true_iff, !orb_true_iff, !andb_true_iff, !at_true.
    intros [[[[H0 H1] H2] [[H3 H4]|[H3 H4]]]|[[H0 H1] [H2 H3]]];
      (destruct t as [|c0 t]; [discriminate|]; destruct t as [|c1 t]; [discriminate|]; destruct t as [|c2 t]; [discriminate|];
       destruct t as [|c3 t]; [discriminate|]).
    + destruct t as [|c4 t]; [discriminate|]. cbn in *. injection H0 as ->. injection H1 as ->. injection H2 as ->. injection H3 as ->. injection H4 as ->.
      right. right. exists t. reflexivity.
    + destruct t as [|c4 t]; [discriminate|]. cbn in *. injection H0 as ->. injection H1 as ->. injection H2 as ->. injection H3 as ->. injection H4 as ->.
      right. left. exists t. reflexivity.
    + cbn in *. injection H0 as ->. injection H1 as ->. injection H2 as ->. injection H3 as ->.
      left. exists t. reflexivity.
Qed.

Lemma no_end_flags n t : existsb id (flags endf n t) = false -> no_marker_in (Z.of_nat n) t.
Proof.
  intros H a b -> Ha Hm. apply endf_marker in Hm. unfold zlen in Ha.
  enough (existsb id (flags endf n (a ++ b)) = true) by congruence.
  apply any_flags. exists (length a). split; [lia|]. rewrite skipn_app_len by reflexivity. exact Hm.
Qed.

(** ** Blocks without line ends *)

Lemma end_flags n t : existsb id (flags endf n t) = true -> marker_in (Z.of_nat n) t.
Proof.
  intro H. apply any_flags in H as (j & Hj & H). apply endf_marker in H.
  exists (firstn j t), (skipn j t). rewrite firstn_skipn. split; [reflexivity|]. split; [|exact H].
  unfold zlen. rewrite firstn_length. lia.
Qed.

Lemma flags_none f n t : (forall j, (j < n)%nat -> f (skipn j t) = false) -> flags f n t = repeat false n.
Proof.
  intro H. transitivity (flags (fun _ => false) n t); [apply flags_ext; exact H|].
  revert t H. clear. intros t _. revert t. induction n as [|n IH]; intro t; [reflexivity|]. cbn [flags repeat]. rewrite IH. reflexivity.
Qed.

Lemma flags_none_inv f n t : existsb id (flags f n t) = false -> flags f n t = repeat false n.
Proof.
  intro H. apply flags_none. intros j Hj. destruct (f (skipn j t)) eqn:E; [|reflexivity].
  enough (existsb id (flags f n t) = true) by congruence. apply any_flags. eauto.
Qed.

Lemma flags_weaken f g n t : (forall l, f l = true -> g l = true) ->
  flags g n t = repeat false n -> flags f n t = repeat false n.
Proof.
  intros Hfg H. apply flags_none. intros j Hj. destruct (f (skipn j t)) eqn:E; [|reflexivity]. apply Hfg in E.
  rewrite <- (flags_nth g n t j Hj), H, nth_repeat in E. discriminate.
Qed.

Lemma at_skipn k c t : at_ 0 c (skipn k t) = at_ k c t.
Proof. unfold at_. rewrite nth_error_skip. reflexivity. Qed.

Lemma flags_at0 c l look n : length l = n -> flags (at_ 0 c) n (l ++ look) = map (fun x => beq x c) l.
Proof.
  intros <-. induction l as [|x l IH]; [reflexivity|]. cbn [length app flags tl map]. rewrite IH. reflexivity.
Qed.

Lemma flags_map f g l look n : length l = n -> (forall c t, f (c :: t) = g c) -> flags f n (l ++ look) = map g l.
Proof.
  intros <- H. induction l as [|x l IH]; [reflexivity|]. cbn [length app flags tl map]. rewrite IH, H. reflexivity.
Qed.

Lemma special_eq c : special c = is_eq c -> is_nl c = false.
Proof.
  unfold special. destruct (is_nl c) eqn:E; [|reflexivity]. cbn [orb]. intro H. symmetry in H. apply beq_true in H. subst c. discriminate E.
Qed.

(** No CR in the block: nothing to be found. *)
Lemma quiet l look n : length l = n -> Forall (fun c => is_nl c = false) l ->
  flags (at_ 0 CR) n (l ++ look) = repeat false n.
Proof.
  intros Hl Hf. rewrite (flags_at0 CR l look n Hl). subst n. induction Hf as [|c l Hc Hf IH]; [reflexivity|].
  cbn [map length repeat]. rewrite IH. unfold is_nl in Hc. apply orb_false_elim in Hc as [-> _]. reflexivity.
Qed.

Lemma nldot_cr t : nldot t = true -> at_ 0 CR t = true.
Proof. unfold nldot. rewrite !andb_true_iff. tauto. Qed.
Lemma endf_cr t : endf t = true -> at_ 0 CR t = true.
Proof. unfold endf, nldot, crlf. rewrite !orb_true_iff, !andb_true_iff. tauto. Qed.

(** The mask before the dots within the block are looked at: special characters
    and the dot left from the block before. *)
Definition early (nxt : Z) (n : nat) : list bool := (nxt =? 1) :: (nxt =? 2) :: repeat false (n - 2).

Lemma early_len nxt n : (2 <= n)%nat -> length (early nxt n) = n.
Proof. intro H. unfold early. cbn [length]. rewrite repeat_length. lia. Qed.

Lemma early_eqs nxt l n t : length l = n -> (2 <= n)%nat ->
  (nxt = 1 -> exists r, l ++ t = DOT :: r) -> (nxt = 2 -> exists r, l ++ t = LF :: DOT :: r) ->
  (nxt = 0 \/ nxt = 1 \/ nxt = 2) ->
  map2 orb (map special l) (early nxt n) = map is_eq l -> nxt = 0 /\ Forall (fun c => is_nl c = false) l.
Proof.
  intros Hl Hn H1 H2 H0 E. unfold early in E. destruct l as [|c [|d l]]; cbn [length] in Hl; try lia.
  cbn [map map2] in E. injection E as E1 E2 E3.
  assert (nxt = 0).
  { destruct H0 as [|[->| ->]]; [assumption| |].
    - destruct (H1 eq_refl) as [r Hr]. injection Hr as -> _. discriminate E1.
    - destruct (H2 eq_refl) as [r Hr]. injection Hr as _ -> _. discriminate E2. }
  subst nxt. cbn [Z.eqb] in *. rewrite orb_false_r in *. split; [reflexivity|].
  constructor; [apply special_eq; exact E1|]. constructor; [apply special_eq; exact E2|].
  replace (n - 2)%nat with (length l) in E3 by lia. clear - E3. induction l as [|c l IH]; [constructor|].
  cbn [map length repeat map2] in E3. injection E3 as Ea Eb. rewrite orb_false_r in Ea. constructor; [apply special_eq; exact Ea|auto].
Qed.

Lemma orb_repeat l : map2 orb l (repeat false (length l)) = l.
Proof. induction l as [|b l IH]; [reflexivity|]. cbn [length repeat map2]. rewrite IH, orb_false_r. reflexivity. Qed.

(** Every '=' is among the characters looked at. *)
Lemma eqs_special l k : length k = length l ->
  Forall2 (fun e s : bool => e = true -> s = true) (map is_eq l) (map2 orb (map special l) k).
Proof.
  revert k; induction l as [|c l IH]; intros [|b k] H; cbn in H; try lia; cbn [map map2]; constructor; [|apply IH; lia].
  unfold special. intros ->. rewrite orb_true_r. reflexivity.
Qed.

Lemma mask_false n : mask_of (repeat false n) = 0%N.
Proof. induction n as [|n IH]; [reflexivity|]. cbn [repeat mask_of]. rewrite IH. reflexivity. Qed.

(** [decoder_set_nextMask] at a break. *)
Lemma nextMask_fwd_ok B src l look s m : bytes_at m src (l ++ look) -> (2 <= length l)%nat ->
  rlo B <= src -> src + zlen (l ++ look) <= rhi B ->
  nextMask_fwd true B src (mask_of (map2 orb (map special l) (early (dot_next s (l ++ look)) (length l)))) m
  = Ok (dot_next s (l ++ look), m).
Proof.
  intros Hb Hl Hr1 Hr2. set (nxt := dot_next s (l ++ look)).
  pose proof (dot_next_1 s (l ++ look)) as H1. pose proof (dot_next_2 s (l ++ look)) as H2. pose proof (dot_next_cases s (l ++ look)) as H0.
  fold nxt in H0, H1, H2. clearbody nxt.
  destruct l as [|c [|d l]]; cbn [length] in Hl; try lia. cbn [app bytes_at] in Hb. destruct Hb as (Hc & Hd & _).
  cbn [app] in Hr2. autorewrite with zlen in Hr2. pose proof (zlen_nonneg l). pose proof (zlen_nonneg look).
  unfold nextMask_fwd. erewrite bind_ok by (apply loads_r; lia). rewrite Hc.
  unfold early. cbn [length Nat.sub map map2]. set (r := map2 orb _ (repeat false _)).
  assert (B1 : N.land (mask_of (special c || (nxt =? 1) :: special d || (nxt =? 2) :: r)) 1 = N.b2n (special c || (nxt =? 1))).
  { change 1%N with (N.ones (N.of_nat 1)). rewrite mask_low. cbn [firstn mask_of]. rewrite N.mul_0_r, N.add_0_r. reflexivity. }
  assert (B2 : N.land (mask_of (special c || (nxt =? 1) :: special d || (nxt =? 2) :: r)) 2 = N.mul 2 (N.b2n (special d || (nxt =? 2)))).
  { replace (N.land (mask_of (special c || (nxt =? 1) :: special d || (nxt =? 2) :: r)) 2)
      with (N.land (mask_of (special c || (nxt =? 1) :: special d || (nxt =? 2) :: r)) (mask_of (false :: true :: repeat false (length r))))
      by (cbn [mask_of]; rewrite mask_false; reflexivity).
    rewrite mask_and by (cbn [length]; rewrite repeat_length; reflexivity).
    cbn [map2 mask_of]. rewrite andb_false_r, andb_true_r.
    replace (mask_of (map2 andb r (repeat false (length r)))) with 0%N; [rewrite N.mul_0_r, N.add_0_r; reflexivity|].
    symmetry. apply mask_zero. clear.
    induction r as [|x r IH]; [reflexivity|]. cbn [length repeat map2 existsb]. rewrite andb_false_r. exact IH. }
  destruct (beq_spec c DOT) as [Ec|Ec].
  - rewrite B1. subst c. rewrite Ec. change (special DOT) with false. cbn [orb]. unfold ret. do 2 f_equal.
    destruct H0 as [->|[->| ->]]; try reflexivity. destruct (H2 eq_refl) as [q Hq]. rewrite Ec in Hq. discriminate Hq.
  - erewrite bind_ok by (apply loads_r; lia). rewrite Hd. destruct (beq_spec d DOT) as [Ed|Ed].
    + rewrite B2. subst d. rewrite Ed. change (special DOT) with false. cbn [orb]. unfold ret. do 2 f_equal.
      destruct H0 as [->|[->| ->]]; try reflexivity. destruct (H1 eq_refl) as [q Hq]. cbn [app] in Hq. injection Hq as Hq _. congruence.
    + unfold ret. do 2 f_equal. destruct H0 as [->|[->| ->]]; try reflexivity.
      * destruct (H1 eq_refl) as [q Hq]. cbn [app] in Hq. injection Hq as Hq _. congruence.
      * destruct (H2 eq_refl) as [q Hq]. cbn [app] in Hq. injection Hq as _ Hq _. congruence.
Qed.
