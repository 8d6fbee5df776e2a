(** minSize and maxSize as JavaScript computes them, with every operation rounded to binary64. *)
From Verif Require Import Base BaseLemmas EncSpec EncNode EncNodeSpec EncNodeProofs EncModel JsNum JsNumProofs EncIncr JsBuilds.
From Coq Require Import QArith.
Open Scope Z_scope.

(** C74: for all lengths of Buffers (below 2^50) and line sizes, rounding does not change the
    sizes: they are those of the integer formulas of C07 and C08. *)
Theorem c74_min_size_rounding : forall n L, 0 <= n < 2 ^ 51 -> 0 <= L < 2 ^ 53 ->
  (num_minSize (inject_Z n) (inject_Z L) == inject_Z (js_minSize n L))%Q.
Proof. exact num_min. Qed.
Print Assumptions c74_min_size_rounding.

Theorem c74_max_size_rounding : forall n L ratio, 0 <= n < 2 ^ 50 -> 0 <= L < 2 ^ 53 -> ratio = None \/ ratio = Some 1%Q ->
  exists s, num_maxSize (inject_Z n) (inject_Z L) ratio = Some s /\ (s == inject_Z (js_maxSize n L))%Q.
Proof. intros n L ratio Hn HL [->| ->]; [exact (num_max n L Hn HL)|exact (num_max1 n L Hn HL)]. Qed.
Print Assumptions c74_max_size_rounding.

(** In particular floor(a / b) with a rounded quotient is the integer quotient. *)
Theorem c74_floor_of_quotient : forall a b, 0 <= a < 2 ^ 53 -> 1 <= b < 2 ^ 53 ->
  Qround.Qfloor (js_div (inject_Z a) (inject_Z b)) = a / b.
Proof. intros a b Ha Hb. apply floor_div; try reflexivity; assumption. Qed.
Print Assumptions c74_floor_of_quotient.

(** The quotient is rounded: (3 * 2^50 - 1) / 3 is not a binary64 number.  From 2^53 on the
    floor may be too large. *)
Example c74_ex : ~ (js_div (inject_Z (3 * 2 ^ 50 - 1)) (inject_Z 3) == inject_Z (3 * 2 ^ 50 - 1) / inject_Z 3)%Q /\
  Qround.Qfloor (js_div (inject_Z (3 * 2 ^ 50 - 1)) (inject_Z 3)) = (3 * 2 ^ 50 - 1) / 3 /\
  Qround.Qfloor (js_div (inject_Z (3 * 2 ^ 53 - 1)) (inject_Z 3)) = (3 * 2 ^ 53 - 1) / 3 + 1.
Proof. split; [intro H; vm_compute in H; discriminate H|]. vm_compute. auto. Qed.

(** The rounding itself: 0.1 + 0.2 is not 0.3. *)
Example c74_rounding_ex : (js_add (fl (1 # 10)) (fl (2 # 10)) == 0.3000000000000000444089209850062616169452667236328125)%Q /\
  (fl (3 # 10) == 0.299999999999999988897769753748434595763683319091796875)%Q.
Proof. split; reflexivity. Qed.

(** C75: if no more than the given share of the characters is escaped ('=' occurs in the text only as
    escape character), maxSize with that share is an upper bound, with 62 bytes to spare. *)
Theorem c75_max_size_ratio : forall e data args L col ratio s, an_encoder e ->
  data <> [] -> args_give args L col -> in_range L col data -> zlen data < 2 ^ 50 ->
  num_maxSize (inject_Z (zlen data)) (inject_Z L) (Some ratio) = Some s ->
  exists o, encode_returns e data args o /\
    ((inject_Z (zlen (filter (beq EQS) o)) <= ratio * inject_Z (zlen data))%Q -> (inject_Z (zlen o + 62) <= s)%Q).
Proof.
  intros e data args L col ratio s E Hd Ha Hr Hn Hs. destruct (enc_args_range _ _ _ Ha) as [[HL1 HL2] Hc].
  exists (yenc L true col data). split; [apply encode_spec; [apply an_encoder_meets, E|exact Hd|exact Ha|exact Hr]|].
  apply num_max_ratio; try assumption. unfold INT_MAX in HL2. lia.
Qed.
Print Assumptions c75_max_size_ratio.

(** Of 40 bytes two are escaped, 5 in 100; a ratio of 0.05 (rounded) allows for them, one of 0.04 does not. *)
Example c75_ex : let data := (xe3 :: repeat x00 38 ++ [xd6])%list in
  zlen (filter (beq EQS) (yenc 8 true 0 data)) = 2 /\ (inject_Z 2 <= fl (5 # 100) * inject_Z 40)%Q /\ ~ (inject_Z 2 <= fl (4 # 100) * inject_Z 40)%Q /\
  zlen (yenc 8 true 0 data) + 62 = 114 /\
  match num_maxSize (inject_Z 40) (inject_Z 8) (Some (fl (5 # 100))) with Some s => (s == 118)%Q | None => False end.
Proof. cbv zeta. split; [vm_compute; reflexivity|]. split; [vm_compute; discriminate|]. split; [intro H; vm_compute in H; apply H; reflexivity|]. split; vm_compute; reflexivity. Qed.

(** Every ratio from 0 to 1 is accepted; those outside are rejected, unless they are so close that adding 1
    rounds them to within. *)
Theorem c75_ratio_accepted : forall length L ratio, (0 <= ratio <= 1)%Q -> exists s, num_maxSize length L (Some ratio) = Some s.
Proof. intros n L r [A B]. exact (ratio_accepted n L r A B). Qed.
Print Assumptions c75_ratio_accepted.

Theorem c75_ratio_rejected : forall length L ratio, ~ (length == 0)%Q -> (ratio <= - pow2 (-52) \/ 1 + pow2 (-51) <= ratio)%Q ->
  num_maxSize length L (Some ratio) = None.
Proof. exact ratio_rejected. Qed.
Print Assumptions c75_ratio_rejected.

Example c75_reject_ex : num_maxSize (inject_Z 40) (inject_Z 8) (Some (fl (-1 # 100))) = None /\ num_maxSize (inject_Z 40) (inject_Z 8) (Some (fl (101 # 100))) = None /\
  num_maxSize (inject_Z 40) (inject_Z 8) (Some (pow2 (-60))) <> None /\ num_maxSize (inject_Z 40) (inject_Z 8) (Some (- pow2 (-60))%Q) <> None.
Proof. vm_compute. repeat split; discriminate. Qed.
