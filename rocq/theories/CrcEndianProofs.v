(** The portable CRC on big-endian hosts: a swapped big-endian load is a little-endian load. *)
From Verif Require Import Base BaseLemmas CrcSpec CrcModel CrcNodeSpec CrcNodeProofs EndianModel CrcEndianModel.
From Coq Require Import NArith Btauto.
Open Scope N_scope.

Lemma bswap_lor x y : bswap32 (N.lor x y) = N.lor (bswap32 x) (bswap32 y).
Proof.
  unfold bswap32, shl32, u32. rewrite !N.shiftr_lor, !N.shiftl_lor, !N.land_lor_distr_l.
  apply N.bits_inj. intro n. rewrite !N.lor_spec. btauto.
Qed.
Lemma bswap_byte c : let b := Byte.to_N c in
  bswap32 (N.shiftl b 24) = b /\ bswap32 (N.shiftl b 16) = N.shiftl b 8 /\ bswap32 (N.shiftl b 8) = N.shiftl b 16 /\ bswap32 b = N.shiftl b 24.
Proof. destruct c; vm_compute; auto. Qed.

Definition oword (o : order) (w : N) : N := match o with Big => bswap32 w | Little => w end.

Lemma bind_ext {A C} (x y : M A) (f g : A -> M C) m : x m = y m -> (forall a m', f a m' = g a m') -> bind x f m = bind y g m.
Proof. intros X K. unfold bind. rewrite X. destruct (y m) as [[a m1]| |]; auto. Qed.

(** Loading a word, then using its swapped value. *)
Lemma load_word {C} o B a (k : N -> M C) m : bind (o_load32 o B a) (fun w => k (oword o w)) m = bind (load32 B a) k m.
Proof.
  destruct o; [reflexivity|]. unfold o_load32, load32, load8, bind, ret.
  destruct (load B a m) as [[c0 m0]| |]; auto. destruct (load B (a + 1) m0) as [[c1 m1]| |]; auto.
  destruct (load B (a + 2) m1) as [[c2 m2]| |]; auto. destruct (load B (a + 3) m2) as [[c3 m3]| |]; auto.
  f_equal. cbn [oword]. rewrite !bswap_lor.
  destruct (bswap_byte c0) as (-> & _ & _ & _), (bswap_byte c1) as (_ & -> & _ & _), (bswap_byte c2) as (_ & _ & -> & _), (bswap_byte c3) as (_ & _ & _ & ->).
  reflexivity.
Qed.

Lemma o_proc4_eq o T v w : o_proc4 o T v w = proc4 T v (oword o w).
Proof. destruct o; reflexivity. Qed.

Lemma o_main_eq o T B e : forall fuel p c0 c1 c2 c3 m, o_main_loop o fuel T B p e c0 c1 c2 c3 m = main_loop fuel T B p e c0 c1 c2 c3 m.
Proof.
  induction fuel as [|fuel IH]; intros; cbn [o_main_loop main_loop]; destruct (p =? e)%Z; auto.
  rewrite <- (load_word o). apply bind_ext; [reflexivity|]. intros w0 n0. rewrite <- (load_word o). apply bind_ext; [reflexivity|]. intros w1 n1.
  rewrite <- (load_word o). apply bind_ext; [reflexivity|]. intros w2 n2. rewrite <- (load_word o). apply bind_ext; [reflexivity|]. intros w3 n3.
  rewrite IH, !o_proc4_eq. reflexivity.
Qed.
Lemma o_aggregate_eq o T B p e c0 c1 c2 c3 m : o_aggregate o T B p e c0 c1 c2 c3 m = aggregate T B p e c0 c1 c2 c3 m.
Proof.
  unfold o_aggregate, aggregate. destruct (negb _); [|reflexivity].
  rewrite <- (load_word o). apply bind_ext; [reflexivity|]. intros w n. rewrite o_proc4_eq. reflexivity.
Qed.
Lemma o_crc_eq o T B a n i m : o_crc32_generic o T B a n i m = do_crc32_incremental_generic T B a n i m.
Proof.
  unfold o_crc32_generic, do_crc32_incremental_generic. cbv zeta.
  apply bind_ext; [reflexivity|]. intros [[p len] c] m1. apply bind_ext; [reflexivity|]. intros [[p1 len1] c1] m2.
  apply bind_ext.
  - destruct (_ <=? _)%Z; [|reflexivity]. apply bind_ext; [apply o_main_eq|]. intros [[[[p2 d0] d1] d2] d3] m3. apply o_aggregate_eq.
  - intros [p2 c2] m3. reflexivity.
Qed.

Lemma o_crc_ok o : crc_ok (o_crc32_generic o generate_crc32_slice_table).
Proof. intros B m src data init H W. rewrite o_crc_eq. apply generic_crc_ok; auto. Qed.
