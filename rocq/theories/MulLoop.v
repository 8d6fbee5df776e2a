(** Loops that multiply by the powers of x named by the bits of a number. *)
From Verif Require Import Base BaseLemmas CrcSpec CrcLin CrcModel CrcAlg CrcProofs CrcMul ClmulModel ClmulProofs ClmulMul.
From Coq Require Import NArith Lia ZifyN ZifyBool ZifyNat.
Open Scope N_scope.

(** One accumulator. *)
Section One.
Context (f : N -> N -> N).
Fixpoint loop1 (fuel : nat) (n r : N) : N :=
  match fuel with
  | O => r
  | S fuel => if n =? 0 then r else loop1 fuel (N.land n (n - 1)) (f (ctz n) r)
  end.
Context (Hf : forall pos x, pos < 32 -> word x -> f pos x = times_x (2 ^ pos) x).
Lemma loop1_ok fuel : forall n r, (fuel <= 32)%nat -> word n -> (2 ^ (32 - N.of_nat fuel) | n) -> word r ->
  loop1 fuel n r = times_x n r.
Proof.
  induction fuel as [|fuel IH]; intros n r Hl Hn Hd Hr; cbn [loop1].
  - destruct Hd as [k Hk]. unfold word in Hn. change (32 - N.of_nat 0) with 32 in Hk. replace n with 0 by lia. reflexivity.
  - destruct (N.eqb_spec n 0) as [->|E]; [reflexivity|].
    destruct (clear_step n E Hn) as (C1 & C2 & C3 & C4 & C5). rewrite C1.
    specialize (C5 (32 - N.of_nat (S fuel)) ltac:(lia) Hd).
    replace (32 - N.of_nat (S fuel) + 1) with (32 - N.of_nat fuel) in C5 by lia.
    rewrite Hf by assumption. rewrite IH by (try assumption; try lia; apply times_word; assumption).
    rewrite <- times_add. replace (n - 2 ^ ctz n + 2 ^ ctz n) with n by lia. reflexivity.
Qed.
End One.

(** Two accumulators in turn. *)
Section Two.
Context (f : N -> N -> N).
Fixpoint loop2 (fuel : nat) (n r r2 : N) : N * N :=
  match fuel with
  | O => (r, r2)
  | S fuel =>
    if n =? 0 then (r, r2)
    else
      let r := f (ctz n) r in
      let n := N.land n (n - 1) in
      if n =? 0 then (r, r2)
      else loop2 fuel (N.land n (n - 1)) r (f (ctz n) r2)
  end.
Context (ok : N -> Prop) (val : N -> N).
Context (Hv : forall x, word (val x)).
Context (Hf : forall pos x, pos < 32 -> ok x -> ok (f pos x) /\ val (f pos x) = times_x (2 ^ pos) (val x)).
Lemma loop2_ok fuel : forall n r r2, (fuel <= 32)%nat -> word n -> (2 ^ (32 - N.of_nat fuel) | n) -> ok r -> ok r2 ->
  let '(r', r2') := loop2 fuel n r r2 in ok r' /\ ok r2' /\ mulx (val r') (val r2') = times_x n (mulx (val r) (val r2)).
Proof.
  induction fuel as [|fuel IH]; intros n r r2 Hl Hn Hd Hr Hr2; cbn [loop2]; cbv zeta.
  - destruct Hd as [k Hk]. unfold word in Hn. change (32 - N.of_nat 0) with 32 in Hk. replace n with 0 by lia.
    repeat split; assumption.
  - destruct (N.eqb_spec n 0) as [->|E]; [repeat split; assumption|].
    destruct (clear_step n E Hn) as (C1 & C2 & C3 & C4 & C5). rewrite C1.
    specialize (C5 (32 - N.of_nat (S fuel)) ltac:(lia) Hd).
    destruct (Hf _ r C3 Hr) as [F1 F2].
    assert (En : times_x n (mulx (val r) (val r2)) = times_x (n - 2 ^ ctz n) (times_x (2 ^ ctz n) (mulx (val r) (val r2)))).
    { rewrite <- times_add. replace (n - 2 ^ ctz n + 2 ^ ctz n) with n by lia. reflexivity. }
    rewrite En. set (n1 := n - 2 ^ ctz n) in *. clearbody n1. clear En C1 C2.
    destruct (N.eqb_spec n1 0) as [->|E1].
    + split; [exact F1|]. split; [exact Hr2|]. rewrite F2, mulx_times. reflexivity.
    + destruct (clear_step n1 E1 C4) as (D1 & D2 & D3 & D4 & D5). rewrite D1.
      replace (32 - N.of_nat (S fuel) + 1) with (32 - N.of_nat fuel) in C5 by lia.
      specialize (D5 (32 - N.of_nat fuel) ltac:(lia) C5).
      assert (Dv : (2 ^ (32 - N.of_nat fuel) | n1 - 2 ^ ctz n1)).
      { destruct D5 as [k Hk]. exists (k * 2). rewrite Hk, N.pow_add_r. change (2 ^ 1) with 2. lia. }
      destruct (Hf _ r2 D3 Hr2) as [G1 G2].
      specialize (IH (n1 - 2 ^ ctz n1) (f (ctz n) r) (f (ctz n1) r2) ltac:(lia) D4 Dv F1 G1).
      destruct (loop2 fuel _ _ _) as [r' r2']. destruct IH as (I1 & I2 & I3).
      split; [exact I1|]. split; [exact I2|]. rewrite I3, F2, G2.
      rewrite mulx_times, mulx_swap by apply Hv.
      rewrite (times_comm (2 ^ ctz n)), <- times_add. replace (n1 - 2 ^ ctz n1 + 2 ^ ctz n1) with n1 by lia. reflexivity.
Qed.
End Two.
