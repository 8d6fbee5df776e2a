(** Allocators for the examples and counterexamples of [PropsHeap.v]; nothing here models code of /repo. *)
From Verif Require Import Base BaseLemmas EncNode EncNodeSpec HeapModel HeapSpec.
From Coq Require Import ZifyBool.
Open Scope Z_scope.

(** The first address behind all blocks. *)
Definition top (h : heap) : Z := fold_right (fun b t => Z.max (fst b + Z.max 1 (snd b)) t) 4096 h.

(** Never reuses an address below an allocated block; realloc to 0 frees. *)
Definition bump : allocator :=
  {| a_malloc h n := Some (top h);
     a_realloc h p n := if n =? 0 then Null true else Moved (top h) |}.
(** Shrinks in place. *)
Definition in_place : allocator :=
  {| a_malloc h n := Some (top h);
     a_realloc h p n := if n =? 0 then Null true else Moved p |}.
(** malloc always fails. *)
Definition exhausted : allocator :=
  {| a_malloc h n := None; a_realloc h p n := Null false |}.
(** realloc to 0 returns NULL and keeps the block. *)
Definition keeps_zero : allocator :=
  {| a_malloc h n := Some (top h);
     a_realloc h p n := if n =? 0 then Null false else Moved p |}.
(** realloc always fails. *)
Definition stuck : allocator :=
  {| a_malloc h n := Some (top h); a_realloc h p n := Null false |}.

Lemma top_le h q k : In (q, k) h -> q + Z.max 1 k <= top h.
Proof. unfold top. induction h as [|[a b] h IH]; cbn; [tauto|]. intros [E|H]; [injection E as -> ->; lia|specialize (IH H); lia]. Qed.
Lemma top_fits h h' n : (forall b, In b h' -> In b h) -> fits h' (top h) n.
Proof.
  intro S. split.
  - rewrite in_map_iff. intros ([q k] & E & H). cbn in E. pose proof (top_le h q k (S _ H)). lia.
  - intros q k H. pose proof (top_le h q k (S _ H)). unfold apart. lia.
Qed.
Lemma bump_good : no_failure bump /\ frees_zero bump.
Proof.
  split; [split|].
  - intros h n _ _. exists (top h). split; [reflexivity|]. apply top_fits. auto.
  - intros h p k n _ _ Hn. exists (top h). cbn. destruct (n =? 0) eqn:E; [lia|]. split; [reflexivity|]. apply top_fits.
    intros b H. apply filter_In in H. apply H.
  - intros h p k _ _. left. reflexivity.
Qed.
Lemma distinct_fits h p k : distinct h -> In (p, k) h -> fits (release p h) p k.
Proof.
  intros D H. split.
  - rewrite in_map_iff. intros ([q j] & E & H2). apply filter_In in H2 as [_ H2]. cbn in *. subst. rewrite Z.eqb_refl in H2. discriminate.
  - intros q j H2. apply filter_In in H2 as [H2 H3]. cbn in H3. assert (N : q <> p) by (destruct (q =? p) eqn:E; [discriminate|lia]). clear H3.
    induction h as [|[a b] h IH]; [destruct H|]. destruct D as [[_ F] D]. destruct H as [H|H], H2 as [H2|H2].
    + congruence.
    + injection H as -> ->. apply F, H2.
    + injection H2 as -> ->. specialize (F p k H). unfold apart in *. lia.
    + apply IH; auto.
Qed.
Lemma in_place_good : no_failure in_place /\ frees_zero in_place.
Proof.
  split; [split|].
  - intros h n _ _. exists (top h). split; [reflexivity|]. apply top_fits. auto.
  - intros h p k n D H Hn. exists p. cbn. destruct (n =? 0) eqn:E; [lia|]. split; [reflexivity|].
    destruct (distinct_fits h p k D H) as [F1 F2]. split; [exact F1|]. intros q j Hq. specialize (F2 q j Hq). unfold apart in *. lia.
  - intros h p k _ _. left. reflexivity.
Qed.
Lemma keeps_zero_good : no_failure keeps_zero.
Proof.
  destruct (proj1 in_place_good) as [M R]. split; [exact M|]. intros h p k n D H Hn. specialize (R h p k n D H Hn). cbn in *.
  destruct (n =? 0) eqn:E; [lia|exact R].
Qed.
