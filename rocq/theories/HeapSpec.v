(** Vocabulary for stating who owns the memory behind the Buffers the native functions return. *)
From Verif Require Import Base EncNode EncNodeSpec HeapModel.

(** [n] bytes at [p] overlap no allocated block, and no block starts at [p]. *)
Definition fits (h : heap) (p n : Z) : Prop :=
  ~ In p (map fst h) /\ forall q k, In (q, k) h -> apart p n q k.

(** No two allocated blocks overlap or start at the same address. *)
Fixpoint distinct (h : heap) : Prop :=
  match h with [] => True | (p, n) :: t => fits t p n /\ distinct t end.

(** An allocator that does not run out of memory. *)
Record no_failure (A : allocator) : Prop := {
  malloc_good : forall h n, distinct h -> 0 < n -> exists p, a_malloc A h n = Some p /\ fits h p n;
  realloc_good : forall h p k n, distinct h -> In (p, k) h -> 0 < n <= k ->
    exists q, a_realloc A h p n = Moved q /\ fits (release p h) q n
}.

(** realloc to size 0 frees the block (as glibc's does) or returns a block of size 0. *)
Definition frees_zero (A : allocator) : Prop :=
  forall h p k, distinct h -> In (p, k) h ->
    a_realloc A h p 0 = Null true \/ exists q, a_realloc A h p 0 = Moved q /\ fits (release p h) q 0.

(** [n] bytes at [a] lie in an allocated block. *)
Definition lives (h : heap) (a n : Z) : Prop := exists q k, In (q, k) h /\ q <= a /\ a + n <= q + k.

(** Nothing in the blocks of [h] has changed. *)
Definition untouched (h : heap) (m m' : mem) : Prop :=
  forall q k x, In (q, k) h -> q <= x < q + k -> m' x = m x.

(** Of the blocks [h'], exactly one has been added to [h]: it is the buffer's, of the buffer's length,
    and contains [o].  An empty buffer may have none. *)
Definition owned (h h' : heap) (m' : mem) (b : buffer) (o : list byte) : Prop :=
  b_len b = zlen o /\
  match b_data b with
  | Some p => h' = (p, zlen o) :: h /\ fits h p (zlen o) /\ bytes_at m' p o
  | None => o = [] /\ h' = h
  end.

(** A call that hands over a buffer with content [o]: nothing else is left allocated, nothing that was
    allocated is changed, and the finaliser gives back what the call took. *)
Definition hands_over (h h' : heap) (m m' : mem) (b : buffer) (o : list byte) : Prop :=
  owned h h' m' b o /\ untouched h m m' /\ free_buffer h' b = Ok h.

(** Calls and finalisers in any order, starting with the blocks [base] allocated: the buffers not yet
    finalised, and the blocks. *)
Inductive history (base : heap) : list buffer -> heap -> Prop :=
| h_start : history base [] base
| h_call bs h h' m' b o : history base bs h -> owned h h' m' b o -> history base (b :: bs) h'
| h_collect bs1 b bs2 h h' : history base (bs1 ++ b :: bs2) h -> free_buffer h b = Ok h' -> history base (bs1 ++ bs2) h'.

(** The blocks behind buffers. *)
Definition blocks (bs : list buffer) : heap :=
  flat_map (fun b => match b_data b with Some p => [(p, b_len b)] | None => [] end) bs.
