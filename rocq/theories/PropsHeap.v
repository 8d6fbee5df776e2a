(** C80, C81: the memory behind the Buffers the native functions return. *)
From Verif Require Import Base BaseLemmas EncModel EncSpec EncNode EncNodeSpec DecSpec DecModel DecNode DecNodeSpec JsEncoder JsBuilds DecNeonModel
  HeapModel HeapSpec HeapEx HeapProofs.
From Coq Require Import Permutation ZifyBool.
Open Scope Z_scope.

(** [encode]: the Buffer owns the only block left allocated, which has its length and the encoded text,
    and its finaliser gives the block back. *)
Theorem c80_encode : forall A no256 e src data args L col h m, no_failure A -> distinct h -> an_encoder e ->
  lives h src (zlen data) -> bytes_at m src data -> data <> [] -> args_give args L col -> in_range L col data ->
  exists b h' m', h_encode A no256 e src (zlen data) args h m = HReturns (Ok (b, h', m')) /\
    hands_over h h' m m' b (yenc L true col data) /\ b_data b <> None.
Proof. exact encode_hands. Qed.
Print Assumptions c80_encode.

(** [encodeIncr] without a destination: likewise. *)
Theorem c80_encodeIncr : forall A no256 e src data args L col h m, no_failure A -> distinct h -> an_encoder e ->
  lives h src (zlen data) -> bytes_at m src data -> data <> [] -> args_give args L col -> in_range L col data ->
  exists b h' m', h_encode_incr A no256 e src (zlen data) None args h m =
      HReturns (Ok ((to_int32 (zlen (yenc L false col data)), Some b, ret_col L false col data), h', m')) /\
    hands_over h h' m m' b (yenc L false col data) /\ b_data b <> None.
Proof. exact encode_incr_hands. Qed.
Print Assumptions c80_encodeIncr.

(** [decode]: likewise, if realloc to size 0 does not keep the block; without stripDots this is needed
    only if nothing is decoded. *)
Theorem c80_decode : forall A D src data isRaw h m, no_failure A -> (isRaw = true \/ decode_text data = [] -> frees_zero A) ->
  distinct h -> a_decoder D -> lives h src (zlen data) -> bytes_at m src data -> data <> [] ->
  exists b h' m' o, h_decode A D src (zlen data) isRaw h m = HReturns (Ok (b, h', m')) /\ hands_over h h' m m' b o /\
    (if isRaw
     then o = decode_text (unstuff true data) \/
          ends_with [EQS; CR; LF] data /\ exists c, decode_text (unstuff true data) = o ++ [c]
     else o = decode_text data) /\ (o <> [] -> b_data b <> None).
Proof. exact decode_hands. Qed.
Print Assumptions c80_decode.

(** [decodeIncr] without a destination.  Missing: the NEON code where reading behind the source counts as
    an error (see C62). *)
Theorem c80_decodeIncr_partial : forall A D src data s h m o s' e rst, no_failure A -> (o = [] -> frees_zero A) ->
  distinct h -> a_decoder D -> (forall ne, D = neon_decoders ne -> n_line ne = true) ->
  lives h src (zlen data) -> bytes_at m src data -> data <> [] -> run_end s data = (o, s', e, rst) ->
  exists b h' m', h_decode_incr A D src (zlen data) s None h m =
      HReturns (Ok ((to_int32 (zlen data - zlen rst), to_int32 (zlen o), Some b, e, s'), h', m')) /\
    hands_over h h' m m' b o /\ (o <> [] -> b_data b <> None).
Proof. exact decode_incr_hands. Qed.
Print Assumptions c80_decodeIncr_partial.

(** A call that throws, is given a destination, or has an empty source leaves the allocated blocks alone
    and returns no Buffer that owns one. *)
Theorem c80_nothing_allocated : forall A no256 e D src len args dst isRaw s h m,
  (forall h', h_encode A no256 e src len args h m = HThrows h' -> h' = h) /\
  (forall h', h_encode_incr A no256 e src len dst args h m = HThrows h' -> h' = h) /\
  (forall h', h_decode_incr A D src len s dst h m = HThrows h' -> h' = h) /\
  (forall r h' m', h_encode_incr A no256 e src len dst args h m = HReturns (Ok (r, h', m')) ->
     len = 0 \/ dst <> None -> h' = h /\ snd (fst r) = None) /\
  (forall r h' m', h_decode_incr A D src len s dst h m = HReturns (Ok (r, h', m')) ->
     dst <> None -> h' = h /\ snd (fst (fst r)) = None) /\
  (len = 0 -> exists b, b_data b = None /\ b_len b = 0 /\
     h_encode A no256 e src len args h m = HReturns (Ok (b, h, m)) /\
     h_decode A D src len isRaw h m = HReturns (Ok (b, h, m))).
Proof. exact nothing_allocated. Qed.
Print Assumptions c80_nothing_allocated.

(** Whatever the order of calls and finalisers, no finaliser frees what is not allocated; the allocated
    blocks are always those of the Buffers not yet finalised and those there were at the start. *)
Theorem c80_any_order : forall base bs h, NoDup (map fst base) -> history base bs h ->
  Permutation h (blocks bs ++ base) /\ forall b, In b bs -> exists h', free_buffer h b = Ok h'.
Proof.
  intros base bs h N H. split; [exact (proj2 (history_ok base bs h N H))|].
  intros b Hb. apply in_split in Hb as (b1 & b2 & ->). exact (history_frees base b1 b b2 h N H).
Qed.
Print Assumptions c80_any_order.

(** The inputs of which nothing is decoded. *)
Theorem c80_nothing_decoded : forall l, decode_text l = [] <->
  exists a e, l = a ++ e /\ (forall c, In c a -> c = CR \/ c = LF) /\ (e = [] \/ e = [EQS]).
Proof. exact decode_text_nil. Qed.
Print Assumptions c80_nothing_decoded.

(** The result of malloc is not checked: if it fails, every encoder writes through the null pointer. *)
Theorem c81_no_memory : forall A no256 e src data args L col h m, an_encoder e -> bytes_at m src data -> data <> [] ->
  args_give args L col -> in_range L col data -> a_malloc A h (max_size no256 (zlen data) L) = None ->
  max_size no256 (zlen data) L <= src ->
  h_encode A no256 e src (zlen data) args h m = HReturns UB /\
  h_encode_incr A no256 e src (zlen data) None args h m = HReturns UB.
Proof. exact encode_null. Qed.
Print Assumptions c81_no_memory.

(** So does every decoder, if there is something to write (with stripDots: two bytes, because of C23). *)
Theorem c81_no_memory_decode : forall A D src data (isRaw : bool) h m, a_decoder D -> bytes_at m src data -> zlen data <= src ->
  (if isRaw then 2 <= zlen (decode_text (unstuff true data)) else decode_text data <> []) ->
  a_malloc A h (zlen data) = None -> h_decode A D src (zlen data) isRaw h m = HReturns UB.
Proof. exact decode_null. Qed.
Print Assumptions c81_no_memory_decode.

(** Missing: [n_line ne = false] of the NEON code, as above (C62). *)
Theorem c81_no_memory_decodeIncr_partial : forall A D src data s h m o s' e rst, a_decoder D -> (forall ne, D = neon_decoders ne -> n_line ne = true) ->
  bytes_at m src data -> zlen data <= src -> run_end s data = (o, s', e, rst) -> o <> [] -> a_malloc A h (zlen data) = None ->
  h_decode_incr A D src (zlen data) s None h m = HReturns UB.
Proof. exact decode_incr_null. Qed.
Print Assumptions c81_no_memory_decodeIncr_partial.

Definition hm : mem := mem_of 5000 [x41; x42; x43; x3d].
Definition hh : heap := [(5000, 4); (9000, 16)].

Theorem c81_no_memory_refuted : exists A e D src len h m, an_encoder e /\ a_decoder D /\ lives h src len /\
  h_encode A false e src len [] h m = HReturns UB /\
  h_encode_incr A false e src len None [] h m = HReturns UB /\
  h_decode A D src len false h m = HReturns UB /\
  h_decode_incr A D src len S_CRLF None h m = HReturns UB.
Proof.
  exists exhausted, do_encode_generic, scalar, 5000, 4, hh, hm. split; [constructor|]. split; [constructor|].
  split; [exists 5000, 4; split; [left; reflexivity|lia]|]. vm_compute. auto.
Qed.
Print Assumptions c81_no_memory_refuted.

(** Where nothing is decoded, realloc is asked for 0 bytes; if that returns NULL and keeps the block (C17
    leaves it to the implementation), the block is lost: the finaliser does not free it. *)
Theorem c80_lost_block_refuted : exists A D src len h m b h' m', no_failure A /\ a_decoder D /\ lives h src len /\ distinct h /\
  h_decode A D src len false h m = HReturns (Ok (b, h', m')) /\
  b_data b = None /\ free_buffer h' b = Ok h' /\ h' <> h /\ length h' = S (length h).
Proof.
  exists keeps_zero, scalar, 5003, 1, hh, hm. do 3 eexists. split; [exact keeps_zero_good|]. split; [constructor|].
  split; [exists 5000, 4; split; [left; reflexivity|lia]|].
  split. { cbn. unfold fits, apart. cbn. repeat split; try tauto; intros; try lia. destruct H as [E|[]]. injection E as <- <-. lia. }
  split; [vm_compute; reflexivity|]. cbn. split; [reflexivity|]. split; [reflexivity|]. split; [discriminate|reflexivity].
Qed.
Print Assumptions c80_lost_block_refuted.

(** Nor is the result of realloc checked: if it fails, the Buffer has a length but no data, and the block
    is lost. *)
Theorem c81_realloc_failure_refuted : exists A e src len h m b h' m', an_encoder e /\ lives h src len /\
  h_encode A false e src len [] h m = HReturns (Ok (b, h', m')) /\
  b_data b = None /\ 0 < b_len b /\ free_buffer h' b = Ok h' /\ length h' = S (length h).
Proof.
  exists stuck, do_encode_generic, 5000, 4, hh, hm. do 3 eexists. split; [constructor|].
  split; [exists 5000, 4; split; [left; reflexivity|lia]|].
  split; [vm_compute; reflexivity|]. cbn. split; [reflexivity|]. split; [lia|]. split; reflexivity.
Qed.
Print Assumptions c81_realloc_failure_refuted.

(** ** Examples *)

Lemma hh_distinct : distinct hh.
Proof. cbn. unfold fits, apart. cbn. repeat split; try lia; try tauto; intros q k [E|[]]; injection E as <- <-; lia. Qed.

(** The hypotheses are met by allocators that move blocks and by ones that do not. *)
Example c80_alloc_ex : (no_failure bump /\ frees_zero bump) /\ (no_failure in_place /\ frees_zero in_place) /\
  distinct hh /\ lives hh 5000 4 /\ bytes_at hm 5000 [x41; x42; x43; x3d] /\
  args_give [] 128 0 /\ in_range 128 0 [x41; x42; x43; x3d].
Proof.
  split; [exact bump_good|]. split; [exact in_place_good|]. split; [exact hh_distinct|].
  split; [exists 5000, 4; split; [left; reflexivity|lia]|]. split; [apply bytes_at_mem_of|]. split; [reflexivity|].
  unfold in_range, INT_MAX. cbn. lia.
Qed.

(** encode, then decode of its source without stripDots. *)
Example c80_encode_ex : match h_encode bump false do_encode_generic 5000 4 [] hh hm with
  | HReturns (Ok (b, h', m')) => b_data b = Some 9090 /\ b_len b = 4 /\ h' = (9090, 4) :: hh /\ read_n m' 9090 4 = [x6b; x6c; x6d; x67]
  | _ => False end.
Proof. vm_compute. auto. Qed.
Example c80_decode_ex : match h_decode in_place scalar 5000 4 false hh hm with
  | HReturns (Ok (b, h', m')) => b_data b = Some 9016 /\ b_len b = 3 /\ h' = (9016, 3) :: hh /\ free_buffer h' b = Ok hh
  | _ => False end.
Proof. vm_compute. auto. Qed.
(** Two Buffers finalised in the order they were made. *)
Example c80_history_ex : history hh [] hh /\ exists b1 b2 h1 h2 h3, history hh [b2; b1] h2 /\ h2 <> hh /\
  free_buffer h2 b1 = Ok h3 /\ history hh [b2] h3 /\ free_buffer h3 b2 = Ok hh /\ h1 = (9016, 3) :: hh.
Proof.
  split; [constructor|]. exists {| b_data := Some 9016; b_len := 3 |}, {| b_data := Some 9019; b_len := 0 |},
    ((9016, 3) :: hh), ((9019, 0) :: (9016, 3) :: hh), ((9019, 0) :: hh).
  assert (H : history hh [{| b_data := Some 9019; b_len := 0 |}; {| b_data := Some 9016; b_len := 3 |}] ((9019, 0) :: (9016, 3) :: hh)).
  { apply (h_call _ _ ((9016, 3) :: hh) _ (mem_of 9016 [x00; x01; x02]) _ []).
    - apply (h_call _ _ hh _ (mem_of 9016 [x00; x01; x02]) _ [x00; x01; x02]); [constructor|]. split; [reflexivity|]. cbn.
      split; [reflexivity|]. split; [|auto]. unfold fits, apart. cbn. split; [lia|]. intros q k [E|[E|[]]]; injection E as <- <-; lia.
    - split; [reflexivity|]. cbn. split; [reflexivity|]. split; [|auto]. unfold fits, apart. cbn. split; [lia|].
      intros q k [E|[E|[E|[]]]]; injection E as <- <-; lia. }
  split; [exact H|]. split; [discriminate|]. split; [reflexivity|]. split; [|auto].
  apply (h_collect hh [{| b_data := Some 9019; b_len := 0 |}] {| b_data := Some 9016; b_len := 3 |} [] _ _ H). reflexivity.
Qed.
(** The hypotheses of the theorems about a failing malloc. *)
Example c81_no_memory_ex : a_malloc exhausted hh (max_size false 4 128) = None /\ max_size false 4 128 <= 5000 /\
  bytes_at hm 5000 [x41; x42; x43; x3d] /\ decode_text [x41; x42; x43; x3d] <> [] /\
  2 <= zlen (decode_text (unstuff true [x41; x42; x43; x3d])) /\
  exists o s' e rst, run_end S_CRLF [x41; x42; x43; x3d] = (o, s', e, rst) /\ o <> [].
Proof.
  split; [reflexivity|]. split; [vm_compute; discriminate|]. split; [apply bytes_at_mem_of|]. split; [vm_compute; discriminate|].
  split; [vm_compute; discriminate|]. do 4 eexists. split; [vm_compute; reflexivity|discriminate].
Qed.
