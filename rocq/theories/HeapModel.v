(** Model of the memory management in /repo/src/yencode.cc: which blocks [Encode], [EncodeIncr], [Decode]
    and [DecodeIncr] allocate, which block the Buffer they return takes over, and what its finaliser does.

    Memory is that of [Base.v].  Besides it there is the list of the blocks currently allocated.  Here
    malloc and realloc may fail; [EncNode.v] and [DecNode.v] model the same functions with a malloc that
    cannot, and give the content only.

    Not modelled: exceptions and aborts of V8 itself (ToLocalChecked on a Buffer that cannot be
    created), the memory behind NEW_BUFFER(0) (which belongs to Node.js) and behind the objects made with
    NEW_OBJECT, and MARK_EXT_MEM, which does nothing from Node.js 0.11 on. *)
From Verif Require Import Base DecSpec DecModel EncNode DecNode.

(** The allocated blocks: address and size. *)
Definition heap := list (Z * Z).

(** What realloc can do: move the block (perhaps to where it is), or return NULL; the block is then
    normally left alone, but for size 0 C implementations differ (C17 7.22.3.5), and many free it. *)
Inductive moved := Moved (q : Z) | Null (freed : bool).

(** The C library's allocator: [None] is malloc returning NULL. *)
Record allocator := {
  a_malloc : heap -> Z -> option Z;
  a_realloc : heap -> Z -> Z -> moved
}.

(** free on the block at [p]. *)
Definition release (p : Z) (h : heap) : heap := filter (fun b => negb (fst b =? p)) h.

(** The size of the block at [p]. *)
Definition block_size (p : Z) (h : heap) : Z :=
  match find (fun b => fst b =? p) h with Some (_, k) => k | None => 0 end.

(** memmove. *)
Definition copied (m : mem) (from to n : Z) : mem :=
  fun x => if (to <=? x) && (x <? to + n) then m (from + (x - to)) else m x.

(** malloc as called in /repo/src/yencode.cc lines 132, 221, 250, 312. *)
Definition c_malloc (A : allocator) (h : heap) (n : Z) : option Z * heap :=
  match a_malloc A h n with
  | Some p => (Some p, (p, n) :: h)
  | None => (None, h)
  end.

(** realloc as called in /repo/src/yencode.cc lines 134, 228, 252, 316.  realloc of NULL is malloc. *)
Definition c_realloc (A : allocator) (h : heap) (m : mem) (p : option Z) (n : Z) : option Z * heap * mem :=
  match p with
  | None => let '(q, h') := c_malloc A h n in (q, h', m)
  | Some p =>
    match a_realloc A h p n with
    | Moved q => (Some q, (q, n) :: release p h, copied m p q (Z.min n (block_size p h)))
    | Null true => (None, release p h, m)
    | Null false => (None, h, m)
    end
  end.

(** What a Buffer made with NEW_BUFFER refers to; [None] is a null data pointer. *)
Record buffer := { b_data : option Z; b_len : Z }.

(** NEW_BUFFER(0). *)
Definition no_buffer : buffer := {| b_data := None; b_len := 0 |}.

(** /repo/src/yencode.cc lines 15-22: [free_buffer], the finaliser of the Buffers returned.  Freeing
    NULL does nothing; freeing what is not an allocated block is undefined. *)
Definition free_buffer (h : heap) (b : buffer) : out heap :=
  match b_data b with
  | None => Ok h
  | Some p => if existsb (fun k => fst k =? p) h then Ok (release p h) else UB
  end.

(** The outcome of a call: an exception, or a result, with the blocks then allocated. *)
Inductive hjs (T : Type) : Type := HThrows (h : heap) | HReturns (r : out (T * heap * mem)).
Arguments HThrows {T} h.
Arguments HReturns {T} r.

(** The buffers the C code is given: the source, and [n] bytes behind the pointer malloc returned (none
    behind NULL). *)
Definition over (src len : Z) (p : option Z) (n : Z) : bufs :=
  match p with
  | Some a => {| rlo := src; rhi := src + len; wlo := a; whi := a + n |}
  | None => {| rlo := src; rhi := src + len; wlo := 0; whi := 0 |}
  end.
Definition addr (p : option Z) : Z := match p with Some a => a | None => 0 end.

(** /repo/src/yencode.cc lines 105-137: [Encode]. *)
Definition h_encode (A : allocator) (no256 : bool) (encode : encoder) (src len : Z) (args : list Z)
    (h : heap) (m : mem) : hjs buffer :=
  if len =? 0 then HReturns (Ok (no_buffer, h, m))
  else match enc_args args with
       | None => HThrows h
       | Some (line_size, col) =>
         let dest_len := max_size no256 len line_size in
         let '(result, h) := c_malloc A h dest_len in
         HReturns (match encode (over src len result dest_len) line_size col src (addr result) len true m with
                   | Ok ((n, _), m) =>
                     let '(result, h, m) := c_realloc A h m result n in
                     Ok ({| b_data := result; b_len := n |}, h, m)
                   | UB => UB
                   | NoFuel => NoFuel
                   end)
       end.

(** /repo/src/yencode.cc lines 172-234: [EncodeIncr].  The result is (written, output, col); there is no
    output for an empty source, or if a destination was given. *)
Definition h_encode_incr (A : allocator) (no256 : bool) (encode : encoder) (src len : Z)
    (dst : option (Z * Z)) (args : list Z) (h : heap) (m : mem) : hjs (Z * option buffer * Z) :=
  if match dst with Some (_, dcap) => dcap <? max_size no256 len 128 | None => false end
  then HThrows h
  else match enc_args args with
       | None => HThrows h
       | Some (line_size, col) =>
         if len =? 0 then HReturns (Ok ((0, None, col), h, m))
         else
           let '(result, dest_len, h) :=
             match dst with
             | Some (d, dcap) => (Some d, dcap, h)
             | None => let n := max_size no256 len line_size in
                       let '(result, h) := c_malloc A h n in (result, n, h)
             end in
           HReturns (match encode (over src len result dest_len) line_size col src (addr result) len false m with
                     | Ok ((n, col'), m) =>
                       match dst with
                       | Some _ => Ok ((to_int32 n, None, col'), h, m)
                       | None =>
                         let '(result, h, m) := c_realloc A h m result n in
                         Ok ((to_int32 n, Some {| b_data := result; b_len := n |}, col'), h, m)
                       end
                     | UB => UB
                     | NoFuel => NoFuel
                     end)
       end.

(** /repo/src/yencode.cc lines 236-255: [Decode]. *)
Definition h_decode (A : allocator) (D : decoders) (src len : Z) (isRaw : bool) (h : heap) (m : mem) : hjs buffer :=
  if len =? 0 then HReturns (Ok (no_buffer, h, m))
  else
    let '(result, h) := c_malloc A h len in
    HReturns (match decode D isRaw (over src len result len) src (addr result) len None m with
              | Ok (n, m) =>
                let '(result, h, m) := c_realloc A h m result n in
                Ok ({| b_data := result; b_len := n |}, h, m)
              | UB => UB
              | NoFuel => NoFuel
              end).

(** /repo/src/yencode.cc lines 280-332: [DecodeIncr] for a non-empty source.  The result is (read,
    written, output, ended, state). *)
Definition h_decode_incr (A : allocator) (D : decoders) (src len : Z) (state : dstate)
    (dst : option (Z * Z)) (h : heap) (m : mem) : hjs (Z * Z * option buffer * dend * dstate) :=
  if match dst with Some (_, dcap) => dcap <? len | None => false end then HThrows h
  else
    let '(result, cap, h) :=
      match dst with
      | Some (d, dcap) => (Some d, dcap, h)
      | None => let '(result, h) := c_malloc A h len in (result, len, h)
      end in
    HReturns (match dec_end D (over src len result cap) src (addr result) len (Some state) m with
              | Ok ((ended, sp, dp, Some state'), m) =>
                let n := dp - addr result in
                match dst with
                | Some _ => Ok ((to_int32 (sp - src), to_int32 n, None, ended, state'), h, m)
                | None =>
                  let '(result, h, m) := c_realloc A h m result n in
                  Ok ((to_int32 (sp - src), to_int32 n, Some {| b_data := result; b_len := n |}, ended, state'), h, m)
                end
              | Ok ((_, _, _, None), _) => UB
              | UB => UB
              | NoFuel => NoFuel
              end).
