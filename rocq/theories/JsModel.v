(** Model of /repo/index.js: buffer search, header parsing, from_post, post and
    the YEncoder class.

    Buffers are lists of bytes.  Arguments are of the documented types: file names
    are strings, data are Buffers, numbers are integers. *)
From Verif Require Import Base EncNode DecNode CrcModel JsBase.
From Coq Require Strings.String.
Import String.StringSyntax.

Open Scope Z_scope.

(** ** The native module *)

(** The implementations behind the function pointers, and where Buffers happen to
    lie in memory: for every Buffer its address, the results of malloc, and the
    memory at the time of the call. *)
Record native := {
  y_enc : encoder; y_dec : decoders; y_crc : crc_fun; y_shift : mulfun;
  y_addr : list byte -> Z; y_malloc : list byte -> Z -> Z; y_mem : list byte -> mem
}.

(** /repo/index.js lines 3, 128 and 130: y.encode, y.decode. *)
Definition y_encode (Y : native) (data : list byte) (args : list Z) : jsr (list byte) :=
  match node_encode (y_enc Y) (y_malloc Y data) (y_addr Y data) (zlen data) args (y_mem Y data) with
  | Throws => Err NativeError
  | Returns (Ok o) => Val o
  | Returns _ => Bad
  end.
Definition y_decode (Y : native) (data : list byte) (isRaw : bool) : jsr (list byte) :=
  match node_decode (y_dec Y) (y_malloc Y data) (y_addr Y data) (zlen data) isRaw (y_mem Y data) with
  | Ok o => Val o
  | _ => Bad
  end.
(** /repo/index.js lines 190-191: y.crc32 and y.crc32_combine. *)
Definition of_jsres {A} (r : jsres A) : jsr A :=
  match r with JReturns a => Val a | JThrows => Err NativeError | JUB => Bad end.
Definition y_crc32 (Y : native) (data : list byte) : jsr (list byte) :=
  of_jsres (node_crc32 (y_crc Y) (y_addr Y data) (zlen data) None (y_mem Y data)).
Definition y_crc32_combine (Y : native) (a b : list byte) (len : Z) : jsr (list byte) :=
  of_jsres (node_crc32_combine (y_shift Y) a b len).

(** ** Searching *)

Fixpoint is_prefix (p l : list byte) : bool :=
  match p, l with
  | [], _ => true
  | x :: p, y :: l => beq x y && is_prefix p l
  | _, [] => false
  end.

(** /repo/index.js lines 32-49: bufferFind, as a scan over the tail of the buffer
    (the code uses Buffer.prototype.indexOf where it exists, lines 27-30). *)
Fixpoint find_loop (search l : list byte) (i : Z) : Z :=
  match l with
  | [] => -1
  | _ :: t => if is_prefix search l then i else find_loop search t (i + 1)
  end.
Definition bufferFind (buf search : list byte) (start : Z) : Z :=
  if zlen search =? 0 then -1
  else if zlen buf - start <? zlen search then -1
  else find_loop search (skipn (Z.to_nat start) buf) start.

(** /repo/index.js lines 56-73: bufferFindRev (Buffer.prototype.lastIndexOf where it
    exists, lines 51-54). *)
Fixpoint rev_loop (search buf : list byte) (i : nat) : Z :=
  if is_prefix search (skipn i buf) then Z.of_nat i
  else match i with O => -1 | S k => rev_loop search buf k end.
Definition bufferFindRev (buf search : list byte) : Z :=
  if zlen search =? 0 then -1
  else if zlen buf <? zlen search then -1
  else rev_loop search buf (length buf - length search).

(** bufferSlice (line 6): buf.subarray(a, b). *)
Definition slice (buf : list byte) (a b : Z) : list byte :=
  firstn (Z.to_nat (b - a)) (skipn (Z.to_nat a) buf).

(** ** Header lines *)

(** Properties of an object created as {}: the own ones in this list. *)
Definition obj (A : Type) := list (jstr * A).
Fixpoint own {A} (o : obj A) (k : jstr) : option A :=
  match o with
  | [] => None
  | (k', v) :: t => if jeq k k' then Some v else own t k
  end.
Fixpoint set {A} (o : obj A) (k : jstr) (v : A) : obj A :=
  match o with
  | [] => [(k, v)]
  | (k', w) :: t => if jeq k k' then (k, v) :: t else (k', w) :: set t k v
  end.
(** What {} inherits from Object.prototype. *)
Definition inherited (k : jstr) : bool :=
  existsb (jeq k)
    [ J "constructor"; J "__defineGetter__"; J "__defineSetter__"; J "hasOwnProperty";
      J "__lookupGetter__"; J "__lookupSetter__"; J "isPrototypeOf"; J "propertyIsEnumerable";
      J "toString"; J "valueOf"; J "__proto__"; J "toLocaleString" ].

Definition yprops := obj jstr.
Definition has {A} (o : obj A) (k : jstr) : bool :=
  match own o k with Some _ => true | None => inherited k end.
(** yprops[prop] = val; assigning a string to __proto__ has no effect. *)
Definition set_prop (o : yprops) (k v : jstr) : yprops :=
  if jeq k (J "__proto__") then o else set o k v.

(** ydata: own properties and, if __proto__ has been assigned, the prototype. *)
Record ydata := { y_own : obj yprops; y_proto : option yprops }.
Definition has_tag (d : ydata) (k : jstr) : bool :=
  match own (y_own d) k with
  | Some _ => true
  | None => match y_proto d with Some p => has p k | None => inherited k end
  end.
Definition set_tag (d : ydata) (k : jstr) (v : yprops) : ydata :=
  if jeq k (J "__proto__") then {| y_own := y_own d; y_proto := Some v |}
  else {| y_own := set (y_own d) k v; y_proto := y_proto d |}.

(** DecoderWarning: only the code is kept, not the message. *)
Definition warnings := list jstr.

(** /repo/index.js line 10: RE_YPROP, a lower-case letter or underscore, then any
    number of those and digits (captured), then '='.  [prop_here]: a match at the
    start; result is the name and what follows the '='. *)
Definition prop_first (c : cu) : bool := ((97 <=? c)%N && (c <=? 122)%N) || N.eqb c 95.
Definition prop_char (c : cu) : bool := prop_first c || is_digit c.
Fixpoint prop_rest (s : jstr) : option (jstr * jstr) :=
  match s with
  | [] => None
  | c :: t => if N.eqb c 61 then Some ([], t)
              else if prop_char c then
                match prop_rest t with Some (n, r) => Some (c :: n, r) | None => None end
              else None
  end.
Definition prop_here (s : jstr) : option (jstr * jstr) :=
  match s with
  | c :: t => if prop_first c then
                match prop_rest t with Some (n, r) => Some (c :: n, r) | None => None end
              else None
  | [] => None
  end.
(** line.match(RE_YPROP): was anything skipped, the name, and what follows. *)
Fixpoint prop_match (s : jstr) (skipped : bool) : option (bool * jstr * jstr) :=
  match prop_here s with
  | Some (n, r) => Some (skipped, n, r)
  | None => match s with [] => None | _ :: t => prop_match t true end
  end.

(** /repo/index.js lines 86-111: the properties of a line.  Result: properties,
    rest of the line, warnings. *)
Fixpoint parse_props (fuel : nat) (tag line : jstr) (props : yprops) (w : warnings)
  : yprops * jstr * warnings :=
  match fuel with
  | O => (props, line, w)
  | S f =>
    match prop_match line false with
    | None => (props, line, w)
    | Some (skipped, prop, rest) =>
      let w := if skipped then w ++ [J "ignored_line_data"] else w in
      let '(val, line) :=
        if jeq tag (J "begin") && jeq prop (J "name") then (rest, [])
        else let '(v, r) := cut_space rest in (v, match r with Some r => r | None => [] end) in
      let w := if has props prop then w ++ [J "duplicate_property"] else w in
      parse_props f tag line (set_prop props prop val) w
    end
  end.

(** /repo/index.js lines 77-117: one line. *)
Definition parse_line (line : jstr) (d : ydata) : ydata * warnings :=
  let line := skipn 2 line in
  let '(tag, _) := cut_space line in
  let line := trim (skipn (length tag + 1) line) in
  let '(props, rest, w) := parse_props (S (length line)) tag line [] [] in
  let w := match rest with [] => w | _ => w ++ [J "ignored_line_data"] end in
  let w := if has_tag d tag then w ++ [J "duplicate_line"] else w in
  (set_tag d tag props, w).

(** /repo/index.js lines 75-119: decoderParseLines. *)
Fixpoint decoderParseLines (ls : list jstr) (d : ydata) : ydata * warnings :=
  match ls with
  | [] => (d, [])
  | l :: t =>
    let '(d, w) := parse_line l d in
    let '(d, w') := decoderParseLines t d in
    (d, w ++ w')
  end.

(** ** from_post *)

Inductive decoder_error := no_start_found | no_end_found | missing_required_properties.

Record post := {
  p_yencStart : Z;
  p_dataStart : option Z;
  p_dataEnd : option Z;
  p_yencEnd : Z;
  p_props : ydata;
  p_data : option (list byte);
  p_crc32 : option (list byte);
  p_warnings : warnings
}.

(** /repo/index.js lines 233-254: collecting the header lines.  Result: lines,
    dataStart, yencEnd. *)
Fixpoint start_lines (fuel : nat) (data : list byte) (sp p : Z) (ls : list jstr)
  : list jstr * option Z * option Z :=
  match fuel with
  | O => (ls, None, None)
  | S f =>
    if 0 <? p then
      let line := trim (utf8_dec (slice data sp p)) in
      let ls := ls ++ [line] in
      let sp := p + 2 in
      if jeq (firstn 6 line) (J "=yend ") then (ls, None, Some sp)
      else if match nth_error data (Z.to_nat sp), nth_error data (Z.to_nat (sp + 1)) with
              | Some a, Some b => negb (beq a EQS) || negb (beq b YY)
              | _, _ => true
              end
      then (ls, Some sp, None)
      else start_lines f data sp (bufferFind data [CR; LF] sp) ls
    else (ls, None, None)
  end.

(** The values ydata.begin, ydata.part and ydata.end can have: an object, a string
    inherited from an assigned prototype, or undefined. *)
Inductive yval := VObj (o : yprops) | VStr (s : jstr) | VUndef.
Definition get_tag (d : ydata) (k : jstr) : yval :=
  match own (y_own d) k with
  | Some o => VObj o
  | None => match y_proto d with
            | Some p => match own p k with Some s => VStr s | None => VUndef end
            | None => VUndef
            end
  end.
(** v[key] for the keys used below (none of them is inherited from
    Object.prototype or String.prototype). *)
Definition get_key (v : yval) (k : jstr) : jsr (option jstr) :=
  match v with VObj o => Val (own o k) | VStr _ => Val None | VUndef => Err TypeError end.
(** key in v *)
Definition in_val (v : yval) (k : jstr) : jsr bool :=
  match v with VObj o => Val (has o k) | _ => Err TypeError end.
Definition v_truthy (v : yval) : bool :=
  match v with VObj _ => true | VStr s => negb (jeq s []) | VUndef => false end.
Definition truthy (v : option jstr) : bool :=
  match v with Some s => negb (jeq s []) | None => false end.
Definition str_or (v : option jstr) : jstr := match v with Some s => s | None => [] end.
(** a != b for two values that are strings or undefined. *)
Definition differ (a b : option jstr) : bool :=
  match a, b with
  | Some a, Some b => negb (jeq a b)
  | None, None => false
  | _, _ => true
  end.

(** /repo/index.js lines 284-301: the numerical fields of one line. *)
Fixpoint check_fields (v : yval) (keys : list jstr) : jsr warnings :=
  match keys with
  | [] => Val []
  | k :: t =>
    x <<- get_key v k ;;
    w <<- check_fields v t ;;
    Val ((if truthy x then
            if negb (is_number (str_or x)) then [J "invalid_prop_" ++ k]
            else if jeq (str_or x) (J "0") && negb (jeq k (J "size")) then [J "zero_prop_" ++ k]
            else []
          else []) ++ w)
  end.
Definition check_tag (d : ydata) (tag : jstr) (keys : list jstr) : jsr warnings :=
  let v := get_tag d tag in
  if v_truthy v then check_fields v keys else Val [].

Definition is_hex (c : cu) : bool :=
  is_digit c || ((97 <=? c)%N && (c <=? 102)%N) || ((65 <=? c)%N && (c <=? 70)%N).
(** /^[a-fA-F0-9]{8}$/ *)
Definition is_crc (s : jstr) : bool := Nat.eqb (length s) 8 && forallb is_hex s.

(** /repo/index.js lines 277-325: the checks of the header properties.  [None]: the
    DecoderError missing_required_properties. *)
Definition check_props (A : numbers) (d : ydata) : jsr (option warnings) :=
  let begin := get_tag d (J "begin") in
  let end_ := get_tag d (J "end") in
  let part := get_tag d (J "part") in
  b_line <<- get_key begin (J "line") ;;
  b_size <<- get_key begin (J "size") ;;
  b_name <<- (if truthy b_line && truthy b_size then in_val begin (J "name") else Val true) ;;
  if negb (truthy b_line) || negb (truthy b_size) || negb b_name then Val None
  else
  e_size <<- get_key end_ (J "size") ;;
  if negb (truthy e_size) then Val None
  else
  w1 <<- check_tag d (J "begin") [J "line"; J "total"; J "part"; J "size"] ;;
  w2 <<- check_tag d (J "part") [J "begin"; J "end"] ;;
  w3 <<- check_tag d (J "end") [J "size"; J "part"] ;;
  b_part <<- get_key begin (J "part") ;;
  e_part <<- get_key end_ (J "part") ;;
  b_total <<- get_key begin (J "total") ;;
  let n := of_str A in
  let w4 :=
    if truthy b_part && truthy e_part && differ b_part e_part then [J "part_number_mismatch"]
    else if truthy b_total && ((truthy b_part && nlt A (n b_total) (n b_part))
                               || (truthy e_part && nlt A (n b_total) (n e_part)))
    then [J "part_number_exceeds_total"] else [] in
  let expectedSize := n e_size in
  p_begin <<- (if v_truthy part then get_key part (J "begin") else Val None) ;;
  p_end <<- (if v_truthy part then get_key part (J "end") else Val None) ;;
  let w5 :=
    if truthy p_begin && truthy p_end then
      if nlt A (n p_end) (n p_begin) then [J "invalid_part_range"]
      else if negb (neq A expectedSize (nadd A (nsub A (n p_end) (n p_begin)) (of_int A 1)))
      then [J "size_mismatch_part_range"]
      else if nlt A (n b_size) (n p_end) then [J "part_range_exceeds_size"] else []
    else if nlt A (of_int A 1) (n b_total) || nlt A (of_int A 1) (n b_part) || nlt A (of_int A 1) (n e_part)
    then [J "missing_part_range"] else [] in
  e_pcrc <<- get_key end_ (J "pcrc32") ;;
  e_crc <<- get_key end_ (J "crc32") ;;
  let w6 :=
    (if truthy e_pcrc && negb (is_crc (str_or e_pcrc)) then [J "invalid_prop_pcrc32"] else []) ++
    (if truthy e_crc && negb (is_crc (str_or e_crc)) then [J "invalid_prop_crc32"] else []) in
  let w7 :=
    if negb (truthy b_part) && differ b_size e_size then [J "size_mismatch"]
    else if nlt A (n b_size) (n e_size) then [J "size_mismatch"] else [] in
  Val (Some (w1 ++ w2 ++ w3 ++ w4 ++ w5 ++ w6 ++ w7)).

(** /repo/index.js lines 327-347: decoding the data and checking size and CRC.
    Result: data, crc32, warnings. *)
Definition check_data (Y : native) (A : numbers) (d : ydata) (body : option (list byte)) (isRaw : bool)
  : jsr (option (list byte) * option (list byte) * warnings) :=
  let end_ := get_tag d (J "end") in
  e_size <<- get_key end_ (J "size") ;;
  e_pcrc <<- get_key end_ (J "pcrc32") ;;
  e_crc <<- get_key end_ (J "crc32") ;;
  let part := v_truthy (get_tag d (J "part")) in
  match body with
  | Some text =>
    dat <<- y_decode Y text isRaw ;;
    crc <<- y_crc32 Y dat ;;
    let hexCrc := js_hex crc in
    Val (Some dat, Some crc,
      (if negb (neq A (of_str A e_size) (of_int A (zlen dat))) then [J "data_size_mismatch"] else []) ++
      (if truthy e_pcrc && negb (jeq hexCrc (lower (str_or e_pcrc))) then [J "pcrc32_mismatch"] else []) ++
      (if truthy e_crc && negb part && negb (jeq hexCrc (lower (str_or e_crc))) then [J "crc32_mismatch"] else []))
  | None =>
    Val (None, None,
      (if negb (neq A (of_str A e_size) (of_int A 0)) then [J "data_size_mismatch"] else []) ++
      (if truthy e_pcrc && negb (jeq (str_or e_pcrc) (J "00000000")) then [J "pcrc32_mismatch"] else []) ++
      (if truthy e_crc && negb part && negb (jeq (str_or e_crc) (J "00000000")) then [J "crc32_mismatch"] else []))
  end.

(** /repo/index.js lines 219-231: the position of "=ybegin ". *)
Definition yenc_start (data : list byte) : option Z :=
  if is_prefix (Bf "=ybegin ") data then Some 0
  else
    let p := bufferFind data ([CR; LF] ++ Bf "=ybegin ") 0 in
    if p <? 0 then None else Some (p + 2).

Definition nonzero (o : option Z) : bool := match o with Some z => negb (z =? 0) | None => false end.

(** /repo/index.js lines 213-353: from_post, called as a method of the module
    object with its encoding left at 'utf8'. *)
Definition from_post (Y : native) (A : numbers) (data : list byte) (isRaw : bool)
  : jsr (decoder_error + post) :=
  match yenc_start data with
  | None => Val (inl no_start_found)
  | Some yencStart =>
    let '(ls, dataStart, yencEnd) :=
      start_lines (S (length data)) data yencStart (bufferFind data [CR; LF] (yencStart + 8)) [] in
    if negb (nonzero dataStart) && negb (nonzero yencEnd) then Val (inl no_end_found)
    else
    let '(d, w) := decoderParseLines ls {| y_own := []; y_proto := None |} in
    match
      (if negb (nonzero yencEnd) then
         let start := match dataStart with Some s => s | None => 0 end in
         let e := bufferFindRev (skipn (Z.to_nat start) data) ([CR; LF] ++ Bf "=yend ") in
         if e <? 0 then None
         else
           let dataEnd := e + start in
           let p := bufferFind data [CR; LF] (dataEnd + 8) in
           let '(p, yencEnd, w') :=
             if p <? 0 then (zlen data, zlen data, [J "missing_yend_newline"]) else (p, p + 2, []) in
           let endLine := trim (utf8_dec (slice data (dataEnd + 2) p)) in
           let '(d, w'') := decoderParseLines [endLine] d in
           Some (Some dataEnd, yencEnd, d, w ++ w' ++ w'')
       else Some (None, match yencEnd with Some e => e | None => 0 end, d, w))
    with
    | None => Val (inl no_end_found)
    | Some (dataEnd, yencEnd, d, w) =>
      c <<- check_props A d ;;
      match c with
      | None => Val (inl missing_required_properties)
      | Some w1 =>
        let body := match dataStart, dataEnd with
                    | Some s, Some e => Some (slice data s e)
                    | Some s, None => Some (skipn (Z.to_nat s) data)
                    | None, _ => None
                    end in
        r <<- check_data Y A d body isRaw ;;
        let '(dat, crc, w2) := r in
        Val (inr {| p_yencStart := yencStart; p_dataStart := dataStart; p_dataEnd := dataEnd;
                    p_yencEnd := yencEnd; p_props := d; p_data := dat; p_crc32 := crc;
                    p_warnings := w ++ w1 ++ w2 |})
      end
    end
  end.

(** ** Creating posts *)

(** /repo/index.js line 9: s.replace(RE_BADCHAR, '') with RE_BADCHAR = /\r\n\0/g. *)
Fixpoint drop_badchar (s : jstr) : jstr :=
  match s with
  | c :: t =>
    match t with
    | d :: e :: t' =>
      if N.eqb c 13 && N.eqb d 10 && N.eqb e 0 then drop_badchar t' else c :: drop_badchar t
    | _ => c :: drop_badchar t
    end
  | [] => []
  end.

(** /repo/index.js lines 201 and 367: the file name as it is put into the header;
    exports.encoding is undefined, so the encoding is UTF-8. *)
Definition header_name (filename : jstr) : list byte :=
  utf8_enc (firstn 256 (drop_badchar filename)).

(** The names visible at the call of encodeCrc in line 202: the module's own and
    the standard ones ending in "Crc" - of which there are none. *)
Definition module_scope : list jstr :=
  [ J "y"; J "toBuffer"; J "bufferSlice"; J "nl"; J "RE_BADCHAR"; J "RE_YPROP"; J
    "RE_NUMBER"; J "decodePrev"; J "DecoderError"; J "DecoderWarning"; J "bufferFind"; J
    "bufferFindRev"; J "decoderParseLines"; J "propIsNotValidNumber"; J "YEncoder"; J
    "singleEncodeError"; J "exports"; J "require"; J "module"; J "__filename"; J "__dirname";
    J "filename"; J "data"; J "line_size"; J "e" ].

(** /repo/index.js lines 196-209: post.  Line 202 calls the undeclared encodeCrc. *)
Definition js_post (filename : jstr) (data : list byte) (line_size : Z) : jsr (list byte) :=
  let line_size := if line_size =? 0 then 128 else line_size in
  let name := header_name filename in
  if existsb (jeq (J "encodeCrc")) module_scope then Val name
  else Err ReferenceError.

(** Number to Buffer, toBuffer(''+n). *)
Definition dec_bytes (n : Z) : list byte := map b8 (js_dec n).
Definition hex_bytes (l : list byte) : list byte := map b8 (js_hex l).

(** The object; [ye_encode] is its encode method: that of the prototype, or one of
    the two assigned in lines 378 and 423. *)
Inductive ymethod := M_multi | M_single | M_error.
Record yencoder := {
  ye_size : Z; ye_parts : Z; ye_line_size : Z;
  ye_part : Z; ye_pos : Z; ye_crc : list byte;
  ye_info : option (list byte);
  ye_encode : ymethod
}.

(** /repo/index.js lines 356-380: the constructor. *)
Definition new_yencoder (filename : jstr) (size parts line_size : Z) : yencoder :=
  let line_size := if line_size =? 0 then 128 else line_size in
  let name := header_name filename in
  {| ye_size := size; ye_parts := parts; ye_line_size := line_size;
     ye_part := 0; ye_pos := 0; ye_crc := [x00; x00; x00; x00];
     ye_info := Some (
       if 1 <? parts then
         Bf " total=" ++ dec_bytes parts ++ Bf " line=" ++ dec_bytes line_size ++
         Bf " size=" ++ dec_bytes size ++ Bf " name=" ++ name ++ [CR; LF]
       else
         Bf "=ybegin line=" ++ dec_bytes line_size ++ Bf " size=" ++ dec_bytes size ++
         Bf " name=" ++ name ++ [CR; LF]);
     ye_encode := if 1 <? parts then M_multi else M_single |}.

Definition with_part (E : yencoder) (n : Z) : yencoder :=
  {| ye_size := ye_size E; ye_parts := ye_parts E; ye_line_size := ye_line_size E;
     ye_part := n; ye_pos := ye_pos E; ye_crc := ye_crc E; ye_info := ye_info E; ye_encode := ye_encode E |}.
Definition with_pos (E : yencoder) (n : Z) : yencoder :=
  {| ye_size := ye_size E; ye_parts := ye_parts E; ye_line_size := ye_line_size E;
     ye_part := ye_part E; ye_pos := n; ye_crc := ye_crc E; ye_info := ye_info E; ye_encode := ye_encode E |}.
Definition with_crc (E : yencoder) (c : list byte) : yencoder :=
  {| ye_size := ye_size E; ye_parts := ye_parts E; ye_line_size := ye_line_size E;
     ye_part := ye_part E; ye_pos := ye_pos E; ye_crc := c; ye_info := ye_info E; ye_encode := ye_encode E |}.
Definition no_info (E : yencoder) : yencoder :=
  {| ye_size := ye_size E; ye_parts := ye_parts E; ye_line_size := ye_line_size E;
     ye_part := ye_part E; ye_pos := ye_pos E; ye_crc := ye_crc E; ye_info := None; ye_encode := ye_encode E |}.
Definition with_encode (E : yencoder) (f : ymethod) : yencoder :=
  {| ye_size := ye_size E; ye_parts := ye_parts E; ye_line_size := ye_line_size E;
     ye_part := ye_part E; ye_pos := ye_pos E; ye_crc := ye_crc E; ye_info := ye_info E; ye_encode := f |}.

(** A call returns a result and leaves the object in a new state, also when it
    throws. *)
Definition step (E : yencoder) {A} (x : jsr A) (f : A -> jsr (list byte) * yencoder)
  : jsr (list byte) * yencoder :=
  match x with Val a => f a | Err e => (Err e, E) | Bad => (Bad, E) end.

(** Buffer.concat with this.yInfo as second element. *)
Definition need_info (i : option (list byte)) : jsr (list byte) :=
  match i with Some b => Val b | None => Err TypeError end.

(** /repo/index.js lines 385-416: encode. *)
Definition encode_multi (Y : native) (E : yencoder) (data : list byte) : jsr (list byte) * yencoder :=
  let E := with_part E (ye_part E + 1) in
  if ye_parts E <? ye_part E then (Err ExceededParts, E)
  else
  let end_ := ye_pos E + zlen data in
  if ye_size E <? end_ then (Err ExceededSize, E)
  else
  let yInfo := ye_info E in
  step E (y_crc32 Y data) (fun crc =>
  step E (y_crc32_combine Y (ye_crc E) crc (zlen data)) (fun c =>
  let E := with_crc E c in
  if (ye_part E =? ye_parts E) && negb (end_ =? ye_size E) then (Err SizeMismatch, E)
  else
  let '(fullCrc, E) :=
    if ye_part E =? ye_parts E then (Bf " crc32=" ++ hex_bytes (ye_crc E), no_info E) else ([], E) in
  step E (y_encode Y data [ye_line_size E]) (fun text =>
  step E (need_info yInfo) (fun info =>
  (Val (Bf "=ybegin part=" ++ dec_bytes (ye_part E) ++ info ++
        Bf "=ypart begin=" ++ dec_bytes (ye_pos E + 1) ++ Bf " end=" ++ dec_bytes end_ ++ [CR; LF] ++
        text ++
        [CR; LF] ++ Bf "=yend size=" ++ dec_bytes (zlen data) ++ Bf " part=" ++ dec_bytes (ye_part E) ++
        Bf " pcrc32=" ++ hex_bytes crc ++ fullCrc),
   with_pos E end_))))).

(** /repo/index.js lines 418-436: _encodeSingle. *)
Definition encode_single (Y : native) (E : yencoder) (data : list byte) : jsr (list byte) * yencoder :=
  if negb (ye_size E =? zlen data) then (Err SizeMismatch, E)
  else
  let E := with_pos (with_part (with_encode E M_error) 1) (zlen data) in
  step E (y_crc32 Y data) (fun crc =>
  let E := with_crc E crc in
  let yInfo := ye_info E in
  let E := no_info E in
  step E (y_encode Y data [ye_line_size E]) (fun text =>
  step E (need_info yInfo) (fun info =>
  (Val (info ++ text ++ [CR; LF] ++ Bf "=yend size=" ++ dec_bytes (zlen data) ++
        Bf " crc32=" ++ hex_bytes (ye_crc E)), E)))).

(** A call of the encode method; /repo/index.js lines 381-383: singleEncodeError. *)
Definition call_encode (Y : native) (E : yencoder) (data : list byte) : jsr (list byte) * yencoder :=
  match ye_encode E with
  | M_multi => encode_multi Y E data
  | M_single => encode_single Y E data
  | M_error => (Err ExceededParts, E)
  end.

(** /repo/index.js lines 210-212: multi_post. *)
Definition multi_post := new_yencoder.
