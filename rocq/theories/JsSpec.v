(** Vocabulary for stating the properties of /repo/index.js: the text of the posts
    it creates, and what is assumed of the native module (proved of it in the
    other files). *)
From Verif Require Import Base EncSpec EncNode EncNodeSpec DecSpec DecNode CrcSpec CrcModel CrcNodeSpec JsBase JsModel.
From Coq Require Strings.String.
Import String.StringSyntax.
Open Scope Z_scope.

(** Every Buffer lies somewhere in memory, and malloc returns fresh memory. *)
Definition placed (Y : native) : Prop := forall data,
  bytes_at (y_mem Y data) (y_addr Y data) data /\
  fresh_malloc (y_malloc Y data) (y_addr Y data) (zlen data).

(** Line sizes accepted for [data]: a C int for which the column counter cannot
    overflow. *)
Definition line_ok (L : Z) (data : list byte) : Prop := 1 <= L <= INT_MAX /\ in_range L 0 data.

(** The native functions do what they are meant to do.  No Buffer has 2^63 bytes or
    more; some of the CRC implementations count in signed 64-bit numbers. *)
Record works (Y : native) : Prop := {
  w_encode : forall data L, line_ok L data -> y_encode Y data [L] = Val (yenc L true 0 data);
  w_decode : forall text, y_decode Y text false = Val (decode_text text);
  w_decode_raw : forall text, ~ ends_with [EQS; CR; LF] text ->
    y_decode Y text true = Val (decode_text (unstuff true text));
  w_decode_total : forall text isRaw, exists o, y_decode Y text isRaw = Val o /\ zlen o <= zlen text;
  w_crc : forall data, zlen data < 2 ^ 63 -> y_crc32 Y data = Val (crc_of data);
  w_combine : forall a b, zlen b < 2 ^ 63 ->
    y_crc32_combine Y (crc_of a) (crc_of b) (zlen b) = Val (crc_of (a ++ b))
}.

(** Decimal and hexadecimal numerals as bytes. *)
Definition dec (n : Z) : list byte := map b8 (js_dec n).
Definition hex (l : list byte) : list byte := map b8 (js_hex l).

(** A single-part post, without final line break. *)
Definition single_article (name : list byte) (L : Z) (data : list byte) : list byte :=
  Bf "=ybegin line=" ++ dec L ++ Bf " size=" ++ dec (zlen data) ++ Bf " name=" ++ name ++ [CR; LF] ++
  yenc L true 0 data ++ [CR; LF] ++
  Bf "=yend size=" ++ dec (zlen data) ++ Bf " crc32=" ++ hex (crc_of data).

(** Part [k] of [parts], covering bytes [pos] to [pos + zlen data - 1] of a file of
    [size] bytes; [full] is the CRC of the file, given in the last part only. *)
Definition part_article (name : list byte) (L size parts k pos : Z) (data : list byte)
    (full : option (list byte)) : list byte :=
  Bf "=ybegin part=" ++ dec k ++ Bf " total=" ++ dec parts ++ Bf " line=" ++ dec L ++
  Bf " size=" ++ dec size ++ Bf " name=" ++ name ++ [CR; LF] ++
  Bf "=ypart begin=" ++ dec (pos + 1) ++ Bf " end=" ++ dec (pos + zlen data) ++ [CR; LF] ++
  yenc L true 0 data ++ [CR; LF] ++
  Bf "=yend size=" ++ dec (zlen data) ++ Bf " part=" ++ dec k ++ Bf " pcrc32=" ++ hex (crc_of data) ++
  match full with Some c => Bf " crc32=" ++ hex c | None => [] end.

(** A sequence of successful encode calls. *)
Inductive feeds (Y : native) : yencoder -> list (list byte) -> list (list byte) -> yencoder -> Prop :=
| feeds_nil E : feeds Y E [] [] E
| feeds_cons E d o E1 ds os E2 :
    call_encode Y E d = (Val o, E1) -> feeds Y E1 ds os E2 -> feeds Y E (d :: ds) (o :: os) E2.

(** ** File names *)

(** No line break in a string. *)
Definition no_crlf (s : jstr) : Prop := forall a b, s <> a ++ [13; 10]%N ++ b.

(** JavaScript strings: code units have 16 bits. *)
Definition is_string (s : jstr) : Prop := Forall (fun c => (c < 0x10000)%N) s.

(** UTF-16 without lone surrogates. *)
Fixpoint well_formed (s : jstr) : bool :=
  match s with
  | [] => true
  | c :: t =>
    if hi_surr c then match t with d :: t' => lo_surr d && well_formed t' | [] => false end
    else negb (lo_surr c) && (c <? 0x10000)%N && well_formed t
  end.

(** Names that survive being posted: up to 256 code units, no lone surrogates, no
    line break, no white space at the end. *)
Definition good_name (s : jstr) : Prop :=
  (length s <= 256)%nat /\ well_formed s = true /\ no_crlf s /\
  (forall a c, s = a ++ [c] -> is_space c = false).

(** ** What from_post returns *)

(** The property [key] of the line "=y[tag]". *)
Definition prop_is (p : post) (tag key : jstr) (v : jstr) : Prop :=
  exists o, own (y_own (p_props p)) tag = Some o /\ own o key = Some v.

(** ** What may surround an article *)

Definition occurs (s l : list byte) : Prop := exists a b, l = a ++ s ++ b.

(** The end of the article: nothing, or a line break and something without
    another "=yend" line. *)
Definition yend_mark : list byte := [CR; LF] ++ Bf "=yend ".
Definition tail_ok (fin : list byte) : Prop :=
  fin = [] \/ (exists t, fin = [CR; LF] ++ t) /\ ~ occurs yend_mark fin.

(** What stands before the article: nothing, or complete lines none of which is a
    "=ybegin" line. *)
Definition ybegin_mark : list byte := [CR; LF] ++ Bf "=ybegin ".
Definition front_ok (pre : list byte) : Prop :=
  pre = [] \/ exists x, pre = x ++ [CR; LF] /\ ~ occurs ybegin_mark pre /\ ~ starts_with (Bf "=ybegin ") pre.
