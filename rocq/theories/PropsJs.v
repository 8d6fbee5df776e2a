(** Properties of /repo/index.js: YEncoder, post and from_post.

    [Y] stands for the native module; [works Y] says that it does what was proved
    about it, [native_module_works] below that the modelled implementations do.  Numbers
    are any type that is exact below 2^53. *)
From Verif Require Import Base BaseLemmas EncModel EncSpec EncNode EncNodeSpec DecSpec DecNode DecSseModel DecSseMain CrcSpec CrcModel CrcNodeSpec
  JsBase JsModel JsSpec JsStrings JsEncoder JsParse JsFromPost JsRound JsRobust JsBuilds PropsJsLemmas.
From Coq Require Strings.String.
Import String.StringSyntax.
Open Scope Z_scope.

(** The native module satisfies [works] wherever Buffers are placed, built from any
    combination of the modelled encoders, decoders, CRCs and CRC shifts (JsBuilds). *)
Theorem native_module_works : forall Y, placed Y ->
  an_encoder (y_enc Y) -> a_decoder (y_dec Y) -> a_crc (y_crc Y) -> a_shift (y_shift Y) -> works Y.
Proof. exact native_works. Qed.
Print Assumptions native_module_works.

(** The portable module and one with the widest vectors encode and decode. *)
Example native_module_works_ex : forall Y, In Y [Y0; Y1] ->
  placed Y /\ an_encoder (y_enc Y) /\ a_decoder (y_dec Y) /\ a_crc (y_crc Y) /\ a_shift (y_shift Y) /\
  y_crc32 Y (Bf "123456789") = Val [xcb; xf4; x39; x26] /\
  jbind (y_encode Y (repeat x00 200 ++ repeat x04 100) [128]) (fun t => y_decode Y t true) = Val (repeat x00 200 ++ repeat x04 100).
Proof.
  intros Y [<-|[<-|[]]].
  - split; [exact Y0_placed|]. split; [apply enc_generic|]. split; [apply dec_scalar|]. split; [apply crc_generic|]. split; [apply shift_generic|].
    split; vm_compute; reflexivity.
  - split; [exact Y1_placed|]. split; [apply enc_avx2|]. split; [apply dec_avx2|]. split; [apply crc_clmul256; lia|]. split; [apply shift_clmul|].
    split; vm_compute; reflexivity.
Qed.

(** C40: in every sequence of successful encode calls, part [k] is number k+1, starts
    where the parts before it end, and carries size and CRC of its data; there are
    no more than [parts] parts, they never exceed the file size, and once all parts
    are there they cover the file.  [nm] is the file name as bytes. *)
Theorem c40_parts_tile : forall Y filename size parts line_size ds os E,
  works Y -> 0 <= size -> 1 < parts ->
  let L := if line_size =? 0 then 128 else line_size in
  Forall (fun d => line_ok L d /\ zlen d < 2 ^ 63) ds ->
  feeds Y (multi_post filename size parts line_size) ds os E ->
  exists nm,
    (no_crlf filename -> nm = utf8_enc (firstn 256 filename)) /\
    length os = length ds /\
    (forall k d o, nth_error ds k = Some d -> nth_error os k = Some o ->
       exists full, o = part_article nm L size parts (Z.of_nat k + 1) (zlen (concat (firstn k ds))) d full) /\
    zlen ds <= parts /\ zlen (concat ds) <= size /\ (zlen ds = parts -> zlen (concat ds) = size).
Proof. exact parts_tile. Qed.
Print Assumptions c40_parts_tile.

(** ... and every such sequence of parts is accepted. *)
Theorem c40_parts_accepted : forall Y filename size parts line_size ds,
  works Y -> 0 <= size -> 1 < parts ->
  let L := if line_size =? 0 then 128 else line_size in
  Forall (fun d => line_ok L d /\ zlen d < 2 ^ 63) ds ->
  zlen ds <= parts -> zlen (concat ds) <= size -> (zlen ds = parts -> zlen (concat ds) = size) ->
  exists os E, feeds Y (multi_post filename size parts line_size) ds os E.
Proof. exact parts_accepted. Qed.
Print Assumptions c40_parts_accepted.

Example c40_ex : Forall (fun d => line_ok 128 d /\ zlen d < 2 ^ 63) [Bf "abc"; []; Bf "defgh"] /\
  exists os E, feeds Y0 (multi_post (J "a b.bin") 8 3 0) [Bf "abc"; []; Bf "defgh"] os E.
Proof.
  split; [repeat constructor; vm_compute; congruence|].
  eexists _, _. repeat (eapply feeds_cons; [vm_compute; reflexivity|]). apply feeds_nil.
Qed.

(** C41: the running CRC, and the CRC of the whole file in the last part only. *)
Theorem c41_running_crc : forall Y filename size parts line_size ds os E,
  works Y -> 0 <= size -> 1 < parts ->
  let L := if line_size =? 0 then 128 else line_size in
  Forall (fun d => line_ok L d /\ zlen d < 2 ^ 63) ds ->
  feeds Y (multi_post filename size parts line_size) ds os E ->
  ye_crc E = be32 (crc32_spec 0 (concat ds)) /\
  exists nm, forall k d o, nth_error ds k = Some d -> nth_error os k = Some o ->
    o = part_article nm L size parts (Z.of_nat k + 1) (zlen (concat (firstn k ds))) d
          (if Z.of_nat k + 1 =? parts then Some (be32 (crc32_spec 0 (concat ds))) else None).
Proof. exact running_crc. Qed.
Print Assumptions c41_running_crc.

(** C42 is false: a rejected call changes the part number - the retry is labelled
    part 2 of 2 although it is the first part - and, if it is rejected for being too
    short for the last part, the CRC too. *)
Theorem c42_failed_call_unchanged_refuted :
  (exists Y E d E', works Y /\ E = multi_post (J "a") 4 2 128 /\
     call_encode Y E d = (Err ExceededSize, E') /\ ye_part E' <> ye_part E /\
     exists o E2, call_encode Y E' (Bf "abcd") = (Val o, E2) /\ starts_with (Bf "=ybegin part=2 total=2") o) /\
  (exists Y E o E1 d E', works Y /\ E = multi_post (J "a") 4 2 128 /\
     call_encode Y E (Bf "ab") = (Val o, E1) /\
     call_encode Y E1 d = (Err SizeMismatch, E') /\ ye_crc E' <> ye_crc E1).
Proof.
  split.
  - exists Y0. eexists. exists (Bf "abcde"). eexists. split; [exact Y0_works|]. split; [reflexivity|]. split; [vm_compute; reflexivity|].
    split; [discriminate|]. eexists _, _. split; [vm_compute; reflexivity|]. eexists. vm_compute. reflexivity.
  - exists Y0. eexists. eexists _, _. exists (Bf "c"). eexists. split; [exact Y0_works|]. split; [reflexivity|]. split; [vm_compute; reflexivity|].
    split; [vm_compute; reflexivity|discriminate].
Qed.
Print Assumptions c42_failed_call_unchanged_refuted.

(** What does hold of every rejected call, in every state: position, sizes and line
    length are unchanged; the CRC is, except for [SizeMismatch] and errors of the
    native module; and the single-part encoder does not change at all.  Missing:
    the part number in multi-part mode. *)
Theorem c42_failed_call_unchanged_partial : forall Y E d e E',
  call_encode Y E d = (Err e, E') -> e <> NativeError -> e <> TypeError ->
  ye_pos E' = ye_pos E /\ ye_size E' = ye_size E /\ ye_parts E' = ye_parts E /\ ye_line_size E' = ye_line_size E /\
  ye_encode E' = ye_encode E /\ ye_info E' = ye_info E /\
  (e <> SizeMismatch -> ye_crc E' = ye_crc E) /\
  (ye_encode E <> M_multi -> E' = E).
Proof. exact failed_call. Qed.
Print Assumptions c42_failed_call_unchanged_partial.

Example c42_partial_ex : exists E', call_encode Y0 (multi_post (J "a") 4 2 128) (Bf "abcde") = (Err ExceededSize, E').
Proof. eexists. vm_compute. reflexivity. Qed.

(** C43: the article created for a single-part post, possibly with something before
    and behind it, goes through from_post unharmed: the data, the CRC and the text
    range come back, the only warning is that of a missing final line break, and the
    file name is returned if it is one that can be represented. *)
Theorem c43_single_part_roundtrip : forall Y A filename line_size data isRaw pre fin o E,
  works Y -> numbers_ok A -> is_string filename -> no_crlf filename ->
  let L := if line_size =? 0 then 128 else line_size in
  line_ok L data -> zlen data < 2 ^ 53 ->
  call_encode Y (multi_post filename (zlen data) 1 line_size) data = (Val o, E) ->
  front_ok pre -> tail_ok fin ->
  exists p, from_post Y A (pre ++ o ++ fin) isRaw = Val (inr p) /\
    p_data p = Some data /\ p_crc32 p = Some (be32 (crc32_spec 0 data)) /\
    p_warnings p = (match fin with [] => [J "missing_yend_newline"] | _ => [] end) /\
    p_yencStart p = zlen pre /\ p_yencEnd p = zlen (pre ++ o) + (match fin with [] => 0 | _ => 2 end) /\
    (exists ds de, p_dataStart p = Some ds /\ p_dataEnd p = Some de /\
       slice (pre ++ o ++ fin) ds de = yenc L true 0 data) /\
    prop_is p (J "begin") (J "line") (js_dec L) /\ prop_is p (J "begin") (J "size") (js_dec (zlen data)) /\
    prop_is p (J "end") (J "size") (js_dec (zlen data)) /\
    prop_is p (J "end") (J "crc32") (js_hex (be32 (crc32_spec 0 data))) /\
    (good_name filename -> prop_is p (J "begin") (J "name") filename).
Proof. exact single_roundtrip. Qed.
Print Assumptions c43_single_part_roundtrip.

(** ... and such an article is always created. *)
Theorem c43_single_part_created : forall Y filename line_size data, works Y ->
  line_ok (if line_size =? 0 then 128 else line_size) data -> zlen data < 2 ^ 63 ->
  exists o E, call_encode Y (multi_post filename (zlen data) 1 line_size) data = (Val o, E) /\
    ye_part E = 1 /\ ye_pos E = zlen data /\ ye_crc E = be32 (crc32_spec 0 data) /\
    forall d, call_encode Y E d = (Err ExceededParts, E).
Proof. exact single_created. Qed.
Print Assumptions c43_single_part_created.

Example c43_ex :
  let name := J "some file.bin" in let fin := [CR; LF] ++ Bf "." ++ [CR; LF] in
  is_string name /\ no_crlf name /\ good_name name /\ line_ok 128 (Bf "data") /\
  front_ok (Bf "Subject: x" ++ [CR; LF]) /\ tail_ok fin.
Proof. exact c43_witness. Qed.

(** C44 is false: post() always throws. *)
Theorem c44_post_works_refuted : exists filename data line_size, forall o, js_post filename data line_size <> Val o.
Proof. exists (J "a"), (Bf "b"), 128. vm_compute. discriminate. Qed.
Print Assumptions c44_post_works_refuted.

Theorem c44_post_always_throws : forall filename data line_size, js_post filename data line_size = Err ReferenceError.
Proof. exact post_throws. Qed.
Print Assumptions c44_post_always_throws.

(** C45 is false: a file name with a line break adds a line to the header - here
    one that makes from_post see an article without data. *)
Theorem c45_no_injection_refuted : exists Y filename data o E p,
  works Y /\ is_string filename /\
  call_encode Y (multi_post filename (zlen data) 1 128) data = (Val o, E) /\
  from_post Y int_numbers o false = Val (inr p) /\ data <> [] /\ p_data p = None.
Proof.
  exists Y0, (J "x" ++ [13; 10]%N ++ J "=yend size=3"), (Bf "abc"). eexists _, _, _. split; [exact Y0_works|].
  split; [repeat constructor|]. split; [vm_compute; reflexivity|]. split; [vm_compute; reflexivity|]. split; [discriminate|reflexivity].
Qed.
Print Assumptions c45_no_injection_refuted.

(** Names without a line break do not add lines: the bytes put into the header
    contain no line break.  Missing: names with one, and lone CR or LF. *)
Theorem c45_no_injection_partial : forall Y filename size parts line_size ds os E,
  works Y -> is_string filename -> no_crlf filename -> 0 <= size ->
  let L := if line_size =? 0 then 128 else line_size in
  Forall (fun d => line_ok L d /\ zlen d < 2 ^ 63) ds ->
  feeds Y (multi_post filename size parts line_size) ds os E ->
  exists nm, ~ occurs [CR; LF] nm /\
    forall k d o, nth_error ds k = Some d -> nth_error os k = Some o ->
      (parts <= 1 -> o = single_article nm L d) /\
      (1 < parts -> exists full, o = part_article nm L size parts (Z.of_nat k + 1) (zlen (concat (firstn k ds))) d full).
Proof. exact no_injection. Qed.
Print Assumptions c45_no_injection_partial.

Example c45_partial_ex : is_string (J "a b" ++ [0xe9; 0x20ac; 0xd83d; 0xde00; 10]%N) /\ no_crlf (J "a b" ++ [0xe9; 0x20ac; 0xd83d; 0xde00; 10]%N) /\
  exists os E, feeds Y0 (multi_post (J "a b" ++ [0xe9; 0x20ac; 0xd83d; 0xde00; 10]%N) 3 1 5) [Bf "abc"] os E.
Proof.
  split; [repeat constructor|]. split; [apply no_crlf_check; reflexivity|].
  eexists _, _. eapply feeds_cons; [vm_compute; reflexivity|]. apply feeds_nil.
Qed.

(** C50: from_post returns normally (a post or a DecoderError object) for every
    Buffer whatsoever; it throws no exception and the native calls it makes are safe. *)
Theorem c50_from_post_total : forall Y A data isRaw, works Y -> zlen data < 2 ^ 63 -> exists r, from_post Y A data isRaw = Val r.
Proof. exact from_post_total. Qed.
Print Assumptions c50_from_post_total.

Example c50_ex : from_post Y0 int_numbers (Bf "=ybegin" ++ [CR; LF] ++ Bf "=ybegin x=" ++ [CR; LF] ++ Bf "=y__proto__ part=1" ++ [CR; LF; CR; LF] ++ Bf "=yend ") true
  = Val (inl missing_required_properties).
Proof. vm_compute. reflexivity. Qed.

(** C51: no warnings means that the size and the checksums were verified.  The
    decoded data (none at all counts as empty) has the size given in the "=yend" line,
    which is that of the "=ybegin" line if no part number is given there; it has the
    pcrc32 if one is given, and the crc32 if one is given and there is no "=ypart"
    line; and the reported crc32 is that of the data. *)
Theorem c51_silent_means_verified : forall Y A data isRaw p,
  works Y -> numbers_ok A -> zlen data < 2 ^ 63 -> from_post Y A data isRaw = Val (inr p) -> p_warnings p = [] ->
  let out := match p_data p with Some o => o | None => [] end in
  (exists size, prop_is p (J "end") (J "size") size /\ is_number size = true /\
     (dec_val size < 2 ^ 53 -> zlen out < 2 ^ 53 -> zlen out = dec_val size) /\
     ((forall n, ~ prop_is p (J "begin") (J "part") n) -> prop_is p (J "begin") (J "size") size)) /\
  (forall c, prop_is p (J "end") (J "pcrc32") c -> c <> [] -> lower c = js_hex (be32 (crc32_spec 0 out))) /\
  (forall c, prop_is p (J "end") (J "crc32") c -> c <> [] -> own (y_own (p_props p)) (J "part") = None ->
     lower c = js_hex (be32 (crc32_spec 0 out))) /\
  (forall o, p_data p = Some o -> p_crc32 p = Some (be32 (crc32_spec 0 o))).
Proof. exact silent_verified. Qed.
Print Assumptions c51_silent_means_verified.

(** The restriction on crc32 is needed: with a "=ypart" line a wrong crc32 is not
    noticed even if the part is the whole file. *)
Theorem c51_crc32_of_only_part_refuted : exists Y data p c o,
  works Y /\ from_post Y int_numbers data false = Val (inr p) /\ p_warnings p = [] /\
  prop_is p (J "begin") (J "total") (J "1") /\ prop_is p (J "end") (J "crc32") c /\
  p_data p = Some o /\ prop_is p (J "begin") (J "size") (js_dec (zlen o)) /\ lower c <> js_hex (be32 (crc32_spec 0 o)).
Proof.
  exists Y0, (Bf "=ybegin part=1 total=1 line=128 size=3 name=a" ++ [CR; LF] ++ Bf "=ypart begin=1 end=3" ++ [CR; LF] ++ Bf "abc" ++ [CR; LF] ++
    Bf "=yend size=3 part=1 crc32=00000000" ++ [CR; LF]).
  eexists _, (J "00000000"), _. split; [exact Y0_works|]. split; [vm_compute; reflexivity|]. split; [reflexivity|].
  split; [eexists; split; reflexivity|]. split; [eexists; split; reflexivity|]. split; [reflexivity|]. split; [eexists; split; reflexivity|].
  vm_compute. discriminate.
Qed.
Print Assumptions c51_crc32_of_only_part_refuted.

Example c51_ex : exists p, from_post Y0 int_numbers (single_article (Bf "a") 128 (Bf "abc") ++ [CR; LF]) false = Val (inr p) /\ p_warnings p = [] /\
  p_data p = Some (Bf "abc") /\ prop_is p (J "end") (J "crc32") (J "352441c2").
Proof. eexists. split; [vm_compute; reflexivity|]. split; [reflexivity|]. split; [reflexivity|]. eexists. split; reflexivity. Qed.

(** C52: every nonempty part of a multi-part post goes through from_post unharmed. *)
Theorem c52_multi_part_roundtrip : forall Y A filename size parts line_size ds os E isRaw pre fin k d o,
  works Y -> numbers_ok A -> is_string filename -> no_crlf filename -> 1 < parts < 2 ^ 53 -> 0 <= size < 2 ^ 53 ->
  let L := if line_size =? 0 then 128 else line_size in
  Forall (fun d => line_ok L d) ds ->
  feeds Y (multi_post filename size parts line_size) ds os E ->
  nth_error ds k = Some d -> nth_error os k = Some o -> d <> [] -> front_ok pre -> tail_ok fin ->
  let pos := zlen (concat (firstn k ds)) in
  exists p, from_post Y A (pre ++ o ++ fin) isRaw = Val (inr p) /\
    p_data p = Some d /\ p_crc32 p = Some (be32 (crc32_spec 0 d)) /\
    p_warnings p = (match fin with [] => [J "missing_yend_newline"] | _ => [] end) /\
    p_yencStart p = zlen pre /\ p_yencEnd p = zlen (pre ++ o) + (match fin with [] => 0 | _ => 2 end) /\
    prop_is p (J "begin") (J "part") (js_dec (Z.of_nat k + 1)) /\ prop_is p (J "begin") (J "total") (js_dec parts) /\
    prop_is p (J "begin") (J "line") (js_dec L) /\ prop_is p (J "begin") (J "size") (js_dec size) /\
    prop_is p (J "part") (J "begin") (js_dec (pos + 1)) /\ prop_is p (J "part") (J "end") (js_dec (pos + zlen d)) /\
    prop_is p (J "end") (J "pcrc32") (js_hex (be32 (crc32_spec 0 d))) /\
    (Z.of_nat k + 1 = parts -> prop_is p (J "end") (J "crc32") (js_hex (be32 (crc32_spec 0 (concat ds))))) /\
    (good_name filename -> prop_is p (J "begin") (J "name") filename).
Proof. exact multi_roundtrip. Qed.
Print Assumptions c52_multi_part_roundtrip.

(** The restriction to nonempty parts is needed. *)
Theorem c52_empty_part_refuted : exists Y ds os E o p, works Y /\ feeds Y (multi_post (J "a") 1 2 128) ds os E /\
  nth_error os 1 = Some o /\ from_post Y int_numbers (o ++ [CR; LF]) false = Val (inr p) /\ p_warnings p <> [].
Proof.
  exists Y0, [Bf "a"; []]. eexists _, _, _, _. split; [exact Y0_works|].
  split; [eapply feeds_cons; [vm_compute; reflexivity|]; eapply feeds_cons; [vm_compute; reflexivity|]; apply feeds_nil|].
  split; [reflexivity|]. split; [vm_compute; reflexivity|discriminate].
Qed.
Print Assumptions c52_empty_part_refuted.

Example c52_ex : exists os E o, feeds Y0 (multi_post (J "a") 5 2 128) [Bf "ab"; Bf "cde"] os E /\ nth_error os 1 = Some o.
Proof.
  eexists _, _, _. split; [eapply feeds_cons; [vm_compute; reflexivity|]; eapply feeds_cons; [vm_compute; reflexivity|]; apply feeds_nil|].
  reflexivity.
Qed.

(** C53: the offsets returned for any Buffer lie inside it, in order, and mark what
    they are said to: yencStart is the first line that begins with "=ybegin ", the
    text range ends right before a "=yend " line, and the data returned is the text
    range decoded. *)
Theorem c53_offsets : forall Y A data isRaw p, works Y -> zlen data < 2 ^ 63 -> from_post Y A data isRaw = Val (inr p) ->
  0 <= p_yencStart p /\ p_yencStart p + 10 <= p_yencEnd p <= zlen data /\
  (exists a b, data = a ++ Bf "=ybegin " ++ b /\ zlen a = p_yencStart p /\ front_ok a) /\
  (p_data p = None /\ p_dataStart p = None /\ p_dataEnd p = None \/
   exists s e o x text y, p_dataStart p = Some s /\ p_dataEnd p = Some e /\ p_data p = Some o /\
     p_yencStart p + 10 <= s <= e /\ e + 8 <= p_yencEnd p /\
     data = x ++ text ++ [CR; LF] ++ Bf "=yend " ++ y /\ zlen x = s /\ zlen text = e - s /\
     y_decode Y text isRaw = Val o).
Proof. exact offsets. Qed.
Print Assumptions c53_offsets.

Example c53_ex : exists p, from_post Y0 int_numbers (Bf "X: y" ++ [CR; LF] ++ single_article (Bf "a") 128 (Bf "abc")) false = Val (inr p) /\ p_yencStart p = 6.
Proof. eexists. split; [vm_compute; reflexivity|reflexivity]. Qed.
