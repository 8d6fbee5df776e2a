(** Exact conditions: for some of the properties that are false as first stated, when
    they hold and when they do not.

    The encoder is any of those listed in [an_encoder], the CRC shift any of [a_shift]. *)
From Verif Require Import Base BaseLemmas EncModel EncSpec EncNode EncNodeSpec EncNodeProofs EncIncr DecNode DecNodeSpec DecNodeProofs
  PropsDecLemmas DecModel CrcSpec CrcModel CrcNodeSpec CrcNodeProofs CrcExact JsBase JsModel JsSpec JsStrings JsEncoder JsParse JsInject JsBuilds PropsJsLemmas.
From Coq Require Strings.String.
Import String.StringSyntax.
Open Scope Z_scope.

(** C08: minSize is a lower bound for all messages of [n] bytes exactly when the line
    size does not divide [n]. *)
Theorem c08_min_size_exact : forall e L n, an_encoder e -> 1 <= L <= INT_MAX - 6 -> 1 <= n < 2 ^ 53 ->
  ((forall data o, zlen data = n -> encode_returns e data [L] o -> js_minSize n L <= zlen o) <-> n mod L <> 0).
Proof. intros e L n E. apply minSize_exact, an_encoder_meets, E. Qed.
Print Assumptions c08_min_size_exact.

Example c08_exact_ex : 128 mod 128 = 0 /\ 127 mod 128 <> 0 /\ js_minSize 128 128 = 130 /\ js_minSize 127 128 = 127 /\
  encode_returns do_encode_generic (repeat x00 128) [128] (yenc 128 true 0 (repeat x00 128)) /\
  zlen (yenc 128 true 0 (repeat x00 128)) = 128.
Proof.
  split; [reflexivity|]. split; [discriminate|]. split; [reflexivity|]. split; [reflexivity|]. split; [|vm_compute; reflexivity].
  apply (encode_spec _ generic_meets _ _ 128 0); [discriminate|reflexivity|]. split; vm_compute; [reflexivity|left; discriminate].
Qed.

(** C12: a message fed in pieces, starting in column [col], gives the text that it gives as
    one piece exactly when none of the pieces that have bytes behind them ends with a full line. *)
Theorem c12_incremental_exact : forall e L col chunks, an_encoder e ->
  2 <= L <= INT_MAX - 6 -> 0 <= col < L -> zlen (concat chunks) < 2 ^ 53 -> concat chunks <> [] ->
  exists whole ret pieces,
    encodeIncr_returns e (concat chunks) [L; col] whole ret /\
    incr_chain e L col chunks pieces /\
    (pieces = whole <-> forall a b, chunks = a ++ b -> concat b <> [] -> yenc_col L false col (concat a) < L).
Proof.
  intros e L col chunks E HL Hc Hn Hd. destruct (chain_exact e L (an_encoder_meets e E) HL chunks col Hc Hn) as (o & C & _ & _ & X).
  exists (yenc L false col (concat chunks)), (ret_col L false col (concat chunks)), o. split; [|split; [exact C|exact X]].
  apply encodeIncr_spec; [apply an_encoder_meets, E|exact Hd|apply args_ok; assumption|]. split; [exact Hn|left; apply HL].
Qed.
Print Assumptions c12_incremental_exact.

(** Four bytes on lines of four: a full line, whether or not the last is escaped. *)
Example c12_exact_ex : yenc_col 4 false 0 (concat [[x00; x01]; [x02; x03]]) = 4 /\ yenc_col 4 false 0 (concat [[x00; x01]; [x02]]) = 3 /\
  yenc_col 4 false 0 [x00; x01; x02; xd6] = 5.
Proof. vm_compute. auto. Qed.

(** With lines of one character the column returned can be one that the next call
    rejects: here [0xd6] becomes two characters, and the column returned is 2. *)
Theorem c12_line_size_one_refuted : exists (d1 d2 o : list byte) col,
  encodeIncr_returns do_encode_generic d1 [1; 0] o col /\ d2 <> [] /\
  forall malloc src m, node_encode_incr do_encode_generic malloc src (zlen d2) None [1; col] m = Throws.
Proof.
  exists [xd6], [x00], (yenc 1 false 0 [xd6]), (ret_col 1 false 0 [xd6]). split.
  - apply encodeIncr_spec; [apply generic_meets|discriminate|reflexivity|]. split; vm_compute; [reflexivity|left; discriminate].
  - split; [discriminate|]. intros. reflexivity.
Qed.
Print Assumptions c12_line_size_one_refuted.

(** C30: crc32_zeroes continues the CRC [c] rightly over [n] zero bytes exactly for [n] below
    2^31, for every [c] but ffffffff (whose register is 0 and stays 0). *)
Theorem c30_zeroes_exact : forall shift c n, a_shift shift -> word c -> c <> 0xffffffff%N -> 0 <= n < 2 ^ 53 ->
  (node_crc32_zeroes shift n (Some (be32 c)) = JReturns (be32 (crc32_spec c (repeat x00 (Z.to_nat n)))) <-> n < 2 ^ 31).
Proof. intros shift c n S. apply zeroes_exact, a_shift_ok, S. Qed.
Print Assumptions c30_zeroes_exact.

Theorem c30_zeroes_default_exact : forall shift n, a_shift shift -> 0 <= n < 2 ^ 53 ->
  (node_crc32_zeroes shift n None = JReturns (crc_of (repeat x00 (Z.to_nat n))) <-> n < 2 ^ 31).
Proof. intros shift n S. apply (zeroes_exact shift (a_shift_ok shift S) 0%N n); [reflexivity|discriminate]. Qed.
Print Assumptions c30_zeroes_default_exact.

Example c30_exact_ex : word 0xcbf43926%N /\
  node_crc32_zeroes crc32_shift_generic 5 (Some (be32 0xcbf43926)) = JReturns (be32 (crc32_spec 0xcbf43926 (repeat x00 5))) /\
  node_crc32_zeroes crc32_shift_generic (2 ^ 32 + 5) (Some (be32 0xcbf43926)) = JReturns (be32 (crc32_spec 0xcbf43926 (repeat x00 5))).
Proof. vm_compute. auto. Qed.

(** C45: for names without U+0000, the name put into the header contains a line break exactly when
    the first 256 units of the file name do. *)
Theorem c45_injection_exact : forall Y filename size parts line_size ds os E,
  works Y -> is_string filename -> ~ In 0%N filename -> 0 <= size ->
  let L := if line_size =? 0 then 128 else line_size in
  Forall (fun d => line_ok L d /\ zlen d < 2 ^ 63) ds ->
  feeds Y (multi_post filename size parts line_size) ds os E ->
  exists nm, (occurs [CR; LF] nm <-> exists a b, firstn 256 filename = a ++ [13; 10]%N ++ b) /\
    forall k d o, nth_error ds k = Some d -> nth_error os k = Some o ->
      (parts <= 1 -> o = single_article nm L d) /\
      (1 < parts -> exists full, o = part_article nm L size parts (Z.of_nat k + 1) (zlen (concat (firstn k ds))) d full).
Proof.
  intros Y filename size parts line_size ds os E W S N Hs L HF H. exists (header_name filename).
  split; [exact (header_breaks filename S N)|]. exact (articles_name Y filename size parts line_size ds os E W Hs HF H).
Qed.
Print Assumptions c45_injection_exact.

Example c45_exact_ex : let s := (J "x" ++ [13; 10]%N ++ J "=yend size=3") in
  is_string s /\ ~ In 0%N s /\ (exists a b, firstn 256 s = a ++ [13; 10]%N ++ b) /\
  exists os E, feeds Y0 (multi_post s 3 1 128) [Bf "abc"] os E.
Proof.
  split; [repeat constructor|]. split; [cbn; intuition discriminate|]. split; [exists (J "x"), (J "=yend size=3"); reflexivity|].
  eexists _, _. eapply feeds_cons; [vm_compute; reflexivity|]. apply feeds_nil.
Qed.

(** C47: the number decodeTo returns is the number of bytes written exactly when that is below 2^31. *)
Theorem c47_count_exact : forall data isRaw src dest dcap m,
  bytes_at m src data -> zlen data <= dcap -> dec_layout src (zlen data) dest ->
  exists o n m', decode_returns scalar data isRaw o /\
    node_decode_to scalar src (zlen data) dest dcap isRaw m = Returns (Ok (n, m')) /\ bytes_at m' dest o /\
    (n = zlen o <-> zlen o < 2 ^ 31).
Proof.
  intros data isRaw src dest dcap m Hm Hc Hl.
  destruct (decodeTo_spec scalar scalar_meets data isRaw src dest dcap m Hm Hc Hl) as (m' & R & B & _).
  eexists _, _, m'. split; [apply (decode_spec scalar scalar_meets)|]. split; [exact R|]. split; [exact B|]. apply int32_exact, zlen_nonneg.
Qed.
Print Assumptions c47_count_exact.

Example c47_exact_ex : to_int32 (2 ^ 31 - 1) = 2 ^ 31 - 1 /\ to_int32 (2 ^ 31) = - 2 ^ 31.
Proof. split; reflexivity. Qed.
